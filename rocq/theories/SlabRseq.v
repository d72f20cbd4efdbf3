(** Model of the restartable sequences of tcmalloc/internal/percpu_tcmalloc.h and
    tcmalloc/internal/percpu_rseq_x86_64.S: threads that are moved between CPUs and interrupted at any instruction, the
    cached slab pointer that an interruption clears, and the operations that stop a CPU to
    work on its region, or all of them to replace the slabs.

    A thread executes one load or store at a time.  Memory is sequentially consistent: the
    fence (membarrier) and the acquire and release accesses to [stopped] are what the code
    uses to get this for the accesses modelled here.  At most one thread runs on a CPU. *)
From Verif Require Import Base Slab SlabProps.

(** The per-thread word tcmalloc_slabs, internal/percpu.h:31-33, 164-166, internal/percpu_tcmalloc.h:1202:
    no cached bit; the cached bit and no pointer; the cached bit and the region of a CPU in the slabs [sl]. *)
Inductive tlsv := TNone | TMask | TSlab (sl c : Z).

(** The operations on the CPU that a thread runs on. *)
Inductive lop := LPush (cl item : Z) | LPop (cl : Z) | LPushB (cl : Z) (batch : list Z) | LPopB (cl len : Z).
Definition lclass (o : lop) : Z := match o with LPush cl _ | LPop cl | LPushB cl _ | LPopB cl _ => cl end.
Definition sop_of (o : lop) : sop :=
  match o with LPush cl x => OPush cl x | LPop cl => OPop cl | LPushB cl b => OPushBatch cl b | LPopB cl n => OPopBatch cl n end.

Inductive pc :=
| Idle
(* critical sections: at the start; the pointer loaded; [current] loaded *)
| Enter (o : lop) | Loaded (o : lop) (sl c : Z) | HaveCur (o : lop) (sl c cu : Z)
| PushStore (cl item sl c cu : Z) | PushCommit (cl item sl c cu : Z)
| PopCommit (cl sl c cu x : Z)
| PushLoop (cl : Z) (batch : list Z) (sl c r9 r10 r11 : Z)
| PopLoop (cl len sl c r9 r11 : Z) (got : list Z)
(* Grow: the slabs loaded; the header loaded; begin loaded; inside StoreCurrentCpu *)
| Grow0 (cl len : Z) | Grow1 (cl len sl : Z) | Grow2 (cl len sl v cu en : Z) | Grow3 (cl len sl v cu en n : Z) | Grow4 (cl len sl v cu en n : Z)
(* CacheCpuSlab and CacheCpuSlabSlow *)
| Cache0 | CacheF | Cache1 | Cache2 | Cache3 (v : Z) | Cache4 (v sl : Z) | Cache4s (v sl : Z) | Cache5 (v sl : Z) | Cache6 (v sl : Z)
(* the check that the CPU is populated *)
| Cache7 (v : Z)
(* an operation on the CPU [c] from any CPU; [true]: Populate *)
| RLock (c : Z) (k : bool) | RStop (c : Z) (k : bool) | RFence (c : Z) (k : bool) | RWork (c : Z) (k : bool) | RStart (c : Z) (k : bool)
| RPop (c : Z) | RUnlock (c : Z).

(** Where a thread continues after an interruption, internal/percpu_rseq_x86_64.S:79-103, 140-144: at the start of the critical
    section it is in, if it is in one. *)
Definition abort_pc (p : pc) : pc :=
  match p with
  | Loaded o _ _ | HaveCur o _ _ _ => Enter o
  | PushStore cl item _ _ _ | PushCommit cl item _ _ _ => Enter (LPush cl item)
  | PopCommit cl _ _ _ _ => Enter (LPop cl)
  | PushLoop cl batch _ _ _ _ _ => Enter (LPushB cl batch)
  | PopLoop cl len _ _ _ _ _ => Enter (LPopB cl len)
  | Grow4 cl len sl v cu en n => Grow3 cl len sl v cu en n
  | Cache4s v sl => Cache4 v sl
  | p => p
  end.

(** The holder of the lock of a CPU's cache, and the stage of an operation that holds all
    the locks: replacing the slabs by [new]; draining the old ones; unmapping the regions
    of drained CPUs. *)
Inductive holder := Free | HeldBy (t : Z) | HeldAll.
Inductive stage := GNone | GNew (new : Z) | GDrain (old : Z) (todo : Z -> bool) | GRel.

Record rst := Rst {
  cpu_of : Z -> option Z; tls : Z -> tlsv; pcs : Z -> pc; vcpu : Z -> Z;
  stopped : Z -> bool; locks : Z -> holder; populated : Z -> bool;
  cur : Z; cfgs : Z -> scfg; begs : Z -> Z -> Z; regs : Z -> Z -> region;
  glob : stage;
  fenced : Z -> bool;           (* ghost: a fence has interrupted the CPU since it was stopped *)
  inited : Z -> Z -> bool }.    (* ghost: the region has been initialised and not unmapped *)

Definition set_cpu (s : rst) (t : Z) (x : option Z) : rst :=
  Rst (upd (cpu_of s) t x) (tls s) (pcs s) (vcpu s) (stopped s) (locks s) (populated s) (cur s) (cfgs s) (begs s) (regs s) (glob s) (fenced s) (inited s).
Definition set_tls (s : rst) (t : Z) (x : tlsv) : rst :=
  Rst (cpu_of s) (upd (tls s) t x) (pcs s) (vcpu s) (stopped s) (locks s) (populated s) (cur s) (cfgs s) (begs s) (regs s) (glob s) (fenced s) (inited s).
Definition set_pc (s : rst) (t : Z) (x : pc) : rst :=
  Rst (cpu_of s) (tls s) (upd (pcs s) t x) (vcpu s) (stopped s) (locks s) (populated s) (cur s) (cfgs s) (begs s) (regs s) (glob s) (fenced s) (inited s).
Definition set_vcpu (s : rst) (t : Z) (x : Z) : rst :=
  Rst (cpu_of s) (tls s) (pcs s) (upd (vcpu s) t x) (stopped s) (locks s) (populated s) (cur s) (cfgs s) (begs s) (regs s) (glob s) (fenced s) (inited s).
Definition set_stopped (s : rst) (c : Z) (x : bool) : rst :=
  Rst (cpu_of s) (tls s) (pcs s) (vcpu s) (upd (stopped s) c x) (locks s) (populated s) (cur s) (cfgs s) (begs s) (regs s) (glob s) (fenced s) (inited s).
Definition set_lock (s : rst) (c : Z) (x : holder) : rst :=
  Rst (cpu_of s) (tls s) (pcs s) (vcpu s) (stopped s) (upd (locks s) c x) (populated s) (cur s) (cfgs s) (begs s) (regs s) (glob s) (fenced s) (inited s).
Definition set_populated (s : rst) (c : Z) (x : bool) : rst :=
  Rst (cpu_of s) (tls s) (pcs s) (vcpu s) (stopped s) (locks s) (upd (populated s) c x) (cur s) (cfgs s) (begs s) (regs s) (glob s) (fenced s) (inited s).
Definition set_fenced (s : rst) (c : Z) (x : bool) : rst :=
  Rst (cpu_of s) (tls s) (pcs s) (vcpu s) (stopped s) (locks s) (populated s) (cur s) (cfgs s) (begs s) (regs s) (glob s) (upd (fenced s) c x) (inited s).
Definition set_glob (s : rst) (x : stage) : rst :=
  Rst (cpu_of s) (tls s) (pcs s) (vcpu s) (stopped s) (locks s) (populated s) (cur s) (cfgs s) (begs s) (regs s) x (fenced s) (inited s).
Definition set_locks (s : rst) (x : holder) : rst :=
  Rst (cpu_of s) (tls s) (pcs s) (vcpu s) (stopped s) (fun _ => x) (populated s) (cur s) (cfgs s) (begs s) (regs s) (glob s) (fenced s) (inited s).
Definition set_cur (s : rst) (sl : Z) : rst :=
  Rst (cpu_of s) (tls s) (pcs s) (vcpu s) (stopped s) (locks s) (populated s) sl (cfgs s) (begs s) (regs s) (glob s) (fenced s) (inited s).
Definition upd2 {A} (f : Z -> Z -> A) (x y : Z) (v : A) : Z -> Z -> A := fun x' y' => if (x' =? x) && (y' =? y) then v else f x' y'.
Definition set_reg (s : rst) (sl c : Z) (r : region) : rst :=
  Rst (cpu_of s) (tls s) (pcs s) (vcpu s) (stopped s) (locks s) (populated s) (cur s) (cfgs s) (begs s) (upd2 (regs s) sl c r) (glob s) (fenced s) (inited s).
Definition set_inited (s : rst) (sl c : Z) (x : bool) : rst :=
  Rst (cpu_of s) (tls s) (pcs s) (vcpu s) (stopped s) (locks s) (populated s) (cur s) (cfgs s) (begs s) (regs s) (glob s) (fenced s) (upd2 (inited s) sl c x).
(** Fresh slabs with their layout. *)
Definition set_layout (s : rst) (sl : Z) (cf : scfg) (b : Z -> Z) : rst :=
  Rst (cpu_of s) (tls s) (pcs s) (vcpu s) (stopped s) (locks s) (populated s) (cur s) (upd (cfgs s) sl cf) (upd (begs s) sl b) (regs s) (glob s) (fenced s)
      (fun x c => if x =? sl then false else inited s x c).

(** A thread is interrupted: the kernel overwrites the word that holds the cached bit (internal/percpu.h:124-133)
    and moves the thread out of the critical section. *)
Definition interrupt (s : rst) (t : Z) : rst := set_pc (set_tls s t TNone) t (abort_pc (pcs s t)).
(** The threads that run on the CPU [c] are interrupted. *)
Definition on_cpu (s : rst) (c t : Z) : bool := match cpu_of s t with Some c' => c' =? c | None => false end.
Definition interrupt_cpu (s : rst) (c : Z) : rst :=
  Rst (cpu_of s) (fun t => if on_cpu s c t then TNone else tls s t) (fun t => if on_cpu s c t then abort_pc (pcs s t) else pcs s t)
      (vcpu s) (stopped s) (locks s) (populated s) (cur s) (cfgs s) (begs s) (regs s) (glob s) (fenced s) (inited s).

(** What happens to the regions: who did it (a thread, with the CPU it runs on and the
    slabs in use, or the holder of the stopped CPU), the region, the operation, its result. *)
Inductive who := Local (t cpu slabs : Z) | Remote.
Inductive label :=
| LInit (sl c : Z)
| LOp (w : who) (cf : scfg) (sl c : Z) (o : sop) (r : sres)
| LCrash.

Definition set_curr (r : region) (cl v : Z) : region := Region (upd (h_cur r) cl v) (h_end r) (words r).
Definition set_word (r : region) (i v : Z) : region := Region (h_cur r) (h_end r) (upd (words r) i v).

(** One load or store of the thread [t], which runs on the CPU [here].
    Push: internal/percpu_tcmalloc.h:666-689; Pop: internal/percpu_tcmalloc.h:842-868;
    PushBatch, PopBatch: internal/percpu_rseq_x86_64.S:240-270, internal/percpu_rseq_x86_64.S:301-326;
    StoreCurrentCpu: internal/percpu_tcmalloc.h:592-607; Grow: internal/percpu_tcmalloc.h:1005-1020;
    CacheCpuSlabSlow: internal/percpu_tcmalloc.h:1197-1253;
    Populate: cpu_cache.h:1380-1387; StopCpu, StartCpu: internal/percpu_tcmalloc.h:1610-1622;
    FenceCpu: internal/percpu.cc:372-401. *)
Definition tstep (s : rst) (t : Z) (here : Z) : rst * list label :=
  let reg sl c := regs s sl c in
  let me := Local t here (cur s) in
  let lop_label sl c o r := LOp me (cfgs s sl) sl c o r in
  match pcs s t with
  | Idle => (s, [])
  | Enter o =>
      match tls s t with
      | TSlab sl c => (set_pc s t (Loaded o sl c), [])
      | _ => (set_pc s t Idle, [])
      end
  | Loaded o sl c => (set_pc s t (HaveCur o sl c (h_cur (reg sl c) (lclass o))), [])
  | HaveCur (LPush cl item) sl c cu =>
      if h_end (reg sl c) cl <=? cu then (set_pc s t Idle, [lop_label sl c (OPush cl item) (RBool false)])
      else (set_pc s t (PushStore cl item sl c cu), [])
  | PushStore cl item sl c cu => (set_pc (set_reg s sl c (set_word (reg sl c) cu item)) t (PushCommit cl item sl c cu), [])
  | PushCommit cl item sl c cu =>
      (set_pc (set_reg s sl c (set_curr (reg sl c) cl (wrap16 (cu + 1)))) t Idle, [lop_label sl c (OPush cl item) (RBool true)])
  | HaveCur (LPop cl) sl c cu =>
      let x := words (reg sl c) (cu - 1) in
      if marked x then (set_pc s t Idle, [lop_label sl c (OPop cl) (RObj None)])
      else (set_pc s t (PopCommit cl sl c cu x), [])
  | PopCommit cl sl c cu x =>
      (set_pc (set_reg s sl c (set_curr (reg sl c) cl (wrap16 (cu - 1)))) t Idle, [lop_label sl c (OPop cl) (RObj (Some x))])
  | HaveCur (LPushB cl batch) sl c cu =>
      let len := Z.of_nat (length batch) in
      let en := h_end (reg sl c) cl in
      if en <=? cu then (set_pc s t Idle, [lop_label sl c (OPushBatch cl batch) (RNum 0)])
      else (set_pc s t (PushLoop cl batch sl c cu (cu + Z.min len (en - cu)) len), [])
  | PushLoop cl batch sl c r9 r10 r11 =>
      if r9 =? r10
      then (set_pc (set_reg s sl c (set_curr (reg sl c) cl (wrap16 r9))) t Idle,
            [lop_label sl c (OPushBatch cl batch) (RNum (Z.of_nat (length batch) - r11))])
      else (set_pc (set_reg s sl c (set_word (reg sl c) r9 (nth (Z.to_nat (r11 - 1)) batch 0))) t
                   (PushLoop cl batch sl c (r9 + 1) r10 (r11 - 1)), [])
  | HaveCur (LPopB cl len) sl c cu =>
      let begin := begs s (cur s) cl in
      if cu <=? begin then (set_pc s t Idle, [lop_label sl c (OPopBatch cl len) (RObjs [])])
      else (set_pc s t (PopLoop cl len sl c cu (Z.min len (cu - begin)) []), [])
  | PopLoop cl len sl c r9 r11 got =>
      if Z.of_nat (length got) =? r11
      then (set_pc (set_reg s sl c (set_curr (reg sl c) cl (wrap16 r9))) t Idle, [lop_label sl c (OPopBatch cl len) (RObjs got)])
      else (set_pc s t (PopLoop cl len sl c (r9 - 1) r11 (got ++ [words (reg sl c) (r9 - 1)])), [])
  | Grow0 cl len => (set_pc s t (Grow1 cl len (cur s)), [])
  | Grow1 cl len sl => (set_pc s t (Grow2 cl len sl (vcpu s t) (h_cur (reg sl (vcpu s t)) cl) (h_end (reg sl (vcpu s t)) cl)), [])
  | Grow2 cl len sl v cu en =>
      let have := s_max (cfgs s sl) cl - (en - begs s (cur s) cl) in
      if have <=? 0 then (set_pc s t Idle, [])
      else (set_pc s t (Grow3 cl len sl v cu en (Z.min (wrap16 len) (wrap16 have))), [])
  | Grow3 cl len sl v cu en n =>
      match tls s t with TNone => (set_pc s t Idle, []) | _ => (set_pc s t (Grow4 cl len sl v cu en n), []) end
  | Grow4 cl len sl v cu en n =>
      let r := reg sl v in
      (set_pc (set_reg s sl v (Region (upd (h_cur r) cl cu) (upd (h_end r) cl (wrap16 (en + n))) (words r))) t Idle,
       [lop_label sl v (OGrow cl len) (RNum n)])
  | Cache0 => match tls s t with TNone => (set_pc s t Cache1, []) | _ => (set_pc s t CacheF, []) end
  | CacheF => (set_pc (set_vcpu s t here) t Idle, [])
  | Cache1 => (set_pc (set_tls s t TMask) t Cache2, [])
  | Cache2 => (set_pc s t (Cache3 here), [])
  | Cache3 v => (set_pc s t (Cache4 v (cur s)), [])
  | Cache4 v sl => match tls s t with TNone => (set_pc s t Cache1, []) | _ => (set_pc s t (Cache4s v sl), []) end
  | Cache4s v sl => (set_pc (set_tls s t (TSlab sl v)) t (Cache5 v sl), [])
  | Cache5 v sl =>
      if stopped s v then (set_pc (set_vcpu (set_tls s t TNone) t (-1)) t Idle, []) else (set_pc s t (Cache6 v sl), [])
  | Cache6 v sl => if cur s =? sl then (set_pc (set_vcpu s t v) t (Cache7 v), []) else (set_pc s t Cache1, [])
  | Cache7 v => if populated s v then (set_pc s t Idle, []) else (set_pc s t (RLock v true), [])
  | RLock c k =>
      match locks s c with
      | Free => if k && populated s c then (set_pc s t Idle, []) else (set_pc (set_lock s c (HeldBy t)) t (RStop c k), [])
      | _ => (s, [])
      end
  | RStop c k => if stopped s c then (s, [LCrash]) else (set_pc (set_stopped s c true) t (RFence c k), [])
  | RFence c k =>
      (* nothing to do on the CPU the thread itself runs on *)
      if here =? c then (set_pc (set_fenced s c true) t (RWork c k), [])
      else (set_pc (set_fenced (interrupt_cpu s c) c true) t (RWork c k), [])
  | RWork c true =>
      match init_cpu (cfgs s (cur s)) (reg (cur s) c) with
      | Some r => (set_pc (set_inited (set_reg s (cur s) c r) (cur s) c true) t (RStart c true), [LInit (cur s) c])
      | None => (s, [LCrash])
      end
  | RWork c false => (set_pc s t (RStart c false), [])
  | RStart c k => (set_pc (set_fenced (set_stopped s c false) c false) t (if k then RPop c else RUnlock c), [])
  | RPop c => (set_pc (set_populated s c true) t (RUnlock c), [])
  | RUnlock c => (set_pc (set_lock s c Free) t Idle, [])
  end.

(** What a thread may start when it is idle: an operation on its CPU, growing a class,
    looking up its CPU, or working on a CPU.  Classes exist, objects have even addresses,
    batches are not empty. *)
Definition entry_ok (ncpu nclass : Z) (p : pc) : Prop :=
  match p with
  | Enter (LPush cl item) => 1 <= cl < nclass /\ Z.even item = true
  | Enter (LPop cl) => 1 <= cl < nclass
  | Enter (LPushB cl batch) => 1 <= cl < nclass /\ batch <> [] /\ Forall (fun x => Z.even x = true) batch
  | Enter (LPopB cl len) => 1 <= cl < nclass /\ 1 <= len
  | Grow0 cl len => 1 <= cl < nclass /\ 0 <= len < 2 ^ 16
  | Cache0 => True
  | RLock c false => 0 <= c < ncpu
  | _ => False
  end.

(** The operations on a stopped CPU: GrowOtherCache, ShrinkOtherCache, Drain. *)
Definition remote_op (nclass : Z) (o : sop) : Prop :=
  match o with
  | OGrowOther cl len | OShrink cl len => 1 <= cl < nclass /\ 0 <= len < 2 ^ 16
  | ODrain => True
  | _ => False
  end.

(** A layout that the code accepts (its checks pass) and that the offsets can express. *)
Definition layout_for (nclass : Z) (cf : scfg) (b : Z -> Z) : Prop :=
  s_classes cf = nclass /\ layout_ok cf /\ words_needed cf < 2 ^ 16 /\ init_slabs cf = Some b /\ forall r, init_cpu cf r <> None.

(** The operations that hold all the locks: ResizeSlabs and UpdateMaxCapacities, internal/percpu_tcmalloc.h:1317-1417
    ([GNew], [GDrain]), and ReleaseSlabMetadataForDrainedCpus, internal/percpu_tcmalloc.h:1493-1605 ([GRel]).  The code stops the CPUs and
    fences them in a fixed order; here any order is possible, which includes it. *)
Inductive rstep (ncpu nclass : Z) : rst -> list label -> rst -> Prop :=
| st_run s t c : cpu_of s t = None -> 0 <= c < ncpu -> (forall t', cpu_of s t' <> Some c) -> rstep ncpu nclass s [] (set_cpu s t (Some c))
| st_preempt s t : rstep ncpu nclass s [] (set_cpu (interrupt s t) t None)
| st_start s t p : pcs s t = Idle -> entry_ok ncpu nclass p -> rstep ncpu nclass s [] (set_pc s t p)
| st_uncache s t : pcs s t = Idle -> rstep ncpu nclass s [] (set_tls s t TNone)
| st_thread s t here s' ls : cpu_of s t = Some here -> tstep s t here = (s', ls) -> rstep ncpu nclass s ls s'
| st_remote s t c o r x : pcs s t = RWork c false -> cpu_of s t <> None -> populated s c = true -> remote_op nclass o ->
    sop_step (cfgs s (cur s)) (begs s (cur s)) (regs s (cur s) c) o = (r, x) ->
    rstep ncpu nclass s [LOp Remote (cfgs s (cur s)) (cur s) c o x] (set_reg s (cur s) c r)
| st_gbegin s new cf b : glob s = GNone -> (forall c, 0 <= c < ncpu -> locks s c = Free) -> new <> cur s ->
    layout_for nclass cf b ->
    rstep ncpu nclass s [] (set_glob (set_locks (set_layout s new cf b) HeldAll) (GNew new))
| st_gstop s c : glob s = GRel \/ (exists new, glob s = GNew new) -> 0 <= c < ncpu -> stopped s c = false ->
    rstep ncpu nclass s [] (set_stopped s c true)
| st_ginit s new c r : glob s = GNew new -> stopped s c = true -> init_cpu (cfgs s new) (regs s new c) = Some r ->
    rstep ncpu nclass s [LInit new c] (set_inited (set_reg s new c r) new c true)
| st_gfence s c : glob s <> GNone -> stopped s c = true -> rstep ncpu nclass s [] (set_fenced (interrupt_cpu s c) c true)
| st_gswap s new : glob s = GNew new ->
    (forall c, 0 <= c < ncpu -> fenced s c = true /\ (populated s c = true -> inited s new c = true)) ->
    rstep ncpu nclass s [] (set_glob (set_cur s new) (GDrain (cur s) (populated s)))
| st_gstart s c : (exists old todo, glob s = GDrain old todo) \/ glob s = GRel ->
    rstep ncpu nclass s [] (set_fenced (set_stopped s c false) c false)
| st_gdrain s old todo c r x : glob s = GDrain old todo -> todo c = true ->
    sop_step (cfgs s old) (begs s old) (regs s old c) ODrain = (r, x) ->
    rstep ncpu nclass s [LOp Remote (cfgs s old) old c ODrain x] (set_glob (set_reg s old c r) (GDrain old (upd todo c false)))
| st_gend s : (exists old todo, glob s = GDrain old todo /\ forall c, todo c = false) \/ glob s = GRel ->
    (forall c, stopped s c = false) -> rstep ncpu nclass s [] (set_glob (set_locks s Free) GNone)
| st_grel s : glob s = GNone -> (forall c, 0 <= c < ncpu -> locks s c = Free) ->
    rstep ncpu nclass s [] (set_glob (set_locks s HeldAll) GRel)
| st_unmap s c : glob s = GRel -> fenced s c = true ->
    (populated s c = true -> is_drained (cfgs s (cur s)) (begs s (cur s)) (regs s (cur s) c) = true) ->
    rstep ncpu nclass s [] (set_inited (set_reg (set_populated s c false) (cur s) c (Region (fun _ => 0) (fun _ => 0) (fun _ => 0))) (cur s) c false).

(** Initially no thread has run, no CPU has been used and the slabs in use have a layout. *)
Inductive reach (ncpu nclass : Z) : rst -> list label -> Prop :=
| rn_init s cf b : layout_for nclass cf b ->
    (forall t, cpu_of s t = None /\ tls s t = TNone /\ pcs s t = Idle) ->
    (forall c, stopped s c = false /\ fenced s c = false /\ locks s c = Free /\ populated s c = false) ->
    (forall sl, cfgs s sl = cf /\ begs s sl = b) -> (forall sl c, inited s sl c = false) -> glob s = GNone ->
    reach ncpu nclass s []
| rn_step s s' tr ls : reach ncpu nclass s tr -> rstep ncpu nclass s ls s' -> reach ncpu nclass s' (tr ++ ls).
