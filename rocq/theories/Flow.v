(** malloc and free of one size class through all tiers: the per-CPU caches, the sharded transfer caches (if in use), the
    transfer cache and the central free list, with the slow paths of cpu_cache.h that move objects between them, for any number
    of threads that are moved between CPUs at any time, together with the background work that drains, shrinks and plunders.

    Simplified: the per-CPU caches are stacks with a capacity and their operations are atomic (Slab.v, SlabRseq.v), the central
    free list is a bag and its operations are atomic (CentralFreeList.v); how the capacities are chosen is CpuCache.v, here
    they change in any way that leaves room for what is cached.  The transfer caches are those of TransferCache.v with one step
    for each access of shared memory. *)
From Verif Require Import Base TransferCache CpuCache.
From Coq Require Import Permutation.

(** common.h:208. *)
Definition kMaxObjectsToMove : Z := 128.

(** Numbers of CPUs, groups of CPUs that share a cache (transfer_cache.h:136) and threads; num_objects_to_move of the class;
    BypassCpuCache (cpu_cache.h:1250-1256) and UseBackingShardedTransferCache (cpu_cache.h:1259-1267) for the class;
    CpuShard (transfer_cache.h:95-102). *)
Record fpar := FPar { f_ncpu : Z; f_nshard : Z; f_nthr : Z; f_batch : Z; f_bypass : bool; f_sharded : bool; f_shard_of : Z -> Z }.
Definition fpar_ok (p : fpar) : Prop :=
  1 <= f_batch p <= kMaxObjectsToMove /\ forall c, 0 <= c < f_ncpu p -> 0 <= f_shard_of p c < f_nshard p.

(** Where a batch goes: a sharded transfer cache, the transfer cache, the central free list. *)
Inductive tier := TShard (i : Z) | TMain | TCfl.
(** The list below: BackingTransferCache (transfer_cache.h:105-116), the central free list. *)
Definition below (T : tier) : tier := match T with TShard _ => TMain | _ => TCfl end.

(** What is done when a call on the caches below returns. *)
Inductive kont :=
| KPop                                                   (* malloc of one object that passes by the per-CPU cache *)
| KFetch (target total : Z) (result : option Z)          (* Refill: objects were fetched *)
| KRel (result : option Z)                               (* Refill: those that did not fit were released *)
| KDone                                                  (* free of one object that passes by the per-CPU cache *)
| KOver (target total count : Z)                         (* free: a batch was released *)
| KDrain (cpu : Z) (rest : list Z) | KShrunk (cpu : Z)   (* a CPU is being drained, was shrunk *)
| KBg.                                                   (* work on a transfer cache *)

(** Where a thread is.  [InCall]: in a call on the caches below, the first entry is the innermost. *)
Inductive pc :=
| Idle
| AFast | ASlow | AFast2 (cpu : Z) | AUpd (cpu : Z) | ALoop (target total : Z) (result : option Z)
| APush (target total : Z) (result : option Z) (got : Z) (batch : list Z)
| DFast (x : Z) | DSlow (x : Z) | DFast2 (cpu x : Z) | DUpd (cpu x : Z) | DLoop (target total : Z) (batch : list Z)
| RDrain (cpu : Z) (rest : list Z)
| InCall (fr : list (tier * tact)) (k : kont).

(** [s_slab], [s_cap]: the objects of the class in a CPU's cache (the next to be popped first) and its capacity; [s_stop]: the
    CPU is stopped; [s_at]: the CPU whose slab a thread has cached; [s_shard], [s_main], [s_cfl]: the caches below; [s_live]:
    the program's objects.  Not in the code: [s_oom]: the page heap has refused memory during the thread's present call;
    [s_owned]: the objects that the central free list has made of its spans. *)
Record fstate := F {
  s_slab : Z -> list Z; s_cap : Z -> Z; s_stop : Z -> bool; s_at : Z -> option Z;
  s_shard : Z -> tc; s_main : tc; s_cfl : list Z; s_pc : Z -> pc; s_live : list Z; s_oom : Z -> bool; s_owned : list Z }.

Definition set_slab (s : fstate) (c : Z) (l : list Z) : fstate :=
  F (upd (s_slab s) c l) (s_cap s) (s_stop s) (s_at s) (s_shard s) (s_main s) (s_cfl s) (s_pc s) (s_live s) (s_oom s) (s_owned s).
Definition set_cap (s : fstate) (c v : Z) : fstate :=
  F (s_slab s) (upd (s_cap s) c v) (s_stop s) (s_at s) (s_shard s) (s_main s) (s_cfl s) (s_pc s) (s_live s) (s_oom s) (s_owned s).
Definition set_at (s : fstate) (t : Z) (o : option Z) : fstate :=
  F (s_slab s) (s_cap s) (s_stop s) (upd (s_at s) t o) (s_shard s) (s_main s) (s_cfl s) (s_pc s) (s_live s) (s_oom s) (s_owned s).
Definition set_pc (s : fstate) (t : Z) (q : pc) : fstate :=
  F (s_slab s) (s_cap s) (s_stop s) (s_at s) (s_shard s) (s_main s) (s_cfl s) (upd (s_pc s) t q) (s_live s) (s_oom s) (s_owned s).
Definition set_live (s : fstate) (l : list Z) : fstate :=
  F (s_slab s) (s_cap s) (s_stop s) (s_at s) (s_shard s) (s_main s) (s_cfl s) (s_pc s) l (s_oom s) (s_owned s).
Definition set_oom (s : fstate) (t : Z) (b : bool) : fstate :=
  F (s_slab s) (s_cap s) (s_stop s) (s_at s) (s_shard s) (s_main s) (s_cfl s) (s_pc s) (s_live s) (upd (s_oom s) t b) (s_owned s).
Definition set_cfl (s : fstate) (l owned : list Z) : fstate :=
  F (s_slab s) (s_cap s) (s_stop s) (s_at s) (s_shard s) (s_main s) l (s_pc s) (s_live s) (s_oom s) owned.
Definition set_tc (s : fstate) (T : tier) (x : tc) : fstate :=
  match T with
  | TShard i => F (s_slab s) (s_cap s) (s_stop s) (s_at s) (upd (s_shard s) i x) (s_main s) (s_cfl s) (s_pc s) (s_live s) (s_oom s) (s_owned s)
  | TMain => F (s_slab s) (s_cap s) (s_stop s) (s_at s) (s_shard s) x (s_cfl s) (s_pc s) (s_live s) (s_oom s) (s_owned s)
  | TCfl => s
  end.
Definition get_tc (s : fstate) (T : tier) : tc := match T with TShard i => s_shard s i | _ => s_main s end.
(** internal/percpu_tcmalloc.h:263-264 StopCpu and the fence: the CPU's threads lose their cached slab; StartCpu. *)
Definition stop_cpu (s : fstate) (c : Z) : fstate :=
  F (s_slab s) (s_cap s) (upd (s_stop s) c true)
    (fun t => match s_at s t with Some c' => if c' =? c then None else Some c' | None => None end)
    (s_shard s) (s_main s) (s_cfl s) (s_pc s) (s_live s) (s_oom s) (s_owned s).
Definition start_cpu (s : fstate) (c : Z) : fstate :=
  F (s_slab s) (s_cap s) (upd (s_stop s) c false) (s_at s) (s_shard s) (s_main s) (s_cfl s) (s_pc s) (s_live s) (s_oom s) (s_owned s).

(** What the rest of the world decides in a step: the CPU the thread runs on; the length of the series of misses and the
    capacity after UpdateCapacity; whether try_lock succeeds; what a RemoveRange of the central free list returns, what it leaves
    and what was made of new spans for it. *)
Record choice := Ch { c_cpu : Z; c_succ : Z; c_cap : Z; c_lock : bool; c_got : list Z; c_rest : list Z; c_new : list Z }.

Inductive flabel := LNone | LMalloc (r : option Z) | LFree.

Definition go (s : fstate) (t : Z) (q : pc) : option (fstate * flabel) := Some (set_pc s t q, LNone).
(** malloc returns an object or null; free returns. *)
Definition ret_malloc (s : fstate) (t : Z) (r : option Z) : option (fstate * flabel) :=
  Some (set_live (set_pc s t Idle) (match r with Some x => x :: s_live s | None => s_live s end), LMalloc r).
Definition ret_free (s : fstate) (t : Z) : option (fstate * flabel) := Some (set_pc s t Idle, LFree).
Definition ret_bg (s : fstate) (t : Z) : option (fstate * flabel) := Some (set_pc s t Idle, LNone).

(** InsertRange and RemoveRange of a tier: transfer_cache_internals.h:155, 186-187, central_freelist.h:589-590, 696 (the checks),
    None if one fails. *)
Definition enter_insert (s : fstate) (t : Z) (T : tier) (batch : list Z) (fr : list (tier * tact)) (k : kont) : option (fstate * flabel) :=
  if (0 <? zlen batch) && (zlen batch <=? kMaxObjectsToMove) then go s t (InCall ((T, TInsert batch) :: fr) k) else None.
Definition enter_remove (s : fstate) (t : Z) (T : tier) (n : Z) (fr : list (tier * tact)) (k : kont) : option (fstate * flabel) :=
  if (0 <? n) && (n <=? kMaxObjectsToMove) then go s t (InCall ((T, TRemove n) :: fr) k) else None.

(** transfer_cache.h:390-400 get_cache: the shard of the CPU; cpu_cache.h:1154-1171 FetchFromBackingCache, ReleaseToBackingCache. *)
Definition shard_tier (p : fpar) (c : choice) : tier := TShard (f_shard_of p (c_cpu c)).
Definition backing (p : fpar) (c : choice) : tier := if f_sharded p then shard_tier p c else TMain.

(** Pop, Push, PopBatch, PushBatch on the cached slab (internal/percpu_tcmalloc.h:829-904, 655-712, 218-230; the items that do
    not fit remain at the start of the batch). *)
Definition slab_pop (s : fstate) (t : Z) : option (Z * fstate) :=
  match s_at s t with
  | Some c => match s_slab s c with x :: r => Some (x, set_slab s c r) | [] => None end
  | None => None
  end.
Definition slab_push (s : fstate) (t x : Z) : option fstate :=
  match s_at s t with
  | Some c => if zlen (s_slab s c) <? s_cap s c then Some (set_slab s c (x :: s_slab s c)) else None
  | None => None
  end.
Definition slab_push_batch (s : fstate) (t : Z) (batch : list Z) : fstate * list Z :=
  match s_at s t with
  | Some c =>
      let keep := Z.to_nat (zlen batch - Z.min (zlen batch) (Z.max 0 (s_cap s c - zlen (s_slab s c)))) in
      (set_slab s c (skipn keep batch ++ s_slab s c), firstn keep batch)
  | None => (s, batch)
  end.
Definition slab_pop_batch (s : fstate) (t n : Z) : fstate * list Z :=
  match s_at s t with
  | Some c => (set_slab s c (skipn (Z.to_nat n) (s_slab s c)), firstn (Z.to_nat n) (s_slab s c))
  | None => (s, [])
  end.

(** cpu_cache.h:1366-1377 CacheCpuSlab (and internal/percpu_tcmalloc.h): the slab is cached already; the CPU is stopped; it is
    cached now.  Populating the CPU for the first time is not modelled: its capacities are 0 before. *)
Inductive cached_cpu := Already (cpu : Z) | Stopped | Now (cpu : Z).
Definition cache_cpu_slab (s : fstate) (t : Z) (c : choice) : fstate * cached_cpu :=
  match s_at s t with
  | Some cpu => (s, Already cpu)
  | None => if s_stop s (c_cpu c) then (s, Stopped) else (set_at s t (Some (c_cpu c)), Now (c_cpu c))
  end.

(** cpu_cache.h:1305-1363 UpdateCapacity: the capacity may grow (CpuCache.v); the asserts of cpu_cache.h:1299-1300. *)
Definition update_capacity (p : fpar) (s : fstate) (cpu : Z) (c : choice) : option (fstate * Z) :=
  let target := target_overflow_refill_count (c_cap c) (f_batch p) (c_succ c) in
  if (target <=? c_cap c + 1) && negb (target =? 0) then Some (set_cap s cpu (c_cap c), target) else None.

(** The test at the end of Refill's loop, cpu_cache.h:1245-1246. *)
Definition refill_test (s : fstate) (t target total : Z) (result : option Z) (got i : Z) : option (fstate * flabel) :=
  if (got =? kMaxObjectsToMove) && (i =? 0) && (total <? target) then go s t (ALoop target total result) else ret_malloc s t result.

(** A call on the caches below has returned [got]. *)
Definition resume (s : fstate) (t : Z) (k : kont) (got : list Z) : option (fstate * flabel) :=
  match k with
  (* transfer_cache.h:192-198, cpu_cache.h:1188-1196 *)
  | KPop => ret_malloc s t (match got with x :: _ => Some x | [] => None end)
  (* cpu_cache.h:1230-1239 *)
  | KFetch target total result =>
      if zlen got =? 0 then ret_malloc s t result
      else
        let (result, batch) := match result with Some x => (Some x, got) | None => (Some (last got 0), removelast got) end in
        match batch with
        | [] => refill_test s t target (total + zlen got) result (zlen got) 0
        | _ => go s t (APush target (total + zlen got) result (zlen got) batch)
        end
  (* cpu_cache.h:1242-1246: i is not 0 *)
  | KRel result => ret_malloc s t result
  | KDone => ret_free s t
  (* cpu_cache.h:2148-2150 *)
  | KOver target total count =>
      if negb (count =? kMaxObjectsToMove) then ret_free s t
      else if total <? target then go s t (DLoop target total []) else ret_free s t
  | KDrain cpu rest => go s t (RDrain cpu rest)
  | KShrunk cpu => ret_bg (start_cpu s cpu) t
  | KBg => ret_bg s t
  end.

(** One step of the innermost call. *)
Definition call_step (p : fpar) (s : fstate) (t : Z) (c : choice) (T : tier) (a : tact) (fr : list (tier * tact)) (k : kont) :
  option (fstate * flabel) :=
  match a with
  | TDone got _ => match fr with [] => resume s t k got | _ => go s t (InCall fr k) end
  | _ =>
    match T with
    | TCfl =>
        match a with
        (* central_freelist.h:588-690 *)
        | TInsert batch => go (set_cfl s (batch ++ s_cfl s) (s_owned s)) t (InCall ((T, tdone) :: fr) k)
        (* central_freelist.h:695-790 *)
        | TRemove _ =>
            go (set_oom (set_cfl s (c_rest c) (c_new c ++ s_owned s)) t (match c_got c with [] => true | _ => s_oom s t end)) t
              (InCall ((T, TDone (c_got c) true) :: fr) k)
        | _ => None
        end
    | _ =>
        match a with
        (* transfer_cache_internals.h:208 *)
        | TRemoveMiss n => enter_remove s t (below T) n fr k
        | _ =>
            let '(x, a', l) := tstep (f_batch p) (get_tc s T) a (c_lock c) [] in
            match l with
            (* transfer_cache_internals.h:179, 240, 343 *)
            | LInsert batch => enter_insert (set_tc s T x) t (below T) batch ((T, a') :: fr) k
            | _ => go (set_tc s T x) t (InCall ((T, a') :: fr) k)
            end
        end
    end
  end.

(** One step of a thread; None: a check fails, or an array is overrun. *)
Definition thread_step (p : fpar) (s : fstate) (t : Z) (c : choice) : option (fstate * flabel) :=
  match s_pc s t with
  | Idle => go s t Idle
  (* cpu_cache.h:838-844 Allocate *)
  | AFast => match slab_pop s t with Some (x, s') => ret_malloc s' t (Some x) | None => go s t ASlow end
  (* cpu_cache.h:1181-1205 AllocateSlowNoHooks *)
  | ASlow =>
      if f_bypass p then enter_remove s t (shard_tier p c) 1 [] KPop
      else
        let (s', r) := cache_cpu_slab s t c in
        match r with
        | Stopped => enter_remove s' t (backing p c) 1 [] KPop
        | Now cpu => go s' t (AFast2 cpu)
        | Already cpu => go s' t (AUpd cpu)
        end
  | AFast2 cpu => match slab_pop s t with Some (x, s') => ret_malloc s' t (Some x) | None => go s t (AUpd cpu) end
  (* cpu_cache.h:1217-1248 Refill *)
  | AUpd cpu => let? r := update_capacity p s cpu c in go (fst r) t (ALoop (snd r) 0 None)
  | ALoop target total result =>
      let want := Z.min kMaxObjectsToMove (wrap64 (target - total)) in
      enter_remove s t (backing p c) want [] (KFetch target total result)
  | APush target total result got batch =>
      let (s', rest) := slab_push_batch s t batch in
      match rest with
      | [] => refill_test s' t target total result got 0
      | _ => enter_insert s' t (backing p c) rest [] (KRel result)
      end
  (* cpu_cache.h:854-858 Deallocate *)
  | DFast x => match slab_push s t x with Some s' => ret_free s' t | None => go s t (DSlow x) end
  (* cpu_cache.h:2119-2151 DeallocateSlowNoHooks *)
  | DSlow x =>
      if f_bypass p then enter_insert s t (shard_tier p c) [x] [] KDone
      else
        let (s', r) := cache_cpu_slab s t c in
        match r with
        | Stopped => enter_insert s' t (backing p c) [x] [] KDone
        | Now cpu => go s' t (DFast2 cpu x)
        | Already cpu => go s' t (DUpd cpu x)
        end
  | DFast2 cpu x => match slab_push s t x with Some s' => ret_free s' t | None => go s t (DUpd cpu x) end
  | DUpd cpu x => let? r := update_capacity p s cpu c in go (fst r) t (DLoop (snd r) 0 [x])
  | DLoop target total batch =>
      let want := Z.min kMaxObjectsToMove (wrap64 (target - total)) in
      let (s', more) := if zlen batch <? want then slab_pop_batch s t (want - zlen batch) else (s, []) in
      let batch := batch ++ more in
      match batch with
      | [] => ret_free s' t
      | _ => enter_insert s' t (backing p c) batch [] (KOver target (total + zlen batch) (zlen batch))
      end
  (* cpu_cache.h:2252-2255 DrainHandler *)
  | RDrain cpu rest =>
      match rest with
      | [] => ret_bg (start_cpu s cpu) t
      | _ =>
          let n := Z.to_nat (Z.min (f_batch p) (zlen rest)) in
          enter_insert s t (backing p c) (firstn n rest) [] (KDrain cpu (skipn n rest))
      end
  | InCall ((T, a) :: fr) k => call_step p s t c T a fr k
  | InCall [] k => None
  end.

(** Calls of the program and the background thread.  [OTc]: TryPlunder, IncreaseCacheCapacity, ShrinkCache of a transfer cache. *)
Inductive fop := OMalloc | OFree (x : Z) | ODrain (cpu : Z) | OShrink (cpu : Z) | OTc (T : tier) (a : tact).

Fixpoint remove1 (x : Z) (l : list Z) : list Z := match l with [] => [] | y :: l => if y =? x then l else y :: remove1 x l end.

(** None: not allowed in this state. *)
Definition start (p : fpar) (s : fstate) (t : Z) (o : fop) : option fstate :=
  match o with
  | OMalloc => Some (set_pc (set_oom s t false) t AFast)
  | OFree x => if existsb (Z.eqb x) (s_live s) then Some (set_pc (set_live s (remove1 x (s_live s))) t (DFast x)) else None
  (* internal/percpu_tcmalloc.h:1487-1491, cpu_cache.h:2262-2275; the CPU's lock is held *)
  | ODrain cpu =>
      if (0 <=? cpu) && (cpu <? f_ncpu p) && negb (s_stop s cpu)
      then Some (set_pc (set_cap (set_slab (stop_cpu s cpu) cpu []) cpu 0) t (RDrain cpu (s_slab s cpu))) else None
  (* cpu_cache.h:2065-2075, internal/percpu_tcmalloc.h:1457-1484 with len = 1; the CPU's lock is held *)
  | OShrink cpu =>
      if (0 <=? cpu) && (cpu <? f_ncpu p) && negb (s_stop s cpu)
      then
        let s' := stop_cpu s cpu in
        if zlen (s_slab s cpu) <? s_cap s cpu then Some (start_cpu (set_cap s' cpu (s_cap s cpu - 1)) cpu)
        else match s_slab s cpu with
             | x :: r => Some (set_pc (set_cap (set_slab s' cpu r) cpu (s_cap s cpu - 1)) t
                                 (InCall [(if f_sharded p then TShard (f_shard_of p cpu) else TMain, TInsert [x])] (KShrunk cpu)))
             | [] => Some s
             end
      else None
  | OTc T a =>
      match T, a with
      | TCfl, _ => None
      | TShard i, (TPlunder | TGrow | TShrink) => if (0 <=? i) && (i <? f_nshard p) then Some (set_pc s t (InCall [(T, a)] KBg)) else None
      | TMain, (TPlunder | TGrow | TShrink) => Some (set_pc s t (InCall [(T, a)] KBg))
      | _, _ => None
      end
  end.

(** The answer of the central free list: at most what was asked for, of its objects and of new ones (those of spans not yet
    in use). *)
Definition cfl_answer (s : fstate) (n : Z) (c : choice) : Prop :=
  Permutation (s_cfl s ++ c_new c) (c_got c ++ c_rest c) /\ zlen (c_got c) <= n /\
  NoDup (c_new c) /\ (forall x, In x (c_new c) -> ~ In x (s_owned s)).
Definition choice_ok (p : fpar) (s : fstate) (t : Z) (c : choice) : Prop :=
  0 <= c_cpu c < f_ncpu p /\ 0 <= c_succ c /\
  match s_pc s t with
  | AUpd cpu | DUpd cpu _ => s_cap s cpu <= c_cap c
  | InCall ((TCfl, TRemove n) :: _) _ => cfl_answer s n c
  | _ => True
  end.

(** What else happens: a thread is rescheduled; the capacity of a CPU's cache changes; the central free list returns the
    objects of unused spans to the page heap. *)
Inductive fenv (p : fpar) : fstate -> fstate -> Prop :=
| E_resched s t : fenv p s (set_at s t None)
| E_cap s c v : zlen (s_slab s c) <= v -> fenv p s (set_cap s c v)
| E_spans s gone l o : Permutation (s_cfl s) (gone ++ l) -> Permutation (s_owned s) (gone ++ o) -> fenv p s (set_cfl s l o).

(** At the start everything is empty; the transfer caches have any capacity. *)
Definition finit (sh : Z -> tc) (m : tc) : fstate :=
  F (fun _ => []) (fun _ => 0) (fun _ => false) (fun _ => None) sh m [] (fun _ => Idle) [] (fun _ => false) [].
Definition new_tc (x : tc) : Prop := exists cap mx, 0 <= cap <= mx /\ x = tc_new cap mx.

Inductive fstep (p : fpar) : fstate -> Z * flabel -> fstate -> Prop :=
| FS_start s t o s' : 0 <= t < f_nthr p -> s_pc s t = Idle -> start p s t o = Some s' -> fstep p s (t, LNone) s'
| FS_thread s t c s' l : 0 <= t < f_nthr p -> s_pc s t <> Idle -> choice_ok p s t c -> thread_step p s t c = Some (s', l) -> fstep p s (t, l) s'
| FS_env s s' : fenv p s s' -> fstep p s (-1, LNone) s'.

Inductive freach (p : fpar) : fstate -> Prop :=
| FR_init sh m : (forall i, new_tc (sh i)) -> new_tc m -> freach p (finit sh m)
| FR_step s l s' : freach p s -> fstep p s l s' -> freach p s'.
