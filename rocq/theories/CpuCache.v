(** Model of the capacity accounting of tcmalloc/cpu_cache.h: the bytes of cache that each CPU may use,
    and the operations that move them between size classes and CPUs.

    Every step is one atomic operation on a counter or one operation on the slab of a CPU
    (single steps by SlabRseq.v); the steps of any number of threads interleave.  Amounts are
    integers; [cache_no_overflow] in CpuCacheProps.v shows that they stay between 0 and the
    total budget, so that the machine's arithmetic is exact.  Taking the lock of a CPU,
    stopping it and fencing it are one step.  Which classes and CPUs the heuristics pick is
    left open: the steps below may pick any. *)
From Verif Require Import Base Slab.

(** The number of CPUs and classes, the sizes of the classes (class_to_size), the limit that
    Activate reads, and the constants kMaxCpuCacheSize and kMaxSize, common.h:128-160. *)
Record cenv := CEnv { ncpu : Z; nclass : Z; csize : Z -> Z; limit : Z; max_cache : Z; max_size : Z }.

(** ResizeInfo: cpu_cache.h:615-672; [caps] is the capacity of each class in the slab in use, [maxc] its largest value there,
    [old] the capacities of slabs that are being drained. *)
Record cmem := CMem {
  avail : Z -> Z; capac : Z -> Z; caps : Z -> Z -> Z; maxc : Z -> Z; old : Z -> Z -> Z;
  lock : Z -> bool; stop : Z -> bool; pop : Z -> bool }.

Definition set_avail (m : cmem) (c v : Z) : cmem := CMem (upd (avail m) c v) (capac m) (caps m) (maxc m) (old m) (lock m) (stop m) (pop m).
Definition set_capac (m : cmem) (c v : Z) : cmem := CMem (avail m) (upd (capac m) c v) (caps m) (maxc m) (old m) (lock m) (stop m) (pop m).
Definition set_cap (m : cmem) (c k v : Z) : cmem :=
  CMem (avail m) (capac m) (upd (caps m) c (upd (caps m c) k v)) (maxc m) (old m) (lock m) (stop m) (pop m).
Definition set_old (m : cmem) (c k v : Z) : cmem :=
  CMem (avail m) (capac m) (caps m) (maxc m) (upd (old m) c (upd (old m c) k v)) (lock m) (stop m) (pop m).
Definition set_held (m : cmem) (c : Z) (b : bool) : cmem :=
  CMem (avail m) (capac m) (caps m) (maxc m) (old m) (upd (lock m) c b) (upd (stop m) c b) (pop m).
Definition set_pop (m : cmem) (c : Z) (b : bool) : cmem := CMem (avail m) (capac m) (caps m) (maxc m) (old m) (lock m) (stop m) (upd (pop m) c b).
(** All the locks; with [b] the CPUs are stopped too. *)
Definition set_all (m : cmem) (l b : bool) : cmem := CMem (avail m) (capac m) (caps m) (maxc m) (old m) (fun _ => l) (fun _ => b) (pop m).

(** Activate: cpu_cache.h:1114-1124. *)
Definition activate (e : cenv) (mx : Z -> Z) : cmem :=
  CMem (fun _ => limit e) (fun _ => limit e) (fun _ _ => 0) mx (fun _ _ => 0) (fun _ => false) (fun _ => false) (fun _ => false).

(** cpu_cache.h:1389-1401.  The result of the loop; the exchange that succeeds sets the counter. *)
Definition subtract_at_least (a mn mx : Z) : Z := if a <? mn then 0 else Z.min a mx.

(** Operations in progress, with the amounts they hold. *)
Inductive task :=
(* Grow: bytes taken for the class; bytes to give back *)
| GSlab (c k got : Z) | GBack (c unused : Z)
(* Drain of the CPU, at the class; its bytes were added, its header not yet reset *)
| DrainAt (c k : Z) | DrainSt (c k n : Z)
(* ResizeCpuSizeClasses *)
| RHold (c a : Z) | RWork (c a : Z) | RBack (c a : Z)
(* StealFromOtherCache for [d]: bytes wanted, bytes acquired *)
| SAcq (d bytes acq : Z) | SCap (d bytes acq src st : Z) | SLock (d bytes acq src : Z) | SWork (d bytes acq src : Z)
| SShrunk (d bytes acq src sz : Z) | SGave (d acq : Z)
(* ResizeSlabs, UpdateMaxCapacities; ReleaseSlabMetadataForDrainedCpus *)
| ZDrain | ULocked.

(** The tasks of the thread that runs the background actions. *)
Definition background (t : task) : bool :=
  match t with GSlab _ _ _ | GBack _ _ | DrainAt _ _ | DrainSt _ _ _ => false | _ => true end.

Definition is_cpu (e : cenv) (c : Z) : Prop := 0 <= c < ncpu e.
Definition sized (e : cenv) (k : Z) : Prop := 1 <= k < nclass e /\ 0 < csize e k.
Definition drained (e : cenv) (m : cmem) (c : Z) : Prop := forall k, 1 <= k < nclass e -> caps m c k = 0.

(** One step of one operation: the operation before (none: it starts) and after (none: it is done). *)
Inductive tr (e : cenv) : cmem -> list task -> cmem -> list task -> Prop :=
(* Populate, cpu_cache.h:1380-1387 *)
| tr_populate m c : is_cpu e c -> lock m c = false -> pop m c = false ->
    tr e m [] (CMem (avail m) (capac m) (upd (caps m) c (fun _ => 0)) (maxc m) (old m) (lock m) (stop m) (upd (pop m) c true)) []
(* Grow, cpu_cache.h:1404-1428 *)
| tr_grow m c k inc : is_cpu e c -> sized e k -> 1 <= inc ->
    subtract_at_least (avail m c) (csize e k) (inc * csize e k) <> 0 ->
    tr e m [] (set_avail m c (avail m c - subtract_at_least (avail m c) (csize e k) (inc * csize e k)))
       [GSlab c k (subtract_at_least (avail m c) (csize e k) (inc * csize e k))]
| tr_grow_slab m c k got : stop m c = false -> pop m c = true -> 0 < maxc m k - caps m c k ->
    tr e m [GSlab c k got] (set_cap m c k (caps m c k + Z.min (got / csize e k) (maxc m k - caps m c k)))
       [GBack c (got - Z.min (got / csize e k) (maxc m k - caps m c k) * csize e k)]
| tr_grow_fail m c k got : tr e m [GSlab c k got] m [GBack c got]
| tr_grow_back m c u : tr e m [GBack c u] (set_avail m c (avail m c + u)) []
(* Drain, cpu_cache.h:2263-2289; DrainHandler, cpu_cache.h:2240-2260; DrainCpu, internal/percpu_tcmalloc.h:1255-1276 *)
| tr_drain m c : is_cpu e c -> lock m c = false -> pop m c = true -> tr e m [] (set_held m c true) [DrainAt c 1]
| tr_drain_add m c k : k < nclass e -> tr e m [DrainAt c k] (set_avail m c (avail m c + caps m c k * csize e k)) [DrainSt c k (caps m c k)]
| tr_drain_store m c k n : tr e m [DrainSt c k n] (set_cap m c k 0) [DrainAt c (k + 1)]
| tr_drain_end m c k : nclass e <= k -> tr e m [DrainAt c k] (set_held m c false) []
(* ResizeCpuSizeClasses, cpu_cache.h:1753-1839 *)
| tr_resize m c : is_cpu e c -> pop m c = true -> avail m c < max_cache e -> tr e m [] (set_avail m c 0) [RHold c (avail m c)]
| tr_resize_lock m c a : lock m c = false -> tr e m [RHold c a] (set_held m c true) [RWork c a]
(* ShrinkOtherCache with len 1, cpu_cache.h:2018-2076 *)
| tr_resize_shrink m c a k : sized e k -> 0 < caps m c k -> tr e m [RWork c a] (set_cap m c k (caps m c k - 1)) [RWork c (a + csize e k)]
| tr_resize_grow m c a k : sized e k -> 0 < maxc m k - caps m c k ->
    tr e m [RWork c a] (set_cap m c k (caps m c k + Z.min (maxc m k - caps m c k) (a / csize e k)))
       [RWork c (a - Z.min (maxc m k - caps m c k) (a / csize e k) * csize e k)]
| tr_resize_unlock m c a : tr e m [RWork c a] (set_held m c false) [RBack c a]
| tr_resize_back m c a : tr e m [RBack c a] (set_avail m c (avail m c + a)) []
(* StealFromOtherCache, cpu_cache.h:1910-2015 *)
| tr_steal m d bytes : is_cpu e d -> 0 <= bytes -> avail m d < max_size e -> tr e m [] m [SAcq d bytes 0]
| tr_steal_take m d bytes acq src : is_cpu e src -> src <> d -> acq < bytes -> pop m src = true ->
    tr e m [SAcq d bytes acq] (set_avail m src (avail m src - subtract_at_least (avail m src) 0 (bytes - acq)))
       [SCap d bytes acq src (subtract_at_least (avail m src) 0 (bytes - acq))]
| tr_steal_cap m d bytes acq src st :
    tr e m [SCap d bytes acq src st] (set_capac m src (capac m src - st))
       [if bytes <=? acq + st then SAcq d bytes (acq + st) else SLock d bytes (acq + st) src]
| tr_steal_lock m d bytes acq src : lock m src = false -> tr e m [SLock d bytes acq src] (set_held m src true) [SWork d bytes acq src]
| tr_steal_shrink m d bytes acq src k : sized e k -> acq < bytes -> 0 < caps m src k ->
    tr e m [SWork d bytes acq src] (set_cap m src k (caps m src k - 1)) [SShrunk d bytes acq src (csize e k)]
| tr_steal_sub m d bytes acq src sz :
    tr e m [SShrunk d bytes acq src sz] (set_capac m src (capac m src - sz)) [SWork d bytes (acq + sz) src]
| tr_steal_unlock m d bytes acq src : tr e m [SWork d bytes acq src] (set_held m src false) [SAcq d bytes acq]
| tr_steal_none m d bytes : tr e m [SAcq d bytes 0] m []
| tr_steal_give m d bytes acq : acq <> 0 -> tr e m [SAcq d bytes acq] (set_avail m d (avail m d + acq)) [SGave d acq]
| tr_steal_done m d acq : tr e m [SGave d acq] (set_capac m d (capac m d + acq)) []
(* ResizeSlabs and UpdateMaxCapacities, internal/percpu_tcmalloc.h:1317-1417: all CPUs are stopped, the slabs replaced and the CPUs
   restarted (one step); then the old slabs are drained with the locks held *)
| tr_slabs m mx : (forall c, is_cpu e c -> lock m c = false) -> (forall k, 0 <= mx k) ->
    tr e m [] (CMem (avail m) (capac m) (fun _ _ => 0) mx (caps m) (fun _ => true) (stop m) (pop m)) [ZDrain]
| tr_slabs_drain m c k : is_cpu e c -> 1 <= k < nclass e ->
    tr e m [ZDrain] (set_old (set_avail m c (avail m c + old m c k * csize e k)) c k 0) [ZDrain]
| tr_slabs_end m : (forall c k, is_cpu e c -> 1 <= k < nclass e -> old m c k = 0) -> tr e m [ZDrain] (set_all m false false) []
(* TryDrainingCaches, cpu_cache.h:1469-1485: the step that passes the check *)
| tr_release m : (forall c, is_cpu e c -> lock m c = false) -> tr e m [] (set_all m true true) [ULocked]
| tr_unpopulate m c : drained e m c -> avail m c = capac m c -> tr e m [ULocked] (set_pop m c false) [ULocked]
| tr_release_end m : tr e m [ULocked] (set_all m false false) [].

(** The histories.  The background actions run on one thread, so one of their operations
    is in progress at a time; Grow and Drain run on any thread. *)
Inductive reach (e : cenv) : cmem -> list task -> Prop :=
| cr_init mx : (forall k, 0 <= mx k) -> reach e (activate e mx) []
| cr_start m m' ts t : reach e m ts -> tr e m [] m' [t] -> (background t = true -> forallb (fun x => negb (background x)) ts = true) ->
    reach e m' (t :: ts)
| cr_populate m m' ts : reach e m ts -> tr e m [] m' [] -> reach e m' ts
| cr_step m m' l1 l2 t ys : reach e m (l1 ++ t :: l2) -> tr e m [t] m' ys -> reach e m' (l1 ++ ys ++ l2).

(** ** Decisions *)

(** cpu_cache.h:1270-1302.  1 << min(successive, 10) fits in 32 bits. *)
Definition target_overflow_refill_count (capacity batch successive : Z) : Z :=
  let mx := wrap64 (2 ^ Z.min successive 10 * batch) in
  let target := Z.min ((capacity + 1) / 2 + 1) mx in
  if (capacity =? 1) && (successive <? 3) then 1 else target.

(** UpdateCapacity, cpu_cache.h:1305-1363: by how much the class is asked to grow (0: not at all).
    [grow_by_batch]: an overflow was followed by an underflow. *)
Definition capacity_increase (batch max_capacity capacity : Z) (overflow grow_by_batch : bool) : Z :=
  if ((capacity <? 2 * batch) || grow_by_batch) && negb (capacity =? max_capacity)
  then if grow_by_batch then Z.min batch (wrap64 (max_capacity - capacity))
       else if negb overflow && (capacity <? batch) then batch - capacity
       else 1
  else 0.

(** GetShiftMaxCapacity, cpu_cache.h:238-256; [rel]: the largest shift minus the shift. *)
Definition shift_max_capacity (mx : Z -> Z) (rel k : Z) : Z :=
  if rel =? 0 then mx k else Z.max (Z.shiftr (mx k) rel - 3) 0.

(** GetUpdatedMaxCapacities, cpu_cache.h:1489-1615.
    The classes sorted by their misses, each with its misses, as a list; the inner loop
    walks its end. *)
Fixpoint shrink_loop (batch mx : Z -> Z) (fuel : nat) (miss : list (Z * Z)) (grow_index shrink_index target shrunk : Z)
    (acc : list (Z * Z)) : Z * Z * list (Z * Z) :=
  match fuel with
  | O => (shrink_index, shrunk, acc)
  | S fuel =>
      if (grow_index <? shrink_index) && (0 <? target) then
        let k := fst (nth (Z.to_nat shrink_index) miss (0, 0)) in
        let cap := mx k in
        if cap <=? batch k then shrink_loop batch mx fuel miss grow_index (shrink_index - 1) target shrunk acc
        else
          let to_shrink := Z.min (Z.min target (batch k)) (cap - batch k) in
          if to_shrink =? 0 then shrink_loop batch mx fuel miss grow_index (shrink_index - 1) target shrunk acc
          else shrink_loop batch mx fuel miss grow_index (shrink_index - 1) (target - to_shrink) (shrunk + to_shrink) (acc ++ [(k, cap - to_shrink)])
      else (shrink_index, shrunk, acc)
  end.
Fixpoint grow_loop (batch mx : Z -> Z) (n : nat) (miss : list (Z * Z)) (max_grow grow_index shrink_index factor grown : Z)
    (acc : list (Z * Z)) : list (Z * Z) :=
  match n with
  | O => acc
  | S n =>
      let (k, misses) := nth (Z.to_nat grow_index) miss (0, 0) in
      if misses =? 0 then acc
      else
        let '(shrink_index, shrunk, acc') := shrink_loop batch mx (length miss) miss grow_index shrink_index (batch k * factor) 0 acc in
        if shrunk =? 0 then acc
        else
          let acc := acc' ++ [(k, mx k + shrunk)] in
          if grown + 1 =? max_grow then acc
          else grow_loop batch mx n miss max_grow (grow_index + 1) shrink_index (Z.max (factor - 1) 1) (grown + 1) acc
  end.
Definition updated_max_capacities (batch mx : Z -> Z) (miss : list (Z * Z)) : list (Z * Z) :=
  let n := Z.of_nat (length miss) in
  grow_loop batch mx (length miss) miss (n / 2) 0 (n - 1) 5 0 [].

(** The new maximum capacities, stored one by one, internal/percpu_tcmalloc.h:1345-1349. *)
Definition store_max_capacities (mx : Z -> Z) (l : list (Z * Z)) : Z -> Z := fold_left (fun f p => upd f (fst p) (snd p)) l mx.
