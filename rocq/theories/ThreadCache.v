(** Model of tcmalloc/thread_cache.h and thread_cache.cc: the per-thread caches used when there are no per-CPU caches.

    The lists of a cache are touched only by its thread, so an operation on them is one step, with the calls to the transfer
    cache it makes as events in order.  What other threads can change in between, max_size_ and the variables under
    threadcache_lock_, is read and written in steps of its own.  A list of objects is a Coq list, top first (the chaining
    through the objects is LinkedList.v). *)
From Verif Require Import Base.

(** common.h:208, common.h:220, common.h:227 *)
Definition kMaxObjectsToMove : Z := 128.
Definition kMaxOverages : Z := 3.
Definition kMaxDynamicFreeListLength : Z := 8192.

(** The number of classes, their sizes and batch sizes (sizemap.h); common.h:126-163: kMinThreadCacheSize,
    kMaxThreadCacheSize, kDefaultOverallThreadCacheSize, kStealAmount. *)
Record tpar := TPar {
  q_classes : Z; q_size : Z -> Z; q_batch : Z -> Z;
  q_min : Z; q_max : Z; q_overall : Z; q_steal : Z }.
(** A class in use. *)
Definition q_used (p : tpar) (k : Z) : Prop := 0 <= k < q_classes p /\ 0 < q_size p k /\ 0 < q_batch p k.
Definition tpar_ok (p : tpar) : Prop :=
  0 < q_classes p /\ (forall k, 0 <= k < q_classes p -> 0 <= q_size p k /\ 0 <= q_batch p k <= kMaxObjectsToMove) /\
  0 < q_steal p <= q_min p /\ q_min p <= q_max p /\ q_min p <= q_overall p.

(** common.h:121-163: the constants of a build with pages of 2^[shift] bytes and small sizes up to [maxsize] *)
Definition tpar_of (shift maxsize : Z) (classes : Z) (size batch : Z -> Z) : tpar :=
  if shift =? 12 then TPar classes size batch (4 * 1024) (64 * 1024) (64 * 1024) (4 * 1024)
  else TPar classes size batch (maxsize * 2) (4 * 2 ^ 20) (8 * (4 * 2 ^ 20)) (2 ^ 16).

Definition len (l : list Z) : Z := Z.of_nat (length l).

(** thread_cache.h:82-89 FreeList *)
Record flist := FL { fl_objs : list Z; fl_low : Z; fl_max : Z; fl_over : Z }.
(** thread_cache.h:92-96 Init *)
Definition fl_init : flist := FL [] 0 1 0.
Definition fl_len (l : flist) : Z := len (fl_objs l).
(** thread_cache.h:103 set_max_length, thread_cache.h:108 set_length_overages, thread_cache.h:112 clear_lowwatermark *)
Definition fl_set_max (l : flist) (m : Z) : flist := FL (fl_objs l) (fl_low l) m (fl_over l).
Definition fl_set_over (l : flist) (n : Z) : flist := FL (fl_objs l) (fl_low l) (fl_max l) n.
Definition fl_clear_low (l : flist) : flist := FL (fl_objs l) (fl_len l) (fl_max l) (fl_over l).
(** internal/linked_list.h:81-84 Push, internal/linked_list.h:107-115 PushBatch (the first of the batch comes out first) *)
Definition fl_push (l : flist) (o : Z) : flist := FL (o :: fl_objs l) (fl_low l) (fl_max l) (fl_over l).
Definition fl_push_batch (l : flist) (b : list Z) : flist := FL (b ++ fl_objs l) (fl_low l) (fl_max l) (fl_over l).
(** thread_cache.h:114-120 TryPop *)
Definition fl_try_pop (l : flist) : option (Z * flist) :=
  match fl_objs l with
  | [] => None
  | o :: r => Some (o, FL r (if len r <? fl_low l then len r else fl_low l) (fl_max l) (fl_over l))
  end.
(** thread_cache.h:122-125 PopBatch *)
Definition fl_pop_batch (l : flist) (n : Z) : list Z * flist :=
  let r := skipn (Z.to_nat n) (fl_objs l) in
  (firstn (Z.to_nat n) (fl_objs l), FL r (if len r <? fl_low l then len r else fl_low l) (fl_max l) (fl_over l)).

(** thread_cache.h:201-204 list_, size_, max_size_ *)
Record tcache := TCa { c_list : Z -> flist; c_size : Z; c_max : Z }.

(** What happens: a thread frees an object, gets one, asks the transfer cache for [n] objects and gets some, gives it some. *)
Inductive tev :=
| EvFree (k o : Z)
| EvAlloc (k o : Z)
| EvRemove (k n : Z) (got : list Z)
| EvInsert (k : Z) (batch : list Z).

(** thread_cache.cc:165-172: the loop of ReleaseToTransferCache; [fuel] is at least N *)
Fixpoint release_loop (fuel : nat) (b N : Z) (l : flist) : flist * list (list Z) * Z :=
  match fuel with
  | O => (l, [], N)
  | S f => if b <? N
           then let '(x, l') := fl_pop_batch l b in let '(l'', bs, N') := release_loop f b (N - b) l' in (l'', x :: bs, N')
           else (l, [], N)
  end.
(** thread_cache.cc:154-179 ReleaseToTransferCache *)
Definition release (p : tpar) (c : tcache) (k N : Z) : tcache * list tev :=
  let l := c_list c k in
  let N := if fl_len l <? N then fl_len l else N in
  let delta := N * q_size p k in
  let '(l, bs, N') := release_loop (Z.to_nat N) (q_batch p k) N l in
  let '(b, l) := fl_pop_batch l N' in
  (TCa (upd (c_list c) k l) (c_size c - delta) (c_max c), map (EvInsert k) (bs ++ [b])).

(** thread_cache.h:225-237 Allocate: the object found in the list *)
Definition alloc_hit (p : tpar) (c : tcache) (k : Z) : option (Z * tcache) :=
  match fl_try_pop (c_list c k) with
  | None => None
  | Some (o, l) => Some (o, TCa (upd (c_list c) k l) (c_size c - q_size p k) (c_max c))
  end.
(** thread_cache.cc:94-99: how many objects FetchFromTransferCache asks for *)
Definition fetch_want (p : tpar) (c : tcache) (k : Z) : Z := Z.min (fl_max (c_list c k)) (q_batch p k).
(** thread_cache.cc:111-126: the new max_length *)
Definition fetch_max (b m : Z) : Z :=
  if m <? b then m + 1
  else let n := Z.min (m + b) kMaxDynamicFreeListLength in n - n mod b.
(** thread_cache.cc:100-128 FetchFromTransferCache with the transfer cache's reply; None is nullptr *)
Definition fetch (p : tpar) (c : tcache) (k : Z) (got : list Z) : option Z * tcache :=
  match got with
  | [] => (None, c)
  | o :: r =>
      let l := c_list c k in
      let '(l, size) := if 0 <? len r then (fl_push_batch l r, c_size c + q_size p k * len r) else (l, c_size c) in
      (Some o, TCa (upd (c_list c) k (fl_set_max l (fetch_max (q_batch p k) (fl_max l)))) size (c_max c))
  end.

(** thread_cache.h:239-255 Deallocate: the cache, and whether DeallocateSlow is called *)
Definition dealloc (p : tpar) (c : tcache) (k o : Z) : tcache * bool :=
  let size := c_size c + q_size p k in
  let size_headroom := c_max c - size - 1 in
  let l := fl_push (c_list c k) o in
  let list_headroom := fl_max l - fl_len l in
  (TCa (upd (c_list c) k l) size (c_max c), (list_headroom <? 0) || (size_headroom <? 0)).

(** thread_cache.cc:130-152 ListTooLong *)
Definition too_long_max (b : Z) (l : flist) : flist :=
  if fl_max l <? b then fl_set_max l (fl_max l + 1)
  else if b <? fl_max l then
    let l := fl_set_over l (fl_over l + 1) in
    if kMaxOverages <? fl_over l then fl_set_over (fl_set_max l (fl_max l - b)) 0 else l
  else l.
Definition list_too_long (p : tpar) (c : tcache) (k : Z) : tcache * list tev :=
  let b := q_batch p k in
  let '(c, evs) := release p c k b in
  (TCa (upd (c_list c) k (too_long_max b (c_list c k))) (c_size c) (c_max c), evs).

(** thread_cache.cc:217-219: the first half of DeallocateSlow *)
Definition slow_list (p : tpar) (c : tcache) (k : Z) : tcache * list tev :=
  if fl_max (c_list c k) <? fl_len (c_list c k) then list_too_long p c k else (c, []).

(** thread_cache.cc:190-211: the body of the loop of Scavenge *)
Definition scavenge_one (p : tpar) (c : tcache) (k : Z) : tcache * list tev :=
  let lowmark := fl_low (c_list c k) in
  let b := q_batch p k in
  let '(c, evs) :=
    if 0 <? lowmark then
      let drop := if 1 <? lowmark then lowmark / 2 else 1 in
      let '(c, evs) := release p c k drop in
      let l := c_list c k in
      let l := if b <? fl_max l then fl_set_max l (Z.max (fl_max l - b) b) else l in
      (TCa (upd (c_list c) k l) (c_size c) (c_max c), evs)
    else (c, []) in
  (TCa (upd (c_list c) k (fl_clear_low (c_list c k))) (c_size c) (c_max c), evs).
Fixpoint for_classes (f : tcache -> Z -> tcache * list tev) (c : tcache) (ks : list Z) : tcache * list tev :=
  match ks with
  | [] => (c, [])
  | k :: ks => let '(c, e1) := f c k in let '(c, e2) := for_classes f c ks in (c, e1 ++ e2)
  end.
(** thread_cache.cc:182-214 Scavenge, without the IncreaseCacheLimit at its end *)
Definition scavenge (p : tpar) (c : tcache) : tcache * list tev :=
  for_classes (scavenge_one p) c (zseq 0 (Z.to_nat (q_classes p))).
(** thread_cache.cc:80-88 Cleanup *)
Definition cleanup_one (p : tpar) (c : tcache) (k : Z) : tcache * list tev :=
  match fl_objs (c_list c k) with [] => (c, []) | _ => release p c k (fl_len (c_list c k)) end.
Definition cleanup (p : tpar) (c : tcache) : tcache * list tev :=
  for_classes (cleanup_one p) c (zseq 0 (Z.to_nat (q_classes p))).

(** Where the thread of a cache is: it has no cache; between operations; in DeallocateSlow before the length check, before the
    size check; before IncreaseCacheLimit; after Cleanup in DeleteCache. *)
Inductive tpc := Absent | Idle | Slow (k : Z) | Check | Limit | Dying.

(** thread_cache.h:179-196: the statics; a cache is known by its address, 0 is nullptr; [t_next], [t_prev]: next_, prev_ *)
Record tstate := TS {
  t_cache : Z -> tcache; t_pc : Z -> tpc; t_next : Z -> Z; t_prev : Z -> Z;
  t_heaps : Z; t_count : Z; t_steal : Z; t_unclaimed : Z; t_overall : Z; t_per : Z }.
Definition set_cache (g : tstate) (i : Z) (c : tcache) (x : tpc) : tstate :=
  TS (upd (t_cache g) i c) (upd (t_pc g) i x) (t_next g) (t_prev g)
    (t_heaps g) (t_count g) (t_steal g) (t_unclaimed g) (t_overall g) (t_per g).
Definition set_steal (g : tstate) (s : Z) : tstate :=
  TS (t_cache g) (t_pc g) (t_next g) (t_prev g) (t_heaps g) (t_count g) s (t_unclaimed g) (t_overall g) (t_per g).
Definition set_unclaimed (g : tstate) (u : Z) : tstate :=
  TS (t_cache g) (t_pc g) (t_next g) (t_prev g) (t_heaps g) (t_count g) (t_steal g) u (t_overall g) (t_per g).
Definition add_max (g : tstate) (i d : Z) : tstate :=
  let c := t_cache g i in
  TS (upd (t_cache g) i (TCa (c_list c) (c_size c) (c_max c + d))) (t_pc g) (t_next g) (t_prev g)
    (t_heaps g) (t_count g) (t_steal g) (t_unclaimed g) (t_overall g) (t_per g).

(** thread_cache.cc:241-256: the loop of IncreaseCacheLimitLocked; None: a null pointer is followed *)
Fixpoint steal_loop (p : tpar) (n : nat) (g : tstate) (this : Z) : option tstate :=
  match n with
  | O => Some g
  | S n =>
      let s := if t_steal g =? 0 then t_heaps g else t_steal g in
      if s =? 0 then None
      else if (s =? this) || (c_max (t_cache g s) <=? q_min p)
      then steal_loop p n (set_steal g (t_next g s)) this
      else Some (set_steal (add_max (add_max g s (- q_steal p)) this (q_steal p)) (t_next g s))
  end.
(** thread_cache.cc:230-257 IncreaseCacheLimitLocked *)
Definition increase_limit (p : tpar) (g : tstate) (this : Z) : option tstate :=
  if 0 <? t_unclaimed g
  then Some (add_max (set_unclaimed g (t_unclaimed g - q_steal p)) this (q_steal p))
  else steal_loop p 10 g this.

(** thread_cache.cc:55-78: the constructor *)
Definition construct (p : tpar) (g : tstate) (i : Z) : option tstate :=
  let g := TS (upd (t_cache g) i (TCa (fun _ => fl_init) 0 0)) (t_pc g) (upd (t_next g) i 0) (upd (t_prev g) i 0)
             (t_heaps g) (t_count g) (t_steal g) (t_unclaimed g) (t_overall g) (t_per g) in
  let? g := increase_limit p g i in
  if c_max (t_cache g i) =? 0
  then Some (add_max (set_unclaimed g (t_unclaimed g - q_min p)) i (q_min p))
  else Some g.
(** thread_cache.cc:313-328 NewHeap *)
Definition new_heap (p : tpar) (g : tstate) (i : Z) : option tstate :=
  let? g := construct p g i in
  let nx := upd (t_next g) i (t_heaps g) in
  let pv := upd (t_prev g) i 0 in
  let '(pv, s) := if t_heaps g =? 0 then (pv, i) else (upd pv (t_heaps g) i, t_steal g) in
  Some (TS (t_cache g) (upd (t_pc g) i Idle) nx pv i (t_count g + 1) s (t_unclaimed g) (t_overall g) (t_per g)).

(** thread_cache.cc:371-384 DeleteCache, after Cleanup *)
Definition delete_cache (g : tstate) (i : Z) : tstate :=
  let pv := if t_next g i =? 0 then t_prev g else upd (t_prev g) (t_next g i) (t_prev g i) in
  let nx := if pv i =? 0 then t_next g else upd (t_next g) (pv i) (t_next g i) in
  let heaps := if t_heaps g =? i then nx i else t_heaps g in
  let s := if t_steal g =? i then nx i else t_steal g in
  let s := if s =? 0 then heaps else s in
  TS (t_cache g) (upd (t_pc g) i Absent) nx pv heaps (t_count g - 1) s (t_unclaimed g + c_max (t_cache g i)) (t_overall g) (t_per g).

(** A walk through the list of caches, [for (h = thread_heaps_; h != nullptr; h = h->next_)] *)
Fixpoint walk (fuel : nat) (nx : Z -> Z) (h : Z) : option (list Z) :=
  if h =? 0 then Some []
  else match fuel with
       | O => None
       | S f => let? r := walk f nx (nx h) in Some (h :: r)
       end.
Definition t_walk (g : tstate) : option (list Z) := walk (Z.to_nat (t_count g)) (t_next g) (t_heaps g).

(** thread_cache.cc:387-409 RecomputePerThreadCacheSize.  [scale] is what multiplying by the ratio, a floating-point number
    below 1, makes of a max_size_. *)
Fixpoint rescale (scale : Z -> Z) (shrink : bool) (cs : Z -> tcache) (ids : list Z) : (Z -> tcache) * Z :=
  match ids with
  | [] => (cs, 0)
  | i :: r =>
      let c := cs i in
      let m := if shrink then scale (c_max c) else c_max c in
      let '(cs, n) := rescale scale shrink (upd cs i (TCa (c_list c) (c_size c) m)) r in
      (cs, m + n)
  end.
Definition recompute (p : tpar) (scale : Z -> Z) (g : tstate) : option tstate :=
  let n := if 0 <? t_count g then t_count g else 1 in
  let space := t_overall g / n in
  let space := if space <? q_min p then q_min p else space in
  let space := if q_max p <? space then q_max p else space in
  let shrink := space <? Z.max 1 (t_per g) in
  let? ids := t_walk g in
  let '(cs, claimed) := rescale scale shrink (t_cache g) ids in
  Some (TS cs (t_pc g) (t_next g) (t_prev g) (t_heaps g) (t_count g) (t_steal g) (t_overall g - claimed) (t_overall g) space).
(** thread_cache.cc:426-434 set_overall_thread_cache_size *)
Definition set_overall (p : tpar) (scale : Z -> Z) (g : tstate) (new_size : Z) : option tstate :=
  let v := if new_size <? q_min p then q_min p else new_size in
  recompute p scale (TS (t_cache g) (t_pc g) (t_next g) (t_prev g) (t_heaps g) (t_count g) (t_steal g) (t_unclaimed g) v (t_per g)).

(** thread_cache.cc:411-424 GetStats: the total of bytes, and the number of objects of each class *)
Definition get_stats (g : tstate) : option (Z * (Z -> Z)) :=
  let? ids := t_walk g in
  Some (zsum (map (fun i => c_size (t_cache g i)) ids), fun k => zsum (map (fun i => fl_len (c_list (t_cache g i) k)) ids)).

(** What the threads can do next; [None] is the state after a null pointer was followed. *)
Inductive tstep (p : tpar) : tstate -> list tev -> option tstate -> Prop :=
(* thread_cache.cc:265-311 CreateCacheIfNecessary: a thread gets its cache, at an address not in use *)
| T_new g i : i <> 0 -> t_pc g i = Absent -> tstep p g [] (new_heap p g i)
| T_hit g i k o c : t_pc g i = Idle -> q_used p k -> alloc_hit p (t_cache g i) k = Some (o, c) ->
    tstep p g [EvAlloc k o] (Some (set_cache g i c Idle))
| T_miss g i k got r c : t_pc g i = Idle -> q_used p k -> alloc_hit p (t_cache g i) k = None ->
    len got <= fetch_want p (t_cache g i) k -> fetch p (t_cache g i) k got = (r, c) ->
    tstep p g (EvRemove k (fetch_want p (t_cache g i) k) got :: match r with Some o => [EvAlloc k o] | None => [] end)
      (Some (set_cache g i c Idle))
| T_free g i k o c slow : t_pc g i = Idle -> q_used p k -> dealloc p (t_cache g i) k o = (c, slow) ->
    tstep p g [EvFree k o] (Some (set_cache g i c (if slow then Slow k else Idle)))
| T_slow g i k c evs : t_pc g i = Slow k -> slow_list p (t_cache g i) k = (c, evs) ->
    tstep p g evs (Some (set_cache g i c Check))
(* thread_cache.cc:220-222 *)
| T_fits g i : t_pc g i = Check -> c_size (t_cache g i) < c_max (t_cache g i) ->
    tstep p g [] (Some (set_cache g i (t_cache g i) Idle))
| T_scavenge g i c evs : t_pc g i = Check -> c_max (t_cache g i) <= c_size (t_cache g i) -> scavenge p (t_cache g i) = (c, evs) ->
    tstep p g evs (Some (set_cache g i c Limit))
(* thread_cache.cc:225-228 *)
| T_limit g i g' : t_pc g i = Limit -> increase_limit p g i = Some g' ->
    tstep p g [] (Some (set_cache g' i (t_cache g' i) Idle))
| T_limit_null g i : t_pc g i = Limit -> increase_limit p g i = None -> tstep p g [] None
(* thread_cache.cc:330-360 BecomeIdle, DestroyThreadCache *)
| T_exit g i c evs : t_pc g i = Idle -> cleanup p (t_cache g i) = (c, evs) -> tstep p g evs (Some (set_cache g i c Dying))
| T_delete g i : t_pc g i = Dying -> tstep p g [] (Some (delete_cache g i))
| T_overall g v scale : 0 <= v -> (forall m, 0 <= m -> 0 <= scale m <= m) -> tstep p g [] (set_overall p scale g v).

(** thread_cache.cc:42-48: the initial values *)
Definition t_init (p : tpar) (cs : Z -> tcache) (nx pv : Z -> Z) : tstate :=
  TS cs (fun _ => Absent) nx pv 0 0 0 (q_overall p) (q_overall p) (q_max p).

Inductive treach (p : tpar) : list tev -> tstate -> Prop :=
| tr_init cs nx pv : treach p [] (t_init p cs nx pv)
| tr_step tr g evs g' : treach p tr g -> tstep p g evs (Some g') -> treach p (tr ++ evs) g'.
