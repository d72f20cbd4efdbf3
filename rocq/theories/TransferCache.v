(** Model of tcmalloc/transfer_cache_internals.h: one transfer cache with its lock, and
    the periodic redistribution of capacity between the caches of all size classes.

    The code between locking and unlocking is one step: other threads read only
    slot_info_ without the lock, and it is written once per critical section.  Calls to
    the list below (freelist()) are made without the lock; each is one step, visible as
    a label.  Hit and miss counters feed only statistics and the choice made by the
    resizing, which is modelled for arbitrary miss counts. *)
From Verif Require Import Base.

(** transfer_cache_internals.h:50, transfer_cache_internals.h:51. *)
Definition kMaxCapacityInBatches : Z := 64.
Definition kInitialCapacityInBatches : Z := 16.

(** transfer_cache_internals.h:114-146: (capacity, max_capacity) for a
    class with objects of [bytes] bytes moved [objs] at a time. *)
Definition capacity_needed (cl bytes objs : Z) : Z * Z :=
  if (cl <=? 0) || (bytes <=? 0) then (0, 0)
  else
    let max_capacity := kMaxCapacityInBatches * objs in
    let capacity := kInitialCapacityInBatches * objs in
    let max_capacity := Z.min max_capacity (Z.max objs ((1024 * 1024) / (bytes * objs) * objs)) in
    (Z.min capacity max_capacity, max_capacity).

(** The guarded fields: slot_info_.used, slot_info_.capacity, slots_, low_water_mark_,
    max_capacity_. *)
Record tc := TC { t_used : Z; t_cap : Z; t_slots : Z -> Z; t_lwm : Z; t_max : Z }.

(** transfer_cache_internals.h:96-99. *)
Definition tc_new (cap mx : Z) : tc := TC 0 cap (fun _ => 0) 0 mx.

(** memcpy to and from the slots. *)
Fixpoint slots_write (s : Z -> Z) (i : Z) (l : list Z) : Z -> Z :=
  match l with [] => s | x :: l => slots_write (upd s i x) (i + 1) l end.
Definition slots_read (s : Z -> Z) (i n : Z) : list Z := map s (zseq i (Z.to_nat n)).

Definition zlen (l : list Z) : Z := Z.of_nat (length l).

(** transfer_cache_internals.h:158-173 (InsertRange under the lock): the
    new cache and the part of the batch that did not fit. *)
Definition insert_locked (t : tc) (batch : list Z) : tc * list Z :=
  let got := Z.min (zlen batch) (t_cap t - t_used t) in
  if 0 <? got
  then (TC (t_used t + got) (t_cap t) (slots_write (t_slots t) (t_used t) (firstn (Z.to_nat got) batch)) (t_lwm t) (t_max t),
        skipn (Z.to_nat got) batch)
  else (t, batch).

(** transfer_cache_internals.h:190-204 (RemoveRange under the lock). *)
Definition remove_locked (t : tc) (n : Z) : tc * list Z :=
  let got := Z.min n (t_used t) in
  if got =? 0 then (t, [])
  else
    let used := t_used t - got in
    (TC used (t_cap t) (t_slots t) (Z.min (t_lwm t) used) (t_max t), slots_read (t_slots t) used got).

(** transfer_cache_internals.h:225-242 (one round of the loop of TryPlunder, under the lock): the
    objects taken out and what remains to be returned. *)
Definition plunder_round (b : Z) (t : tc) (to_return : Z) : tc * list Z * Z :=
  let n := Z.min (Z.min b (t_used t)) to_return in
  if n =? 0 then (t, [], to_return)
  else
    let used := t_used t - n in
    (TC used (t_cap t) (t_slots t) used (t_max t), slots_read (t_slots t) used n, to_return - n).

(** transfer_cache_internals.h:281-292. *)
Definition grow_locked (b : Z) (t : tc) : tc * bool :=
  if t_max t <? t_cap t + b then (t, false)
  else (TC (t_used t) (t_cap t + b) (t_slots t) (t_lwm t) (t_max t), true).

(** transfer_cache_internals.h:295-299. *)
Definition can_increase (b : Z) (t : tc) : bool := b <=? t_max t - t_cap t.

(** transfer_cache_internals.h:312-345 (the part under the lock): whether it
    shrank, and the objects to give back. *)
Definition shrink_locked (b : Z) (t : tc) : tc * list Z * bool :=
  if t_cap t =? 0 then (t, [], false)
  else if t_cap t <=? b then (t, [], false)
  else
    let n := Z.min b (t_cap t) in
    let unused := t_cap t - t_used t in
    if n <=? unused then (TC (t_used t) (t_cap t - n) (t_slots t) (t_lwm t) (t_max t), [], true)
    else
      let num_to_free := n - unused in
      let used := t_used t - num_to_free in
      (TC used (t_cap t - n) (t_slots t) (Z.min (t_lwm t) used) (t_max t), slots_read (t_slots t) used num_to_free, true).

(** ** Calls in progress *)
Inductive tact :=
| TInsert (batch : list Z)                    (* about to read slot_info_ without the lock *)
| TInsertLock (batch : list Z)                (* about to take the lock *)
| TInsertMiss (batch : list Z)                (* about to pass the rest to the list below *)
| TRemove (n : Z) | TRemoveLock (n : Z) | TRemoveMiss (n : Z)
| TPlunder                                    (* about to try the lock for the first time *)
| TPlunderFlush (buf : list Z) (to_return : Z) (* unlocked, holding objects *)
| TPlunderLoop (to_return : Z)                (* about to try the lock again *)
| TGrow | TShrink
| TShrinkFlush (buf : list Z)
| TDone (got : list Z) (ok : bool).

(** Calls on the list below. *)
Inductive tlabel := LNone | LInsert (batch : list Z) | LRemove (n : Z) (got : list Z).

Definition tdone : tact := TDone [] true.

(** The call after a round of plundering. *)
Definition plunder_next (r : tc * list Z * Z) : tc * tact :=
  let '(t, buf, to_return) := r in
  (t, match buf with [] => tdone | _ => TPlunderFlush buf to_return end).

(** One step of a call.  [lock]: whether a try_lock succeeds; [got]: the answer of the
    list below to a RemoveRange. *)
Definition tstep (b : Z) (t : tc) (a : tact) (lock : bool) (got : list Z) : tc * tact * tlabel :=
  match a with
  (* transfer_cache_internals.h:152-180 *)
  | TInsert batch => (t, if t_used t <? t_cap t then TInsertLock batch else TInsertMiss batch, LNone)
  | TInsertLock batch =>
      let (t, rest) := insert_locked t batch in
      (t, match rest with [] => tdone | _ => TInsertMiss rest end, LNone)
  | TInsertMiss batch => (t, tdone, LInsert batch)
  (* transfer_cache_internals.h:184-209 *)
  | TRemove n => (t, if t_used t =? 0 then TRemoveMiss n else TRemoveLock n, LNone)
  | TRemoveLock n =>
      let (t, objs) := remove_locked t n in
      (t, match objs with [] => TRemoveMiss n | _ => TDone objs true end, LNone)
  | TRemoveMiss n => (t, TDone got true, LRemove n got)
  (* transfer_cache_internals.h:214-244 *)
  | TPlunder =>
      if t_max t =? 0 then (t, tdone, LNone)
      else if negb lock then (t, tdone, LNone)
      else
        let to_return := t_lwm t in
        let (t, a) := plunder_next (plunder_round b (TC (t_used t) (t_cap t) (t_slots t) (t_used t) (t_max t)) to_return) in
        (t, a, LNone)
  | TPlunderFlush buf to_return => (t, TPlunderLoop to_return, LInsert buf)
  | TPlunderLoop to_return =>
      if negb lock then (t, tdone, LNone)
      else let (t, a) := plunder_next (plunder_round b t to_return) in (t, a, LNone)
  | TGrow => let (t, ok) := grow_locked b t in (t, TDone [] ok, LNone)
  | TShrink =>
      let '(t, buf, ok) := shrink_locked b t in
      (t, match buf with [] => TDone [] ok | _ => TShrinkFlush buf end, LNone)
  | TShrinkFlush buf => (t, tdone, LInsert buf)
  | TDone _ _ => (t, a, LNone)
  end.

(** ** Redistribution of capacity *)

(** What the resizing needs of each size class: num_objects_to_move and max_capacity. *)
Record rcfg := RCfg { r_batch : Z -> Z; r_max : Z -> Z; r_limit : Z }.

(** MissCounts::Commit, transfer_cache_internals.h:64-72. *)
Definition commit_misses (total committed : Z) : Z := if committed <? total then total - committed else 0.
(** transfer_cache_internals.h:251-253. *)
Definition interval_misses (ins rem : Z * Z) : Z :=
  wrap64 (commit_misses (fst ins) (snd ins) + commit_misses (fst rem) (snd rem)).

(** The capacities, by size class, and their changes (the effects of the functions above
    on the capacity, see [grow_capacity] and [shrink_capacity]). *)
Definition cap_can (c : rcfg) (caps : Z -> Z) (k : Z) : bool := r_batch c k <=? r_max c k - caps k.
Definition cap_grow (c : rcfg) (caps : Z -> Z) (k : Z) : (Z -> Z) * bool :=
  if r_max c k <? caps k + r_batch c k then (caps, false) else (upd caps k (caps k + r_batch c k), true).
Definition cap_shrink (c : rcfg) (caps : Z -> Z) (k : Z) : (Z -> Z) * bool :=
  if caps k =? 0 then (caps, false)
  else if caps k <=? r_batch c k then (caps, false)
  else (upd caps k (caps k - Z.min (r_batch c k) (caps k)), true).

(** MissInfo and its order, transfer_cache_internals.h:440-446. *)
Notation miss_info := (Z * Z)%type (only parsing).  (* (size_class, misses) *)
Definition miss_before (x y : miss_info) : bool :=
  if snd x =? snd y then fst x <? fst y else snd y <? snd x.
Fixpoint miss_insert (x : miss_info) (l : list miss_info) : list miss_info :=
  match l with [] => [x] | y :: l' => if miss_before x y then x :: l else y :: miss_insert x l' end.
(** std::sort (any sort: the order is total on distinct classes). *)
Definition miss_sort (l : list miss_info) : list miss_info := fold_right miss_insert [] l.

Definition cls (ms : list miss_info) (i : Z) : Z := fst (nth (Z.to_nat i) ms (0, 0)).
Definition mss (ms : list miss_info) (i : Z) : Z := snd (nth (Z.to_nat i) ms (0, 0)).

(** The inner loops, transfer_cache_internals.h:462-468 and transfer_cache_internals.h:470-476.
    [fuel] bounds the number of rounds; to_shrink - to_grow is enough. *)
Fixpoint shrink_loop (c : rcfg) (fuel : nat) (ms : list miss_info) (caps : Z -> Z) (g s : Z) : (Z -> Z) * Z * bool :=
  match fuel with
  | O => (caps, s, false)
  | S fuel =>
      if g <? s
      then let (caps, ok) := cap_shrink c caps (cls ms s) in
           if ok then (caps, s, true) else shrink_loop c fuel ms caps g (s - 1)
      else (caps, s, false)
  end.
Fixpoint grow_loop (c : rcfg) (fuel : nat) (ms : list miss_info) (caps : Z -> Z) (g s : Z) : (Z -> Z) * Z * bool :=
  match fuel with
  | O => (caps, g, false)
  | S fuel =>
      if g <? s
      then let (caps, ok) := cap_grow c caps (cls ms g) in
           if ok then (caps, g, true) else grow_loop c fuel ms caps (g + 1) s
      else (caps, g, false)
  end.

(** The outer loop, transfer_cache_internals.h:451-477; result: capacities, total_grown, total_shrunk. *)
Fixpoint resize_loop (c : rcfg) (fuel : nat) (ms : list miss_info) (caps : Z -> Z) (g s grown shrunk : Z) : (Z -> Z) * Z * Z :=
  match fuel with
  | O => (caps, grown, shrunk)
  | S fuel =>
      if negb (g <? s) then (caps, grown, shrunk)
      else if grown =? r_limit c then (caps, grown, shrunk)
      else if negb (cap_can c caps (cls ms g)) then resize_loop c fuel ms caps (g + 1) (s + 1 - 1) grown shrunk
      else if mss ms g =? 0 then (caps, grown, shrunk)
      else
        let '(caps, s, ok1) := shrink_loop c (Z.to_nat (s - g)) ms caps g s in
        let '(caps, g, ok2) := grow_loop c (Z.to_nat (s - g)) ms caps g s in
        resize_loop c fuel ms caps (g + 1) (s - 1) (grown + (if ok2 then 1 else 0)) (shrunk + (if ok1 then 1 else 0))
  end.

(** The final loop, transfer_cache_internals.h:483-491: None if it
    does not end within [fuel] rounds. *)
Fixpoint grow_first (c : rcfg) (ks : list Z) (caps : Z -> Z) : (Z -> Z) * bool :=
  match ks with
  | [] => (caps, false)
  | k :: ks => let (caps', ok) := cap_grow c caps k in if ok then (caps', true) else grow_first c ks caps
  end.
Fixpoint settle (c : rcfg) (fuel : nat) (ms : list miss_info) (caps : Z -> Z) (grown shrunk : Z) : option (Z -> Z) :=
  if grown <? shrunk
  then match fuel with
       | O => None
       | S fuel => let (caps, ok) := grow_first c (map fst ms) caps in
                   settle c fuel ms caps (grown + (if ok then 1 else 0)) shrunk
       end
  else Some caps.

(** transfer_cache_internals.h:419-492: [misses] are those of the classes of
    one partition. *)
Definition resize_caches (c : rcfg) (fuel : nat) (misses : list miss_info) (caps : Z -> Z) : option (Z -> Z) :=
  let ms := miss_sort misses in
  let n := Z.of_nat (length ms) in
  let '(caps, grown, shrunk) := resize_loop c (Z.to_nat n) ms caps 0 (n - 1) 0 0 in
  settle c fuel ms caps grown shrunk.
