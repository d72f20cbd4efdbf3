(** Model of huge_cache.h/.cc: backed hugepages kept for reuse.

    The time-series trackers (MinMaxTracker) only influence the limit; their answers
    are inputs here ([shrink], [usage_min], [size_min]), and so is whether the limit
    is due for a change.  Hit/miss counters are not modelled.  Releasing memory to
    the system drops the page heap lock, so ShrinkCache is cut into the parts between
    two such points: [hc_shrink_take] and [hc_shrink_done]. *)
From Verif Require Import Base HugeAddressMap HugeAllocator.

(** huge_cache.h:227: the members. *)
Record hcache := MkHC { hc_alloc : hugealloc; hc_cache : ham; hc_size : Z; hc_limit : Z; hc_usage : Z }.
Definition min_cache_limit : Z := 10.
Definition hc_init : hcache := MkHC ha_init ham_init 0 min_cache_limit 0.

Definition hc_set_alloc (h : hcache) (a : hugealloc) : hcache := MkHC a (hc_cache h) (hc_size h) (hc_limit h) (hc_usage h).
Definition hc_set_cache (h : hcache) (m : ham) (size : Z) : hcache := MkHC (hc_alloc h) m size (hc_limit h) (hc_usage h).
Definition hc_set_limit (h : hcache) (limit : Z) : hcache := MkHC (hc_alloc h) (hc_cache h) (hc_size h) limit (hc_usage h).
Definition hc_set_usage (h : hcache) (usage : Z) : hcache := MkHC (hc_alloc h) (hc_cache h) (hc_size h) (hc_limit h) usage.

(** huge_cache.cc:322-367 is the same function as HugeAllocator::Find. *)
Definition hc_find (h : hcache) (n : Z) : option hrange := ha_find (ham_root (hc_cache h)) n None.

(** huge_cache.cc:110-135.  Result: the range (or Nil), from_released, whether the system was
    asked, the state. *)
Definition hc_do_get (h : hcache) (n : Z) (os : option hrange) (p1 p2 : Z) : option (option hrange * bool * bool * hcache) :=
  match hc_find h n with
  | None =>
    let? (res, asked, a) := ha_get (hc_alloc h) n os p1 p2 in
    Some (res, true, asked, hc_set_alloc h a)
  | Some x =>
    let h := hc_set_cache h (hc_cache h) (hc_size h - n) in
    let? (result, leftover) := hr_split x n in
    let m := ham_remove (hc_cache h) x in
    let? m := (match leftover with Some l => ham_insert m l p2 | None => Some m end) in
    Some (Some result, false, false, hc_set_cache h m (hc_size h))
  end.

(** huge_cache.cc:137-181. *)
Definition hc_maybe_grow_limit (h : hcache) (shrink usage_min : Z) : hcache :=
  let grow := hc_usage h - usage_min in
  let dip := Z.min shrink grow in
  let slack := dip / 10 in
  let lim := dip + slack in
  if hc_limit h <? lim then hc_set_limit h lim else h.

(** huge_cache.cc:202-212. *)
Definition hc_get (h : hcache) (n : Z) (os : option hrange) (p1 p2 shrink usage_min : Z)
  : option (option hrange * bool * bool * hcache) :=
  let? (res, from_released, asked, h) := hc_do_get h n os p1 p2 in
  match res with
  | None => Some (None, from_released, asked, h)
  | Some r =>
    let h := hc_set_usage h (hc_usage h + snd r) in
    let h := if from_released then hc_maybe_grow_limit h shrink usage_min else h in
    Some (Some r, from_released, asked, h)
  end.

(** huge_cache.cc:214-232, up to the shrinking. *)
Definition hc_release_insert (h : hcache) (r : hrange) (p : Z) : option hcache :=
  let h := hc_set_usage h (hc_usage h - snd r) in
  let? m := ham_insert (hc_cache h) r p in
  Some (hc_set_cache h m (hc_size h + snd r)).

(** huge_cache.cc:234-238. *)
Definition hc_release_unbacked (h : hcache) (r : hrange) (p : Z) : option hcache :=
  let h := hc_set_usage h (hc_usage h - snd r) in
  let? a := ha_release (hc_alloc h) r p in
  Some (hc_set_alloc h a).

(** One iteration of the loop of ShrinkCache (huge_cache.cc:256-293), up to the system call: the range
    to give back, or [None] if the cache is small enough. *)
Definition hc_shrink_take (h : hcache) (target : Z) (p : Z) : option (option hrange * hcache) :=
  if target <? hc_size h then
    let? r := hc_find h 1 in
    let m := ham_remove (hc_cache h) r in
    let delta := hc_size h - target in
    if delta <? snd r then
      let? (to_remove, leftover) := hr_split r delta in
      let? l := leftover in
      let? m := ham_insert m l p in
      Some (Some to_remove, hc_set_cache h m (hc_size h - snd to_remove))
    else Some (Some r, hc_set_cache h m (hc_size h - snd r))
  else Some (None, h).

(** The rest of the iteration, given the outcome of the system call
    (huge_cache.cc:281-287). *)
Definition hc_shrink_done (h : hcache) (r : hrange) (success : bool) (p : Z) : option hcache :=
  if success then let? a := ha_release (hc_alloc h) r p in Some (hc_set_alloc h a)
  else let? m := ham_insert (hc_cache h) r p in Some (hc_set_cache h m (hc_size h + snd r)).

(** ShrinkCache without interference: [os i] is the outcome of the [i]th system call,
    [prio] the priorities of new nodes.  Result: hugepages removed and the state. *)
Fixpoint hc_shrink_loop (fuel : nat) (h : hcache) (target : Z) (os : Z -> bool) (prio : Z -> Z) (i removed : Z) : option (Z * hcache) :=
  match fuel with
  | O => Some (removed, h)
  | S fuel =>
    let? (r, h) := hc_shrink_take h target (prio (2 * i)) in
    match r with
    | None => Some (removed, h)
    | Some r =>
      let? h := hc_shrink_done h r (os i) (prio (2 * i + 1)) in
      if os i then hc_shrink_loop fuel h target os prio (i + 1) (removed + snd r) else Some (removed, h)
    end
  end.
Definition hc_shrink (h : hcache) (target : Z) (os : Z -> bool) (prio : Z -> Z) : option (Z * hcache) :=
  hc_shrink_loop (Z.to_nat (hc_size h + 1)) h target os prio 0 0.

(** huge_cache.cc:240-254: the new limit; [false]: returns before shrinking. *)
Definition hc_shrink_limit (h : hcache) (size_min : Z) : bool * hcache :=
  if size_min <? hc_limit h / 5 then (false, h)
  else
    let drop := Z.max (size_min / 2) 1 in
    (true, hc_set_limit h (Z.max (if hc_limit h <=? drop then 0 else hc_limit h - drop) min_cache_limit)).
Definition hc_maybe_shrink (h : hcache) (size_min : Z) (os : Z -> bool) (prio : Z -> Z) : option (Z * hcache) :=
  let '(go, h) := hc_shrink_limit h size_min in
  if go then hc_shrink h (hc_limit h) os prio else Some (0, h).

(** Release without interference; [due]: the limit has not changed for long. *)
Definition hc_release (h : hcache) (r : hrange) (p : Z) (due : bool) (size_min : Z) (os1 os2 : Z -> bool) (pr1 pr2 : Z -> Z) : option hcache :=
  let? h := hc_release_insert h r p in
  let? h := (if due then let? (_, h) := hc_maybe_shrink h size_min os1 pr1 in Some h else Some h) in
  let? (_, h) := hc_shrink h (hc_limit h) os2 pr2 in
  Some h.

(** huge_cache.cc:295-307 without interference: hugepages released and the state. *)
Definition hc_release_cached (h : hcache) (n : Z) (size_min : Z) (os1 os2 : Z -> bool) (pr1 pr2 : Z -> Z) : option (Z * hcache) :=
  let? (released, h) := hc_maybe_shrink h size_min os1 pr1 in
  if released <? n then
    let n := n - released in
    let target := if hc_size h <? n then 0 else hc_size h - n in
    let? (more, h) := hc_shrink h target os2 pr2 in
    Some (released + more, h)
  else Some (released, h).
