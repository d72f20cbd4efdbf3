(** Model of huge_allocator.h/.cc: address space in units of hugepages. *)
From Verif Require Import Base HugeAddressMap.

(** huge_allocator.h:106: the members. *)
Record hugealloc := MkHA { ha_free : ham; ha_system : Z; ha_in_use : Z }.
Definition ha_init : hugealloc := MkHA ham_init 0 0.

(** huge_allocator.cc:43-88: one step of the loop per level of the tree. *)
Fixpoint ha_find (t : tree) (n : Z) (best : option hrange) : option hrange :=
  match t with
  | Leaf => best
  | Node l x _ lg r =>
    if lg <? n then best
    else
      let best := if n <=? snd x
                  then match best with None => Some x | Some b => if snd x <? snd b then Some x else best end
                  else best in
      match l, r with
      | Leaf, _ => ha_find r n best
      | Node _ lx _ llg _, Leaf => if llg <? n then ha_find r n best else ha_find l n best
      | Node _ lx _ llg _, Node _ rx _ rlg _ =>
        if llg <? n then ha_find r n best
        else if rlg <? n then ha_find l n best
        else if snd lx =? snd rx then if llg <=? rlg then ha_find l n best else ha_find r n best
        else if snd lx <? snd rx then ha_find l n best
        else ha_find r n best
      end
  end.

(** huge_allocator.cc:151-156; [None]: a failed check in the address map. *)
Definition ha_release (h : hugealloc) (r : hrange) (prio : Z) : option hugealloc :=
  let in_use := ha_in_use h - snd r in
  let? m := ham_insert (ha_free h) r prio in
  Some (MkHA m (ha_system h) in_use).

(** huge_pages.h:294-296. *)
Definition hl_overflows (n : Z) : bool := 2 ^ 64 / 2 ^ 21 - 1 <? n.

(** huge_allocator.cc:102-117: [os] is what the system grants (in hugepages), if anything. *)
Definition ha_allocate_range (h : hugealloc) (n : Z) (os : option hrange) : option hrange * hugealloc :=
  if hl_overflows n then (None, h)
  else match os with
       | None => (None, h)
       | Some r => (Some r, MkHA (ha_free h) (ha_system h + snd r) (ha_in_use h))
       end.

(** The part of Get after a node is found. *)
Definition ha_take (h : hugealloc) (x : hrange) (n : Z) (prio : Z) : option (hrange * hugealloc) :=
  let h := MkHA (ham_remove (ha_free h) x) (ha_system h) (ha_in_use h + n) in
  if n <? snd x then
    let extra := (fst x + n, snd x - n) in
    let r := (fst x, n) in
    let h := MkHA (ha_free h) (ha_system h) (ha_in_use h + snd extra) in
    let? h := ha_release h extra prio in
    Some (r, h)
  else Some (x, h).

(** huge_allocator.cc:119-149.  Result: the range (or Nil), whether the system was asked, the state. *)
Definition ha_get (h : hugealloc) (n : Z) (os : option hrange) (prio1 prio2 : Z) : option (option hrange * bool * hugealloc) :=
  if n <=? 0 then None else
  match ha_find (ham_root (ha_free h)) n None with
  | Some x => let? (r, h) := ha_take h x n prio2 in Some (Some r, false, h)
  | None =>
    let '(r, h) := ha_allocate_range h n os in
    match r with
    | None => Some (None, true, h)
    | Some r =>
      let h := MkHA (ha_free h) (ha_system h) (ha_in_use h + snd r) in
      let? h := ha_release h r prio1 in
      let? x := ha_find (ham_root (ha_free h)) n None in
      let? (r, h) := ha_take h x n prio2 in
      Some (Some r, true, h)
    end
  end.

(** huge_allocator.h:73. *)
Definition ha_size (h : hugealloc) : Z := ha_system h - ha_in_use h.
(** huge_allocator.h:85-90. *)
Definition ha_contains (h : hugealloc) (p : Z) : bool :=
  match tpred (ham_root (ha_free h)) p with Some r => hr_contains r p | None => false end.
