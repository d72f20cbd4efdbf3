(** Model of huge_address_map.h/.cc and HugeRange (huge_pages.h): a treap of disjoint ranges of hugepages.

    A tree is an inductive value.  Parent pointers become recursion, and a node is
    named by the start of its range and found by descent.  Priorities are inputs (the
    code draws them from a generator).  The time stamp of a node is not modelled. *)
From Verif Require Import Base.

(** A range of hugepages: first hugepage and length. *)
Notation hrange := (Z * Z)%type.

(** huge_pages.h:344,
    huge_pages.h:349-351,
    huge_pages.h:355. *)
Definition hr_contains (r : hrange) (p : Z) : bool := (fst r <=? p) && (p - fst r <? snd r).
Definition hr_intersects (a r : hrange) : bool := hr_contains r (fst a) || hr_contains a (fst r).
Definition hr_precedes (a r : hrange) : bool := fst a + snd a =? fst r.
(** huge_pages.h:373-376. *)
Definition hr_join (a b : hrange) : option hrange :=
  if hr_precedes a b then Some (fst a, snd a + snd b) else None.
(** huge_pages.h:381-389; [None] as second part: Nil. *)
Definition hr_split (r : hrange) (n : Z) : option (hrange * option hrange) :=
  if snd r <? n then None
  else if n <? snd r then Some ((fst r, n), Some (fst r + n, snd r - n)) else Some (r, None).

(** huge_address_map.h:66: range, priority and longest range of the subtree. *)
Inductive tree := Leaf | Node (l : tree) (range : hrange) (prio longest : Z) (r : tree).

(** In-order contents. *)
Fixpoint ranges (t : tree) : list hrange :=
  match t with Leaf => [] | Node l x _ _ r => ranges l ++ x :: ranges r end.

Definition longest (t : tree) : Z := match t with Leaf => 0 | Node _ _ _ lg _ => lg end.

(** huge_address_map.cc:274-280. *)
Definition fix_node (l : tree) (x : hrange) (prio : Z) (r : tree) : tree :=
  Node l x prio (Z.max (Z.max (longest l) (longest r)) (snd x)) r.

(** huge_address_map.cc:88-98. *)
Fixpoint tfirst (t : tree) : option hrange :=
  match t with Leaf => None | Node Leaf x _ _ _ => Some x | Node l _ _ _ _ => tfirst l end.

(** huge_address_map.cc:31-47 for the node starting at [s]; [up]: the ancestor from
    which we last went left. *)
Fixpoint tnext_from (t : tree) (s : Z) (up : option hrange) : option hrange :=
  match t with
  | Leaf => None
  | Node l x _ _ r =>
    if s <? fst x then tnext_from l s (Some x)
    else if fst x <? s then tnext_from r s up
    else match r with Leaf => up | _ => tfirst r end
  end.
Definition tnext (t : tree) (s : Z) : option hrange := tnext_from t s None.

(** huge_address_map.cc:135-154. *)
Fixpoint tpred_from (t : tree) (p : Z) (best : option hrange) : option hrange :=
  match t with
  | Leaf => best
  | Node l x _ _ r =>
    if hr_contains x p then Some x
    else if p <? fst x then tpred_from l p best else tpred_from r p (Some x)
  end.
Definition tpred (t : tree) (p : Z) : option hrange := tpred_from t p None.

(** Give the node starting at [s] the range [x], then FixLongest up to the root
    (huge_address_map.cc:282-287). *)
Fixpoint set_range (t : tree) (s : Z) (x : hrange) : tree :=
  match t with
  | Leaf => Leaf
  | Node l y prio lg r =>
    if s <? fst y then fix_node (set_range l s x) y prio r
    else if fst y <? s then fix_node l y prio (set_range r s x)
    else fix_node l x prio r
  end.

(** Number of nodes. *)
Fixpoint tsize (t : tree) : nat := match t with Leaf => O | Node l _ _ _ r => S (tsize l + tsize r) end.

(** The loop of Remove, huge_address_map.cc:318-324 and huge_address_map.cc:332-347: merge two treaps. *)
Definition reorder (t b : tree) : tree * tree :=
  match t, b with
  | Leaf, Node _ _ _ _ _ => (b, t)
  | Node _ _ tp _ _, Node _ _ bp _ _ => if tp <? bp then (b, t) else (t, b)
  | _, Leaf => (t, b)
  end.
Fixpoint tmerge (fuel : nat) (t b : tree) : tree :=
  match fuel with
  | O => Leaf
  | S fuel =>
    match reorder t b with
    | (Node l x prio lg r, Node bl bx bp blg br) =>
      let b := Node bl bx bp blg br in
      if fst bx <? fst x then Node (tmerge fuel l b) x prio (Z.max lg blg) r
      else Node l x prio (Z.max lg blg) (tmerge fuel r b)
    | (t, _) => t
    end
  end.

(** huge_address_map.cc:289-351 for the node starting at [s]: the tree, and the value its
    parent reads as the child's longest. *)
Fixpoint remove_node (t : tree) (s : Z) : tree * Z :=
  match t with
  | Leaf => (Leaf, 0)
  | Node l x prio lg r =>
    if s <? fst x then
      let '(l', llg) := remove_node l s in
      let lg := Z.max (Z.max llg (longest r)) (snd x) in (Node l' x prio lg r, lg)
    else if fst x <? s then
      let '(r', rlg) := remove_node r s in
      let lg := Z.max (Z.max (longest l) rlg) (snd x) in (Node l x prio lg r', lg)
    else (tmerge (S (tsize l + tsize r)) l r, Z.max (longest l) (longest r))
  end.

(** The second loop of Insert, huge_address_map.cc:252-266: split a treap at [p]. *)
Fixpoint tsplit (t : tree) (p : Z) : tree * tree :=
  match t with
  | Leaf => (Leaf, Leaf)
  | Node l x prio _ r =>
    if fst x <? p then let '(a, b) := tsplit r p in (fix_node l x prio a, b)
    else let '(a, b) := tsplit l p in (a, fix_node b x prio r)
  end.

(** The first loop of Insert, huge_address_map.cc:228-238: walk down to the place of the new node.  The
    boolean says that a subtree was split, in which case the ancestors' [longest]
    are recomputed; otherwise they keep the maximum taken on the way down. *)
Fixpoint insert_node (t : tree) (y : hrange) (p : Z) : tree * bool :=
  match t with
  | Leaf => (Node Leaf y p (snd y) Leaf, false)
  | Node l x prio lg r =>
    if p <=? prio then
      let lg := Z.max lg (snd y) in
      if fst x <? fst y then
        let '(r', fixed) := insert_node r y p in
        ((if fixed then fix_node l x prio r' else Node l x prio lg r'), fixed)
      else
        let '(l', fixed) := insert_node l y p in
        ((if fixed then fix_node l' x prio r else Node l' x prio lg r), fixed)
    else let '(a, b) := tsplit t (fst y) in (fix_node a y p b, true)
  end.

(** huge_address_map.h:110: the members; unused nodes are only counted. *)
Record ham := MkHam { ham_root : tree; used_nodes : Z; total_size : Z; freelist_size : Z; total_nodes : Z }.
Definition ham_init : ham := MkHam Leaf 0 0 0 0.

(** huge_address_map.cc:360-375 and huge_address_map.cc:353-358: the counters. *)
Definition node_get (m : ham) : ham :=
  if freelist_size m =? 0
  then MkHam (ham_root m) (used_nodes m + 1) (total_size m) (freelist_size m) (total_nodes m + 1)
  else MkHam (ham_root m) (used_nodes m + 1) (total_size m) (freelist_size m - 1) (total_nodes m).
Definition node_put (m : ham) : ham :=
  MkHam (ham_root m) (used_nodes m - 1) (total_size m) (freelist_size m + 1) (total_nodes m).
Definition set_root (m : ham) (t : tree) : ham := MkHam t (used_nodes m) (total_size m) (freelist_size m) (total_nodes m).
Definition add_size (m : ham) (n : Z) : ham := MkHam (ham_root m) (used_nodes m) (total_size m + n) (freelist_size m) (total_nodes m).

(** Remove, the node whose range is [x]. *)
Definition ham_remove (m : ham) (x : hrange) : ham :=
  let m := add_size m (- snd x) in
  node_put (set_root m (fst (remove_node (ham_root m) (fst x)))).

(** huge_address_map.cc:161-199. *)
Definition merge_ranges (m : ham) (b : option hrange) (r : hrange) (a : option hrange) : option ham :=
  match b, a with
  | Some b, None => let? x := hr_join b r in Some (set_root m (set_range (ham_root m) (fst b) x))
  | None, Some a => let? x := hr_join r a in Some (set_root m (set_range (ham_root m) (fst a) x))
  | Some b, Some a =>
    let? partial := hr_join r a in
    let? full := hr_join b partial in
    let m := add_size m (snd a) in
    let m := ham_remove m a in
    Some (set_root m (set_range (ham_root m) (fst b) full))
  | None, None => None
  end.

Definition opt_test (o : option hrange) (f : hrange -> bool) : bool := match o with Some x => f x | None => false end.

(** huge_address_map.cc:201-272; [prio]: the priority of a node it may create; [None]: a failed check. *)
Definition ham_insert (m : ham) (r : hrange) (prio : Z) : option ham :=
  let m := add_size m (snd r) in
  let before := tpred (ham_root m) (fst r) in
  if opt_test before (fun x => hr_intersects x r) then None else
  let after := match before with Some b => tnext (ham_root m) (fst b) | None => tfirst (ham_root m) end in
  if opt_test after (fun x => hr_intersects x r) then None else
  if opt_test before (fun x => hr_precedes x r) then
    if opt_test after (fun x => hr_precedes r x) then merge_ranges m before r after
    else merge_ranges m before r None
  else if opt_test after (fun x => hr_precedes r x) then merge_ranges m None r after
  else
    let m := node_get m in
    Some (set_root m (fst (insert_node (ham_root m) r prio))).

(** huge_address_map.cc:54-86: all checks pass, number of nodes, total length. *)
Fixpoint check_node (t : tree) : bool * Z * Z :=
  match t with
  | Leaf => (true, 0, 0)
  | Node l x prio lg r =>
    let '(okl, nl, sl) := check_node l in
    let '(okr, nr, sr) := check_node r in
    let cl := match l with Leaf => true | Node _ y p _ _ => (fst y <? fst x) && (fst y + snd y <? fst x) && (p <=? prio) end in
    let cr := match r with Leaf => true | Node _ y p _ _ => (fst x <? fst y) && (fst x + snd x <? fst y) && (p <=? prio) end in
    let want := snd x in
    let want := if want <? longest l then longest l else want in
    let want := if want <? longest r then longest r else want in
    (okl && okr && cl && cr && (lg =? want), 1 + nl + nr, snd x + sl + sr)
  end.
(** huge_address_map.cc:105-115. *)
Definition ham_check (m : ham) : bool :=
  let '(ok, n, s) := check_node (ham_root m) in
  ok && (n =? used_nodes m) && (s =? total_size m) && (total_nodes m =? used_nodes m + freelist_size m).
