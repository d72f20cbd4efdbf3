(** Model of hinted_tracker_lists.h.  The intrusive lists (TList) are sequences here;
    that the linked structure implements sequences is C40 (LinkedListProps.v). *)
From Verif Require Import Base Bitmap.

(** Unlink an element. *)
Fixpoint rem1 (x : Z) (l : list Z) : list Z :=
  match l with
  | [] => []
  | y :: l => if y =? x then l else y :: rem1 x l
  end.

(** hinted_tracker_lists.h:153: the members. *)
Record hlists := MkHL { hl : Z -> list Z; hsize : Z; hbits : words }.

(** hinted_tracker_lists.h:37. *)
Definition hl_empty : hlists := MkHL (fun _ => []) 0 clear_all.

(** TList::remove and its result. *)
Definition hl_unlink (t : hlists) (x i : Z) : hlists :=
  let l := rem1 x (hl t i) in
  MkHL (upd (hl t) i l) (hsize t)
       (match l with [] => fst (clear_bit (hbits t) i) | _ => hbits t end).

Definition hl_set_size (t : hlists) (n : Z) : hlists := MkHL (hl t) n (hbits t).

(** hinted_tracker_lists.h:66-74 PeekLeast: the element and its index;
    [None] is undefined behaviour (a stale hint). *)
Definition hl_peek_least (N : Z) (t : hlists) (n : Z) : option (option (Z * Z)) :=
  let? i := find_set N (hbits t) n in
  if i =? N then Some None
  else match hl t i with
       | [] => None
       | x :: _ => Some (Some (x, i))
       end.

(** hinted_tracker_lists.h:41-54 GetLeast. *)
Definition hl_get_least (N : Z) (t : hlists) (n : Z) : option (option Z * hlists) :=
  let? i := find_set N (hbits t) n in
  if i =? N then Some (None, t)
  else match hl t i with
       | [] => None
       | x :: _ => let t := hl_unlink t x i in Some (Some x, hl_set_size t (hsize t - 1))
       end.

(** hinted_tracker_lists.h:78-85 Add. *)
Definition hl_add (t : hlists) (x i : Z) : hlists :=
  MkHL (upd (hl t) i (x :: hl t i)) (hsize t + 1) (fst (set_bit (hbits t) i)).

(** hinted_tracker_lists.h:89-97 Remove. *)
Definition hl_remove (t : hlists) (x i : Z) : hlists :=
  let t := hl_unlink t x i in hl_set_size t (hsize t - 1).

(** hinted_tracker_lists.h:101-116 Move. *)
Definition hl_move (t : hlists) (x from to : Z) : hlists :=
  let t := hl_unlink t x from in
  MkHL (upd (hl t) to (x :: hl t to)) (hsize t) (fst (set_bit (hbits t) to)).

(** hinted_tracker_lists.h:126-129. *)
Definition hl_size_of_list (t : hlists) (n : Z) : Z := Z.of_nat (length (hl t n)).

(** hinted_tracker_lists.h:134-145 Iter: the elements visited, in order;
    at most [fuel] lists. *)
Fixpoint hl_iter_loop (fuel : nat) (N : Z) (t : hlists) (i : Z) : option (list Z) :=
  match fuel with
  | O => Some []
  | S fuel =>
    if i <? N then
      let? rest := (if i + 1 <? N then let? j := find_set N (hbits t) (i + 1) in hl_iter_loop fuel N t j else Some []) in
      Some (hl t i ++ rest)
    else Some []
  end.
Definition hl_iter (N : Z) (t : hlists) (start : Z) : option (list Z) :=
  let? i := find_set N (hbits t) start in hl_iter_loop (Z.to_nat (N - start)) N t i.
