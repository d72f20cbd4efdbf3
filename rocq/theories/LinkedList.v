(** Model of internal/linked_list.h. *)
From Verif Require Import Base.

(** The pointer-sized word stored at each address; 0 is nullptr. *)
Definition heap := Z -> Z.

(** internal/linked_list.h:33-35 SLL_Next. *)
Definition sll_next (h : heap) (t : Z) : Z := h t.

(** internal/linked_list.h:37-39 SLL_SetNext. *)
Definition sll_set_next (h : heap) (t n : Z) : heap := upd h t n.

(** internal/linked_list.h:41-44 SLL_Push: new heap and list. *)
Definition sll_push (h : heap) (list element : Z) : heap * Z :=
  (sll_set_next h element list, element).

(** internal/linked_list.h:46-58 SLL_Pop: result and new list (prefetch not modelled). *)
Definition sll_pop (h : heap) (list : Z) : Z * Z := (list, sll_next h list).

(** internal/linked_list.h:61-127 LinkedList; length_ is a uint32_t. *)
Record llist := MkLL { list_ : Z; length_ : Z }.
Definition ll_empty_list : llist := MkLL 0 0.
Definition w32 (x : Z) : Z := x mod 2 ^ 32.

Definition ll_length (l : llist) : Z := length_ l.
Definition ll_is_empty (l : llist) : bool := list_ l =? 0.

(** internal/linked_list.h:81-84 Push. *)
Definition ll_push (h : heap) (l : llist) (ptr : Z) : heap * llist :=
  let '(h, p) := sll_push h (list_ l) ptr in (h, MkLL p (w32 (length_ l + 1))).

(** internal/linked_list.h:86-104 TryPop: the popped object, if any. *)
Definition ll_try_pop (h : heap) (l : llist) : option Z * llist :=
  if list_ l =? 0 then (None, l)
  else (Some (list_ l), MkLL (sll_next h (list_ l)) (w32 (length_ l - 1))).

(** internal/linked_list.h:109: the chaining loop of PushBatch. *)
Fixpoint ll_chain (h : heap) (tail : Z) (batch : list Z) : heap :=
  match batch with
  | [] => h
  | [p] => sll_set_next h p tail
  | p :: ((q :: _) as rest) => ll_chain (sll_set_next h p q) tail rest
  end.

(** internal/linked_list.h:107-115 PushBatch; N > 0 is asserted. *)
Definition ll_push_batch (h : heap) (l : llist) (batch : list Z) : option (heap * llist) :=
  match batch with
  | [] => None
  | p :: _ => Some (ll_chain h (list_ l) batch, MkLL p (w32 (length_ l + Z.of_nat (length batch))))
  end.

(** internal/linked_list.h:117-126 PopBatch. *)
Fixpoint ll_pop_loop (h : heap) (p : Z) (n : nat) : list Z * Z :=
  match n with
  | O => ([], p)
  | S n => let '(b, q) := ll_pop_loop h (sll_next h p) n in (p :: b, q)
  end.
Definition ll_pop_batch (h : heap) (l : llist) (n : nat) : list Z * llist :=
  let '(b, p) := ll_pop_loop h (list_ l) n in (b, MkLL p (w32 (length_ l - Z.of_nat n))).

(** ** The doubly linked TList: internal/linked_list.h:131-313.
    [nx] and [pv] hold next_ and prev_ of every element, list heads included.
    The debug-only list_ field is not modelled. *)
Record links := MkLinks { nx : Z -> Z; pv : Z -> Z }.

(** internal/linked_list.h:205 the constructor. *)
Definition tl_init (k : links) (head : Z) : links := MkLinks (upd (nx k) head head) (upd (pv k) head head).

(** internal/linked_list.h:160-175 Elem::remove; the result says whether the list became empty. *)
Definition tl_elem_remove (k : links) (this : Z) : links * bool :=
  let next := nx k this in
  let prev := pv k this in
  (MkLinks (upd (nx k) prev next) (upd (pv k) next prev), next =? prev).

(** internal/linked_list.h:177-188 Elem::prepend. *)
Definition tl_elem_prepend (k : links) (this item : Z) : links :=
  let prev := pv k this in
  let pv1 := upd (pv k) item prev in
  let nx1 := upd (nx k) item this in
  let nx2 := upd nx1 prev item in
  let pv2 := upd pv1 this item in
  MkLinks nx2 pv2.

(** internal/linked_list.h:190-201 Elem::append. *)
Definition tl_elem_append (k : links) (this item : Z) : links :=
  let next := nx k this in
  let nx1 := upd (nx k) item next in
  let pv1 := upd (pv k) item this in
  let pv2 := upd pv1 next item in
  let nx2 := upd nx1 this item in
  MkLinks nx2 pv2.

(** internal/linked_list.h:213 empty. *)
Definition tl_empty (k : links) (head : Z) : bool := nx k head =? head.

(** internal/linked_list.h:216-222 length; a walk of at most [fuel] elements. *)
Fixpoint tl_length_loop (fuel : nat) (k : links) (head e : Z) : option Z :=
  if e =? head then Some 0
  else match fuel with
       | O => None
       | S fuel => let? r := tl_length_loop fuel k head (nx k e) in Some (r + 1)
       end.
Definition tl_length (fuel : nat) (k : links) (head : Z) : option Z := tl_length_loop fuel k head (nx k head).

(** internal/linked_list.h:225-229 first and
    internal/linked_list.h:232-236 last. *)
Definition tl_first (k : links) (head : Z) : Z := nx k head.
Definition tl_last (k : links) (head : Z) : Z := pv k head.

(** internal/linked_list.h:239..internal/linked_list.h:245. *)
Definition tl_prepend (k : links) (head item : Z) : links := tl_elem_append k head item.
Definition tl_prepend_other (k : links) (item other : Z) : links := tl_elem_prepend k item other.
Definition tl_append (k : links) (head item : Z) : links := tl_elem_prepend k head item.
Definition tl_append_other (k : links) (item other : Z) : links := tl_elem_append k item other.
Definition tl_remove (k : links) (item : Z) : links * bool := tl_elem_remove k item.
