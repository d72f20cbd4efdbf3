(** Model of tcmalloc/huge_page_tracker.h: the pages of one hugepage, with the pages that have
    been returned to the OS.  [N] is kPagesPerHugePage.  Not modelled: the time stamps, the
    residency state and the features, which nothing here reads. *)
From Verif Require Import Base Bitmap.

(** huge_page_tracker.h:312-392 (the members). *)
Record ptracker := PTracker {
  pt_free : tracker;
  pt_rel : words;           (* released_by_page_ *)
  pt_rcount : Z;            (* released_count_ *)
  pt_donated : bool;
  pt_was_donated : bool;
  pt_was_released : bool;
  pt_abandoned : bool;
  pt_abandoned_count : Z;
  pt_unbroken : bool;
  pt_objects : Z;           (* num_objects_ *)
  pt_dense : bool }.        (* has_dense_spans_ *)

(** The constructor, huge_page_tracker.h:73-83. *)
Definition pt_new (N : Z) (was_donated : bool) : ptracker :=
  PTracker (rt_init N) clear_all 0 false was_donated false false 0 true 0 false.

Definition pt_with (t : ptracker) (free : tracker) (rel : words) (rcount : Z) (unbroken : bool) (objects : Z) : ptracker :=
  PTracker free rel rcount (pt_donated t) (pt_was_donated t) (pt_was_released t) (pt_abandoned t) (pt_abandoned_count t) unbroken objects (pt_dense t).
Definition pt_set_donated (t : ptracker) (b : bool) : ptracker :=
  PTracker (pt_free t) (pt_rel t) (pt_rcount t) b (pt_was_donated t) (pt_was_released t) (pt_abandoned t) (pt_abandoned_count t) (pt_unbroken t) (pt_objects t) (pt_dense t).
Definition pt_set_was_released (t : ptracker) (b : bool) : ptracker :=
  PTracker (pt_free t) (pt_rel t) (pt_rcount t) (pt_donated t) (pt_was_donated t) b (pt_abandoned t) (pt_abandoned_count t) (pt_unbroken t) (pt_objects t) (pt_dense t).
Definition pt_set_abandoned (t : ptracker) (b : bool) : ptracker :=
  PTracker (pt_free t) (pt_rel t) (pt_rcount t) (pt_donated t) (pt_was_donated t) (pt_was_released t) b (pt_abandoned_count t) (pt_unbroken t) (pt_objects t) (pt_dense t).
Definition pt_set_abandoned_count (t : ptracker) (c : Z) : ptracker :=
  PTracker (pt_free t) (pt_rel t) (pt_rcount t) (pt_donated t) (pt_was_donated t) (pt_was_released t) (pt_abandoned t) c (pt_unbroken t) (pt_objects t) (pt_dense t).
Definition pt_set_unbroken (t : ptracker) (b : bool) : ptracker :=
  PTracker (pt_free t) (pt_rel t) (pt_rcount t) (pt_donated t) (pt_was_donated t) (pt_was_released t) (pt_abandoned t) (pt_abandoned_count t) b (pt_objects t) (pt_dense t).
Definition pt_set_dense (t : ptracker) : ptracker :=
  PTracker (pt_free t) (pt_rel t) (pt_rcount t) (pt_donated t) (pt_was_donated t) (pt_was_released t) (pt_abandoned t) (pt_abandoned_count t) (pt_unbroken t) (pt_objects t) true.

(** Statistics, huge_page_tracker.h:143-204, 612-616. *)
Definition pt_released (t : ptracker) : bool := 0 <? pt_rcount t.
Definition pt_longest (t : ptracker) : Z := rt_longest (pt_free t).
Definition pt_nallocs (t : ptracker) : Z := rt_nallocs (pt_free t).
Definition pt_used (t : ptracker) : Z := rt_nused (pt_free t).
Definition pt_free_pages (N : Z) (t : ptracker) : Z := N - pt_used t.
Definition pt_empty (t : ptracker) : bool := pt_used t =? 0.
Definition pt_fully_freed (N : Z) (t : ptracker) : bool := pt_longest t =? N.

(** Get, huge_page_tracker.h:399-422: the index of the first page
    and how many of the pages had been released.  None: the TC_CHECK in FindAndMark. *)
Definition pt_get (N : Z) (t : ptracker) (n objects : Z) : option (ptracker * Z * Z) :=
  let? (free, index) := find_and_mark N (pt_free t) n in
  if 0 <? pt_rcount t then
    let unbacked := count_bits N (pt_rel t) index n in
    Some (pt_with t free (clear_range N (pt_rel t) index n) (pt_rcount t - unbacked) (pt_unbroken t) (pt_objects t + objects), index, unbacked)
  else Some (pt_with t free (pt_rel t) (pt_rcount t) (pt_unbroken t) (pt_objects t + objects), index, 0).

(** Put, huge_page_tracker.h:466-471; [index]: relative to the hugepage. *)
Definition pt_put (N : Z) (t : ptracker) (index n objects : Z) : option ptracker :=
  let? free := unmark N (pt_free t) index n in
  Some (pt_with t free (pt_rel t) (pt_rcount t) (pt_unbroken t) (pt_objects t - objects)).

(** ReleaseFree, huge_page_tracker.h:473-522: the loop.  [os i n]: whether the call that
    unbacks the pages succeeds.  The result: the released bits, the count, and the calls in order. *)
Fixpoint release_loop (fuel : nat) (N : Z) (free : words) (os : Z -> Z -> bool) (rel : words) (index : Z) : option (words * Z * list (Z * Z)) :=
  match fuel with
  | O => None
  | S fuel =>
    let? r := next_free_range N rel index in
    match r with
    | None => Some (rel, 0, [])
    | Some (i, n) =>
      let? f := next_free_range N free i in
      match f with
      | Some (fi, fn) =>
        if fi <? i + n then
          let e := Z.min (fi + fn) (i + n) in
          let len := e - fi in
          let rel := if os fi len then set_range N rel fi len else rel in
          let? (rel, count, calls) := release_loop fuel N free os rel e in
          Some (rel, (if os fi len then len else 0) + count, (fi, len) :: calls)
        else release_loop fuel N free os rel (i + n)
      | None => release_loop fuel N free os rel (i + n)
      end
    end
  end.
Definition pt_release_free (N : Z) (t : ptracker) (os : Z -> Z -> bool) : option (ptracker * Z * list (Z * Z)) :=
  let? (rel, count, calls) := release_loop (range_fuel N) N (rt_bits (pt_free t)) os (pt_rel t) 0 in
  let unbroken := pt_unbroken t && negb (existsb (fun r => os (fst r) (snd r)) calls) in
  Some (pt_with t (pt_free t) rel (pt_rcount t + count) unbroken (pt_objects t), count, calls).

(** MarkSubreleased, huge_page_tracker.h:524-544. *)
Definition pt_mark_subreleased (N : Z) (t : ptracker) (unbacked : words) : ptracker * Z :=
  let to_release := bm_and (bm_and (bm_not N (rt_bits (pt_free t))) (bm_not N (pt_rel t))) unbacked in
  let n := count_bits N to_release 0 N in
  (pt_with t (pt_free t) (bm_or (pt_rel t) to_release) (pt_rcount t + n) false (pt_objects t), n).

(** AddSpanStats, huge_page_tracker.h:570-609: the runs it counts, each with its first page, its
    length and whether it is released.  The histogram that it enters them in is not modelled. *)
Fixpoint span_runs_loop (fuel : nat) (N : Z) (free rel : words) (index : Z) : option (list (Z * Z * bool)) :=
  match fuel with
  | O => None
  | S fuel =>
    let? r := next_free_range N free index in
    match r with
    | None => Some []
    | Some (i, n) =>
      let released := get_bit rel i in
      let? e := (if N - 1 <=? i then Some N else if released then find_clear N rel (i + 1) else find_set N rel (i + 1)) in
      let n := Z.min (e - i) n in
      let? l := span_runs_loop fuel N free rel (i + n) in
      Some ((i, n, released) :: l)
    end
  end.
Definition pt_span_runs (N : Z) (t : ptracker) : option (list (Z * Z * bool)) :=
  span_runs_loop (range_fuel N) N (rt_bits (pt_free t)) (pt_rel t) 0.
