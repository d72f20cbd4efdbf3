(** Model of the central free list of one size class: central_freelist.h
    (the non-legacy configuration: TCMALLOC_INTERNAL_LEGACY_LOCKING undefined).
    Hooks, tracing, span lifetimes and the num_same_spans_ and
    span_allocations_tracker_ histograms are not modelled. *)
From Verif Require Import Base SizeMap Bitmap Span HintedLists.

Definition k_num_lists : Z := 8.             (* central_freelist.h:128 *)
Definition k_max_objects_to_move : Z := 128. (* common.h:208 *)

(** absl::bit_width. *)
Definition bit_width (x : Z) : Z := if x =? 0 then 0 else Z.log2 x + 1.

(** The members of a central free list (central_freelist.h:376-377..)
    and the shared structures it works on.  A span descriptor is named by its
    address; [f_pagemap] gives the descriptor of every page that is registered for this
    size class. *)
Record cfl := MkCfl {
  f_mem : memory;
  f_span : Z -> span;
  f_nidx : Z -> Z;              (* Span::nonempty_index_ *)
  f_pagemap : Z -> option Z;
  f_nonempty : hlists;
  f_counter : Z;
  f_requested : Z;
  f_returned : Z;
  f_util : Z -> Z               (* objects_to_spans_ *)
}.

Definition set_mem_span (f : cfl) (m : memory) (id : Z) (s : span) : cfl :=
  MkCfl m (upd (f_span f) id s) (f_nidx f) (f_pagemap f) (f_nonempty f) (f_counter f) (f_requested f) (f_returned f) (f_util f).
Definition set_nonempty (f : cfl) (t : hlists) : cfl :=
  MkCfl (f_mem f) (f_span f) (f_nidx f) (f_pagemap f) t (f_counter f) (f_requested f) (f_returned f) (f_util f).
(** span.h:188-191. *)
Definition set_nidx (f : cfl) (id i : Z) : cfl :=
  MkCfl (f_mem f) (f_span f) (upd (f_nidx f) id i) (f_pagemap f) (f_nonempty f) (f_counter f) (f_requested f) (f_returned f) (f_util f).
Definition set_util (f : cfl) (u : Z -> Z) : cfl :=
  MkCfl (f_mem f) (f_span f) (f_nidx f) (f_pagemap f) (f_nonempty f) (f_counter f) (f_requested f) (f_returned f) u.
Definition set_counts (f : cfl) (counter requested returned : Z) : cfl :=
  MkCfl (f_mem f) (f_span f) (f_nidx f) (f_pagemap f) (f_nonempty f) counter requested returned (f_util f).

(** central_freelist.h:282-288 RecordSpanUtil. *)
Definition record_util (f : cfl) (bitwidth : Z) (increase : bool) : cfl :=
  set_util f (upd (f_util f) (bitwidth - 1) (f_util f (bitwidth - 1) + if increase then 1 else -1)).

(** central_freelist.h:330-332. *)
Definition update_object_counts (f : cfl) (num : Z) : cfl :=
  set_counts f (f_counter f + num) (f_requested f) (f_returned f).

(** central_freelist.h:319-322. *)
Definition record_span_allocated (f : cfl) (objects_per_span : Z) : cfl :=
  set_counts f (f_counter f + objects_per_span) (f_requested f + 1) (f_returned f).

(** central_freelist.h:324-328. *)
Definition record_multi_spans_deallocated (f : cfl) (n objects_per_span : Z) : cfl :=
  set_counts f (f_counter f - n * objects_per_span) (f_requested f) (f_returned f + n).

(** central_freelist.h:535-577 IndexFor; use_all_buckets_for_few_object_spans_ is set at
    central_freelist.h:432. *)
Definition index_for (objects_per_span allocated bitwidth : Z) : Z :=
  if objects_per_span <=? 2 * k_num_lists then
    if allocated <=? k_num_lists then k_num_lists - allocated else 0
  else k_num_lists - Z.min bitwidth k_num_lists.

(** The do-while loop of RemoveRange, central_freelist.h:715-772.  [n] is the room left in the batch;
    every iteration pops at least one object, so [fuel = n] suffices.  Results: the
    objects popped, and whether the batch was filled ([false]: the lists ran empty
    and Populate is called). [None] is a violated ASSUME. *)
Fixpoint remove_loop (fuel : nat) (c : cfg) (size count : Z) (f : cfl) (n : Z) : option (list Z * bool * cfl) :=
  match fuel with
  | O => Some ([], true, f)
  | S fuel =>
    let? r := hl_peek_least k_num_lists (f_nonempty f) 0 in
    match r with
    | None => Some ([], false, f)
    | Some (id, prev_index) =>
      let s := f_span f id in
      let prev_allocated := allocated s in
      if prev_allocated <=? 0 then None
      else
        let prev_bitwidth := bit_width prev_allocated in
        let '(l, s) := freelist_pop_batch c (f_mem f) s n size in
        let here := Z.of_nat (length l) in
        if here <=? 0 then None
        else
          let f := set_mem_span f (f_mem f) id s in
          let cur_allocated := u16 (prev_allocated + here) in
          let cur_bitwidth := bit_width cur_allocated in
          let f := if negb (cur_bitwidth =? prev_bitwidth)
                   then record_util (record_util f prev_bitwidth false) cur_bitwidth true else f in
          let f := if freelist_empty s count
                   then set_nonempty f (hl_remove (f_nonempty f) id prev_index)
                   else
                     let cur_index := index_for count cur_allocated cur_bitwidth in
                     if negb (cur_index =? prev_index)
                     then set_nidx (set_nonempty f (hl_move (f_nonempty f) id prev_index cur_index)) id cur_index
                     else f in
          if here <? n then
            let? (l', full, f) := remove_loop fuel c size count f (n - here) in Some (l ++ l', full, f)
          else Some (l, true, f)
    end
  end.
Definition remove_locked (c : cfg) (size count : Z) (f : cfl) (n : Z) : option (list Z * bool * cfl) :=
  remove_loop (Z.to_nat n) c size count f n.

(** central_freelist.h:792-825 Populate: after the lock has been reacquired; [result] is what
    BuildFreelist returned. *)
Definition populate_locked (count : Z) (f : cfl) (id result : Z) : cfl :=
  let span_empty := result =? count in
  let allocated := u16 result in
  let bitwidth := bit_width allocated in
  let f := record_util f bitwidth true in
  let f := if negb span_empty
           then let index := index_for count allocated bitwidth in
                set_nidx (set_nonempty f (hl_add (f_nonempty f) id index)) id index
           else f in
  record_span_allocated f count.

(** central_freelist.h:453-511 ReleaseToSpans, given object indices; the boolean says the span
    is returned (it became completely free). *)
Definition release_to_spans (c : cfg) (size count : Z) (f : cfl) (batch : list Z) (id : Z) : bool * cfl :=
  let s := f_span f id in
  let was_empty := freelist_empty s count in
  let prev_index := f_nidx f id in
  let prev_allocated := allocated s in
  let prev_bitwidth := bit_width prev_allocated in
  let '(m, s, pushed) := freelist_push_idx_batch c (f_mem f) s batch size in
  let f := set_mem_span f m id s in
  if negb pushed then
    let f := record_util f prev_bitwidth false in
    (true, if negb was_empty then set_nonempty f (hl_remove (f_nonempty f) id prev_index) else f)
  else
    let cur_allocated := u16 (prev_allocated - Z.of_nat (length batch)) in
    let cur_bitwidth := bit_width cur_allocated in
    let f := if negb (cur_bitwidth =? prev_bitwidth)
             then record_util (record_util f prev_bitwidth false) cur_bitwidth true else f in
    let cur_index := index_for count cur_allocated cur_bitwidth in
    (false,
     if was_empty then set_nidx (set_nonempty f (hl_add (f_nonempty f) id cur_index)) id cur_index
     else if negb (cur_index =? prev_index)
     then set_nidx (set_nonempty f (hl_move (f_nonempty f) id prev_index cur_index)) id cur_index
     else f).

(** central_freelist.h:139-161 RecordSameSpanRuns: the run lengths ([runs0] is the uninitialised array;
    the number of matches is telemetry and not modelled). *)
Fixpoint same_span_loop (fuel : nat) (n : Z) (batch runs : Z -> Z) (i run_start last : Z) : Z -> Z :=
  match fuel with
  | O => runs
  | S fuel =>
    if i <? n then
      let next := batch i in
      if last =? next then same_span_loop fuel n batch runs (i + 1) run_start last
      else same_span_loop fuel n batch (upd runs run_start (i - run_start)) (i + 1) i next
    else upd runs run_start (n - run_start)
  end.
Definition record_same_span_runs (n : Z) (batch runs0 : Z -> Z) : Z -> Z :=
  same_span_loop (Z.to_nat n) n batch runs0 1 0 (batch 0).

(** The arrays InsertRange prepares before taking the lock: the n objects, their spans,
    their indices and the run lengths. *)
Record prepared := MkPrep { p_n : Z; p_batch : Z -> Z; p_spans : Z -> Z; p_idx : Z -> Z; p_runs : Z -> Z }.

(** central_freelist.cc:95-112 MapObjectsToSpans; [None]: an object on a page that is not
    registered for the size class (a crash). *)
Definition map_objects_to_spans (c : cfg) (f : cfl) (batch : list Z) : option (list Z) :=
  fold_right (fun p r => let? r := r in let? id := f_pagemap f (p / page_size c) in Some (id :: r)) (Some []) batch.

Definition arr (l : list Z) (i : Z) : Z := nth (Z.to_nat i) l 0.

(** central_freelist.h:588-675 InsertRange up to the lock. *)
Definition insert_prepare (c : cfg) (size : Z) (f : cfl) (batch : list Z) (runs0 : Z -> Z) : option prepared :=
  let n := Z.of_nat (length batch) in
  if (n =? 0) || (k_max_objects_to_move <? n) then None
  else
    let? spans := map_objects_to_spans c f batch in
    let runs := record_same_span_runs n (arr spans) runs0 in
    let idx := if use_bitmap_for_size c size
               then fun i => bitmap_ptr_to_idx (span_start c (f_span f (arr spans i))) (arr batch i) (calc_reciprocal size)
               else fun i => ptr_to_idx c (arr batch i) in
    Some (MkPrep n (arr batch) (arr spans) idx runs).

(** central_freelist.h:648 the locked loop; completely free spans overwrite the front
    of the span array.  [None]: ASSUME(step > 0) is violated. *)
Fixpoint insert_loop (fuel : nat) (c : cfg) (size count : Z) (n : Z) (idx runs : Z -> Z)
  (i free_count : Z) (spans : Z -> Z) (f : cfl) : option (Z * (Z -> Z) * cfl) :=
  match fuel with
  | O => Some (free_count, spans, f)
  | S fuel =>
    if i <? n then
      let step := runs i in
      if step <=? 0 then None
      else
        let b := map idx (zseq i (Z.to_nat step)) in
        let '(freed, f) := release_to_spans c size count f b (spans i) in
        if freed then insert_loop fuel c size count n idx runs (i + step) (free_count + 1) (upd spans free_count (spans i)) f
        else insert_loop fuel c size count n idx runs (i + step) free_count spans f
    else Some (free_count, spans, f)
  end.

(** The locked part of InsertRange: the spans to deallocate. *)
Definition insert_locked (c : cfg) (size count : Z) (f : cfl) (p : prepared) : option (list Z * cfl) :=
  let? (fc, spans, f) := insert_loop (Z.to_nat (p_n p)) c size count (p_n p) (p_idx p) (p_runs p) 0 0 (p_spans p) f in
  let f := record_multi_spans_deallocated f fc count in
  let f := update_object_counts f (p_n p) in
  Some (map spans (zseq 0 (Z.to_nat fc)), f).

(** central_freelist.cc:114-134 AllocateSpan when the page heap returns descriptor [id] for pages
    [first_page s]..: RegisterSizeClass (pagemap.cc:35-42). *)
Definition register (f : cfl) (pages : Z) (id : Z) (s : span) : cfl :=
  MkCfl (f_mem f) (upd (f_span f) id s) (f_nidx f)
        (fun pg => if (first_page s <=? pg) && (pg <? first_page s + pages) then Some id else f_pagemap f pg)
        (f_nonempty f) (f_counter f) (f_requested f) (f_returned f) (f_util f).

(** central_freelist.cc:137-146 / central_freelist.cc:159-201: UnregisterSizeClass
    (pagemap.cc:44-51). *)
Definition unregister (f : cfl) (pages : Z) (id : Z) : cfl :=
  let fp := first_page (f_span f id) in
  MkCfl (f_mem f) (f_span f) (f_nidx f)
        (fun pg => if (fp <=? pg) && (pg <? fp + pages) then None else f_pagemap f pg)
        (f_nonempty f) (f_counter f) (f_requested f) (f_returned f) (f_util f).

(** central_freelist.h:312-317 num_spans,
    central_freelist.h:200 length,
    central_freelist.h:838-844 OverheadBytes,
    central_freelist.h:859-864 NumSpansWith. *)
Definition num_spans (f : cfl) : Z := if f_requested f <? f_returned f then 0 else f_requested f - f_returned f.
Definition cfl_length (f : cfl) : Z := f_counter f.
Definition overhead_bytes (c : cfg) (size pages : Z) (f : cfl) : Z := num_spans f * (pages * page_size c mod size).
Definition num_spans_with (f : cfl) (bitwidth : Z) : Z := f_util f (bitwidth - 1).
