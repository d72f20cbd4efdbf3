(** Model of stack_trace_table.cc and of AllocatedBytes (sampler.cc): the figures a
    heap or allocation profile gives for each sampled object.
    Simplifications: the doubles are taken as exact fractions (they are exact while
    weight * allocated_size < 2^53 and the division comes out even; otherwise they
    are off by a relative 2^-52); [sample_weight] is 1.0, as at every call
    (allocation_sampling.cc:56, allocation_sample.h:78, peak_heap_tracker.cc:77);
    the attributes that are copied without being looked at are one number. *)
From Verif Require Import Base.

(** internal/logging.h, struct StackTrace: [t_stack] is the whole array, of which
    [t_depth] entries are in use; [t_cold] is cold_allocated; [t_attrs] stands for
    requested_alignment, requested_size_returning, sampled_alloc_handle, access_hint,
    token_id, allocation_time, span_start_address, guarded_status, allocation_type. *)
Record trace := Tr { t_req : Z; t_alloc : Z; t_weight : Z; t_depth : Z; t_stack : list Z; t_cold : bool; t_attrs : Z }.

(** malloc_extension.h:194-290, Profile::Sample. *)
Inductive access := AHot | ACold.
Record psample := PS { s_sum : Z; s_count : Z; s_req : Z; s_alloc : Z; s_depth : Z; s_stack : list Z; s_access : access; s_attrs : Z }.

(** sampler.cc:156-159 as a fraction: numerator and denominator; the sum
    requested_size + 1 is a size_t. *)
Definition allocated_bytes (t : trace) : Z * Z := (t_weight t * t_alloc t, wrap64 (t_req t + 1)).

(** stack_trace_table.cc:71: a fraction plus one half, cut off to a uintptr_t; [None]
    where the conversion is undefined (no number, or too large). *)
Definition to_bytes (f : Z * Z) : option Z :=
  let '(n, d) := f in
  if d =? 0 then None
  else let b := (2 * n + d) / (2 * d) in
       if b <? two64 then Some b else None.

(** stack_trace_table.cc:70-81: the count. *)
Definition count_of (t : trace) : option Z :=
  if t_alloc t =? 0 then Some 1
  else let? b := to_bytes (allocated_bytes t) in
       Some (wrap64 (b + t_alloc t / 2) / t_alloc t).

(** stack_trace_table.cc:66-108: one new sample. *)
Definition sample_of (t : trace) : option psample :=
  let? c := count_of t in
  Some (PS (wrap64 (c * t_alloc t)) c (t_req t) (t_alloc t) (t_depth t)
           (firstn (Z.to_nat (t_depth t)) (t_stack t)) (if t_cold t then ACold else AHot) (t_attrs t)).

(** stack_trace_table.h:33-77: the list, newest first, and the total depth. *)
Record table := Tab { tab_depth : Z; tab_all : list psample }.
(** stack_trace_table.cc:38-39. *)
Definition table0 : table := Tab 0 [].
(** stack_trace_table.cc:51-112. *)
Definition add_trace (b : table) (t : trace) : option table :=
  let? s := sample_of t in
  Some (Tab (tab_depth b + t_depth t) (s :: tab_all b)).
Fixpoint add_traces (b : table) (l : list trace) : option table :=
  match l with
  | [] => Some b
  | t :: l => let? b := add_trace b t in add_traces b l
  end.
(** stack_trace_table.cc:114-121: what the callback is called with, in order. *)
Fixpoint iterate_from (cur : list psample) (seen : list psample) : list psample :=
  match cur with
  | [] => rev seen
  | s :: next => iterate_from next (s :: seen)
  end.
Definition iterate (b : table) : list psample := iterate_from (tab_all b) [].
