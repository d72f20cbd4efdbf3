(** Model of the conversion of a heap profile to the profile.proto format read by pprof
    (tcmalloc/internal/profile_builder.cc): the tables of strings, locations and mappings, the merging of samples, the labels and
    the values.

    Strings are Coq strings; ids are natural numbers (int in the code).  A hash map is an association list: the order in which the
    merged samples are visited is not fixed by it, see [heap_samples].  Counts, sums and numbers of entries are unbounded integers:
    an overflow of int64_t there is not modelled, the products that are size_t wrap.  The time stamps, the duration and the
    documentation URL are not modelled, nor is the list of mappings of the process, which is arbitrary here. *)
From Verif Require Import Base.
From Coq Require Export String.
Open Scope string_scope.
Open Scope list_scope.
Open Scope Z_scope.

(** ** The profile given by the user: Profile::Sample, malloc_extension.h:194-316 and following. *)
Inductive access := Hot | Cold | NoAccess.
Inductive guarded_status := LargerThanOnePage | Disabled | RateLimited | TooSmall | NoAvailableSlots | MProtectFailed | Filtered
  | UnknownStatus | NotAttempted | Requested | Required | Guarded.
Inductive allocation_type := TNew | TMalloc | TAlignedMalloc.
Inductive profile_type := PHeap | PFragmentation | PPeakHeap | PAllocations | PLifetimes | PEventTrace | PDoNotUse.

(** What distinguishes two samples of a heap profile.  [a_stack] is stack[0 .. depth). *)
Record attrs := Attrs {
  a_stack : list Z; a_requested : Z; a_alignment : option Z; a_returning : bool; a_allocated : Z; a_hint : Z;
  a_access : access; a_token : Z; a_guarded : guarded_status; a_type : allocation_type }.

(** What only the lifetime and event-trace profiles have.  The pairs are the id and whether allocator and deallocator match, for the
    physical CPU, virtual CPU, L3, NUMA node and thread. *)
Record life := Life {
  f_profile_id : Z; f_avg : Z; f_stddev : Z; f_min : Z; f_max : Z;
  f_cpu : option Z * option bool; f_vcpu : option Z * option bool; f_l3 : option Z * option bool;
  f_numa : option Z * option bool; f_thread : option Z * option bool;
  f_handle : Z; f_time : Z; f_censored : bool }.

Record sample := Sample { s_attrs : attrs; s_count : Z; s_sum : Z; s_start : Z; s_life : life }.

(** Residency::Info and PageStats: for a start address and a size, nothing if the kernel does not say. *)
Definition residency := Z -> Z -> option (Z * Z).
Definition pageflags := Z -> Z -> option (Z * Z * Z).

(** ** The proto. *)
Record label := Label { l_key : nat; l_str : nat; l_num : Z; l_unit : nat }.
Record psample := PSample { ps_locations : list nat; ps_values : list Z; ps_labels : list label }.
Record location := Location { lo_id : nat; lo_address : Z; lo_mapping : nat }.
Record mapping := Mapping { m_id : nat; m_start : Z; m_limit : Z; m_offset : Z; m_file : nat; m_build : nat }.

(** ProfileBuilder, profile_builder.h:45-81: profile_->string_table, strings_, profile_->location, locations_, profile_->mapping and mappings_ (sorted by
    start). *)
Record builder := Builder {
  b_strings : list string; b_smap : list (string * nat);
  b_locs : list location; b_lmap : list (Z * nat);
  b_maps : list mapping; b_mmap : list (Z * nat) }.

(** ProfileBuilder(), internal/profile_builder.cc:367-371. *)
Definition b_init : builder := Builder [""] [] [] [] [] [].

Fixpoint find_string (m : list (string * nat)) (s : string) : option nat :=
  match m with [] => None | (k, v) :: m => if String.eqb k s then Some v else find_string m s end.
Fixpoint find_addr (m : list (Z * nat)) (a : Z) : option nat :=
  match m with [] => None | (k, v) :: m => if k =? a then Some v else find_addr m a end.

(** InternString, internal/profile_builder.cc:373-386. *)
Definition intern_string (b : builder) (s : string) : builder * nat :=
  if String.eqb s "" then (b, O) else
  match find_string (b_smap b) s with
  | Some i => (b, i)
  | None => let i := List.length (b_strings b) in
            (Builder (b_strings b ++ [s]) ((s, i) :: b_smap b) (b_locs b) (b_lmap b) (b_maps b) (b_mmap b), i)
  end.

(** upper_bound and one step back unless it is the first: the last entry that starts at or before [a], or the first entry. *)
Fixpoint closest (m : list (Z * nat)) (a : Z) : option (Z * nat) :=
  match m with
  | [] => None
  | e :: m' => match m' with
               | [] => Some e
               | (k, _) :: _ => if k <=? a then closest m' a else Some e
               end
  end.

(** btree_map::emplace: nothing if the key is there. *)
Fixpoint emplace (m : list (Z * nat)) (k : Z) (v : nat) : list (Z * nat) :=
  match m with
  | [] => [(k, v)]
  | (k', v') :: m' => if k <? k' then (k, v) :: m else if k =? k' then m else (k', v') :: emplace m' k v
  end.

(** The mapping id of a new location, internal/profile_builder.cc:407-422; 0 is no mapping. *)
Definition mapping_of (b : builder) (a : Z) : nat :=
  match closest (b_mmap b) a with
  | None => O
  | Some (k, i) =>
      match nth_error (b_maps b) i with
      | None => O
      | Some m => if (k <=? a) && (a <? m_limit m) then m_id m else O
      end
  end.

(** InternLocation, internal/profile_builder.cc:388-425. *)
Definition intern_location (b : builder) (a : Z) : builder * nat :=
  let i := S (List.length (b_locs b)) in
  match find_addr (b_lmap b) a with
  | Some j => (b, j)
  | None => (Builder (b_strings b) (b_smap b) (b_locs b ++ [Location i a (mapping_of b a)]) ((a, i) :: b_lmap b)
                     (b_maps b) (b_mmap b), i)
  end.

(** InternCallstack, internal/profile_builder.cc:427-438. *)
Fixpoint intern_callstack (b : builder) (stack : list Z) : builder * list nat :=
  match stack with
  | [] => (b, [])
  | f :: stack => let (b, i) := intern_location b (wrap64 (f - 1)) in
                  let (b, is) := intern_callstack b stack in
                  (b, i :: is)
  end.

(** AddMapping, internal/profile_builder.cc:509-524. *)
Record image := Image { i_start : Z; i_limit : Z; i_offset : Z; i_file : string; i_build : string }.
Definition add_mapping (b : builder) (i : image) : builder :=
  let id := S (List.length (b_maps b)) in
  let (b, f) := intern_string b (i_file i) in
  let (b, d) := intern_string b (i_build i) in
  Builder (b_strings b) (b_smap b) (b_locs b) (b_lmap b)
          (b_maps b ++ [Mapping id (i_start i) (i_limit i) (i_offset i) f d]) (emplace (b_mmap b) (i_start i) (id - 1)%nat).

(** AddCurrentMappings, internal/profile_builder.cc:440-507: the mappings of the process, in the order in which they are found. *)
Definition add_current_mappings (b : builder) (l : list image) : builder := fold_left add_mapping l b.

(** ** Merging, internal/profile_builder.cc:107-117. *)
Record merged := Merged {
  d_count : Z; d_sum : Z; d_resident : option Z; d_swapped : option Z; d_stale : option Z; d_locked : option Z;
  d_period : option Z }.
Definition merged0 : merged := Merged 0 0 None None None None None.

Definition access_eqb (a b : access) : bool :=
  match a, b with Hot, Hot | Cold, Cold | NoAccess, NoAccess => true | _, _ => false end.
Definition type_eqb (a b : allocation_type) : bool :=
  match a, b with TNew, TNew | TMalloc, TMalloc | TAlignedMalloc, TAlignedMalloc => true | _, _ => false end.
Definition status_eqb (a b : guarded_status) : bool :=
  match a, b with
  | LargerThanOnePage, LargerThanOnePage | Disabled, Disabled | RateLimited, RateLimited | TooSmall, TooSmall
  | NoAvailableSlots, NoAvailableSlots | MProtectFailed, MProtectFailed | Filtered, Filtered
  | UnknownStatus, UnknownStatus | NotAttempted, NotAttempted | Requested, Requested | Required, Required
  | Guarded, Guarded => true
  | _, _ => false
  end.
Definition optz_eqb (a b : option Z) : bool :=
  match a, b with None, None => true | Some x, Some y => x =? y | _, _ => false end.
Fixpoint listz_eqb (a b : list Z) : bool :=
  match a, b with [], [] => true | x :: a, y :: b => (x =? y) && listz_eqb a b | _, _ => false end.

(** SampleEqWithSubFields, internal/profile_builder.cc:121-132. *)
Definition same_fields (a b : attrs) : bool :=
  (a_requested a =? a_requested b) && optz_eqb (a_alignment a) (a_alignment b) &&
  Bool.eqb (a_returning a) (a_returning b) && (a_allocated a =? a_allocated b) && (a_hint a =? a_hint b) &&
  access_eqb (a_access a) (a_access b) && (a_token a =? a_token b) && status_eqb (a_guarded a) (a_guarded b) &&
  type_eqb (a_type a) (a_type b) && listz_eqb (a_stack a) (a_stack b).

(** The residency of one entry is added: internal/profile_builder.cc:167-177. *)
Definition add_residency (c : Z) (r : option (Z * Z)) (d : merged) : merged :=
  match r with
  | None => d
  | Some (res, swp) =>
      let rs := wrap64 (c * res) in
      let sw := wrap64 (c * swp) in
      match d_resident d with
      | None => Merged (d_count d) (d_sum d) (Some rs) (Some sw) (d_stale d) (d_locked d) (d_period d)
      | Some x => Merged (d_count d) (d_sum d) (Some (wrap64 (x + rs)))
                    (match d_swapped d with Some y => Some (wrap64 (y + sw)) | None => None end)
                    (d_stale d) (d_locked d) (d_period d)
      end
  end.

(** The page flags of one entry are added: internal/profile_builder.cc:183-201. *)
Definition add_pageflags (c : Z) (p : option (Z * Z * Z)) (d : merged) : merged :=
  match p with
  | None => d
  | Some (st, lk, sec) =>
      let stale := match d_stale d with None => 0 | Some x => x end in
      let locked := match d_locked d with None => 0 | Some x => x end in
      Merged (d_count d) (d_sum d) (d_resident d) (d_swapped d)
        (Some (wrap64 (stale + wrap64 (c * st)))) (Some (wrap64 (locked + wrap64 (c * lk))))
        (match d_period d with
         | None => Some sec
         | Some x => if x =? sec then Some x else Some 0
         end)
  end.

(** The body of the loop over the entries, internal/profile_builder.cc:155-217. *)
Definition merge_entry (res : option residency) (pf : option pageflags) (e : sample) (d : merged) : merged :=
  let d := Merged (d_count d + s_count e) (d_sum d + s_sum e) (d_resident d) (d_swapped d) (d_stale d) (d_locked d) (d_period d) in
  let d := match res with
           | Some get => add_residency (s_count e) (get (s_start e) (a_allocated (s_attrs e))) d
           | None => d
           end in
  match pf with
  | Some get => add_pageflags (s_count e) (get (s_start e) (a_allocated (s_attrs e))) d
  | None => d
  end.

(** map[entry], updated by [f]: the key that is kept is the first. *)
Fixpoint update_map (m : list (attrs * merged)) (a : attrs) (f : merged -> merged) : list (attrs * merged) :=
  match m with
  | [] => [(a, f merged0)]
  | (k, d) :: m => if same_fields k a then (k, f d) :: m else (k, d) :: update_map m a f
  end.

(** MergeProfileSamplesAndMaybeGetResidencyInfo, internal/profile_builder.cc:148-218. *)
Definition merge_samples (res : option residency) (pf : option pageflags) (es : list sample) : list (attrs * merged) :=
  fold_left (fun m e => update_map m (s_attrs e) (merge_entry res pf e)) es [].

(** ** Labels. *)
(** set_num of a size_t: the int64_t with the same 64 bits. *)
Definition to_int64 (x : Z) : Z := (x + 2 ^ 63) mod 2 ^ 64 - 2 ^ 63.
Definition num_label (key unit : nat) (v : Z) : label := Label key 0 (to_int64 v) unit.
Definition positive_label (key unit : nat) (v : Z) : list label :=
  if wrap64 v <=? 0 then [] else [num_label key unit v].
Definition str_label (key s : nat) : label := Label key s 0 0.
Definition bool_z (b : bool) : Z := if b then 1 else 0.

(** AddCommonSampleTags, internal/profile_builder.cc:526-653.  Nothing: a guarded status for which the switch is
    unreachable. *)
Definition common_tags (b : builder) (e : attrs) : option (builder * list label) :=
  let (b, alignment_id) := intern_string b "alignment" in
  let (b, bytes_id) := intern_string b "bytes" in
  let (b, request_id) := intern_string b "request" in
  let (b, size_returning_id) := intern_string b "size_returning" in
  let (b, access_hint_id) := intern_string b "access_hint" in
  let (b, access_allocated_id) := intern_string b "access_allocated" in
  let (b, cold_id) := intern_string b "cold" in
  let (b, hot_id) := intern_string b "hot" in
  let (b, token_id) := intern_string b "token_id" in
  let (b, allocation_type_id) := intern_string b "allocation type" in
  let (b, new_id) := intern_string b "new" in
  let (b, malloc_id) := intern_string b "malloc" in
  let (b, aligned_malloc_id) := intern_string b "aligned malloc" in
  let labels :=
    positive_label bytes_id bytes_id (a_allocated e) ++
    positive_label request_id bytes_id (a_requested e) ++
    match a_alignment e with Some a => positive_label alignment_id bytes_id a | None => [] end ++
    positive_label size_returning_id 0 (bool_z (a_returning e)) ++
    [num_label access_hint_id access_hint_id (a_hint e mod 256)] ++
    match a_access e with
    | Hot => [str_label access_allocated_id hot_id]
    | Cold => [str_label access_allocated_id cold_id]
    | NoAccess => []
    end ++
    [num_label token_id token_id (a_token e mod 256)] ++
    [str_label allocation_type_id
       match a_type e with TNew => new_id | TMalloc => malloc_id | TAlignedMalloc => aligned_malloc_id end] in
  let (b, guarded_status_id) := intern_string b "guarded_status" in
  let (b, larger_than_one_page_id) := intern_string b "LargerThanOnePage" in
  let (b, disabled_id) := intern_string b "Disabled" in
  let (b, rate_limited_id) := intern_string b "RateLimited" in
  let (b, no_available_slots_id) := intern_string b "NoAvailableSlots" in
  let (b, m_protect_failed_id) := intern_string b "MProtectFailed" in
  let (b, filtered_id) := intern_string b "Filtered" in
  let (b, not_attempted_id) := intern_string b "NotAttempted" in
  let (b, requested_id) := intern_string b "Requested" in
  let (b, required_id) := intern_string b "Required" in
  let (b, guarded_id) := intern_string b "Guarded" in
  match (match a_guarded e with
         | LargerThanOnePage => Some larger_than_one_page_id
         | Disabled => Some disabled_id
         | RateLimited => Some rate_limited_id
         | NoAvailableSlots => Some no_available_slots_id
         | MProtectFailed => Some m_protect_failed_id
         | Filtered => Some filtered_id
         | NotAttempted => Some not_attempted_id
         | Requested => Some requested_id
         | Required => Some required_id
         | Guarded => Some guarded_id
         | TooSmall | UnknownStatus => None
         end) with
  | None => None
  | Some st => Some (b, labels ++ [str_label guarded_status_id st])
  end.

(** kMaxStackDepth, malloc_extension.h:195. *)
Definition k_max_stack_depth : nat := 64.

(** ** Heap, peak-heap and allocation profiles: the loop of MakeProfileProto, internal/profile_builder.cc:952-988. *)
Definition opt0 (o : option Z) : Z := match o with Some x => x | None => 0 end.

Fixpoint heap_samples (residency : bool) (period_id seconds_id : nat) (b : builder) (m : list (attrs * merged))
  : option (builder * list psample) :=
  match m with
  | [] => Some (b, [])
  | (e, d) :: m =>
      if (k_max_stack_depth <? List.length (a_stack e))%nat then None else
      let (b, locs) := intern_callstack b (a_stack e) in
      let values := [d_count d; d_sum d] ++
        (if residency then [to_int64 (opt0 (d_resident d)); to_int64 (opt0 (d_swapped d));
                            to_int64 (opt0 (d_stale d)); to_int64 (opt0 (d_locked d))] else []) in
      match common_tags b e with
      | None => None
      | Some (b, labels) =>
          let s := PSample locs values (labels ++ positive_label period_id seconds_id (opt0 (d_period d))) in
          match heap_samples residency period_id seconds_id b m with
          | None => None
          | Some (b, ss) => Some (b, s :: ss)
          end
      end
  end.

(** ** Lifetime and event-trace profiles. *)
Definition opt_int_label (key : nat) (v : option Z) : list label :=
  match v with Some x => [num_label key 0 (wrap64 x)] | None => [] end.
Definition opt_str_label (key : nat) (v : option bool) (same different none : nat) : list label :=
  [str_label key match v with None => none | Some true => same | Some false => different end].

(** The ids interned before the loop of MakeLifetimeProfileProto, internal/profile_builder.cc:684-713. *)
Record life_ids := LifeIds {
  count_id : nat; nanoseconds_id : nat; cpu_raw_id : nat; active_cpu_id : nat; vcpu_raw_id : nat; active_vcpu_id : nat;
  l3_raw_id : nat; active_l3_id : nat; numa_raw_id : nat; active_numa_id : nat; thread_raw_id : nat; active_thread_id : nat;
  avg_lifetime_id : nat; stddev_lifetime_id : nat; min_lifetime_id : nat; max_lifetime_id : nat; same_id : nat;
  different_id : nat; none_id : nat; callstack_pair_id : nat; lbytes_id : nat; alloc_handle_id : nat;
  allocation_time_id : nat; deallocation_time_id : nat; requested_size_id : nat }.

Definition intern_life_ids (b : builder) : builder * life_ids :=
  let (b, count_) := intern_string b "count" in
  let (b, nanoseconds_) := intern_string b "nanoseconds" in
  let (b, cpu_raw_) := intern_string b "cpu_id" in
  let (b, active_cpu_) := intern_string b "active CPU" in
  let (b, vcpu_raw_) := intern_string b "vcpu_id" in
  let (b, active_vcpu_) := intern_string b "active vCPU" in
  let (b, l3_raw_) := intern_string b "l3_id" in
  let (b, active_l3_) := intern_string b "active L3" in
  let (b, numa_raw_) := intern_string b "numa_id" in
  let (b, active_numa_) := intern_string b "active NUMA" in
  let (b, thread_raw_) := intern_string b "thread_id" in
  let (b, active_thread_) := intern_string b "active thread" in
  let (b, avg_) := intern_string b "avg_lifetime" in
  let (b, stddev_) := intern_string b "stddev_lifetime" in
  let (b, min_) := intern_string b "min_lifetime" in
  let (b, max_) := intern_string b "max_lifetime" in
  let (b, same_) := intern_string b "same" in
  let (b, different_) := intern_string b "different" in
  let (b, none_) := intern_string b "none" in
  let (b, callstack_pair_) := intern_string b "callstack-pair-id" in
  let (b, bytes_) := intern_string b "bytes" in
  let (b, alloc_handle_) := intern_string b "alloc_handle" in
  let (b, allocation_time_) := intern_string b "allocation_time" in
  let (b, deallocation_time_) := intern_string b "deallocation_time" in
  let (b, requested_size_) := intern_string b "requested_size" in
  (b, LifeIds count_ nanoseconds_ cpu_raw_ active_cpu_ vcpu_raw_ active_vcpu_ l3_raw_ active_l3_ numa_raw_ active_numa_
        thread_raw_ active_thread_ avg_ stddev_ min_ max_ same_ different_ none_ callstack_pair_ bytes_ alloc_handle_
        allocation_time_ deallocation_time_ requested_size_).

(** The labels of a lifetime sample after the common ones, internal/profile_builder.cc:757-805. *)
Definition life_labels (i : life_ids) (e : sample) : list label :=
  let f := s_life e in
  positive_label (callstack_pair_id i) (count_id i) (f_profile_id f) ++
  positive_label (avg_lifetime_id i) (nanoseconds_id i) (f_avg f) ++
  positive_label (stddev_lifetime_id i) (nanoseconds_id i) (f_stddev f) ++
  positive_label (min_lifetime_id i) (nanoseconds_id i) (f_min f) ++
  positive_label (max_lifetime_id i) (nanoseconds_id i) (f_max f) ++
  opt_int_label (cpu_raw_id i) (fst (f_cpu f)) ++
  opt_str_label (active_cpu_id i) (snd (f_cpu f)) (same_id i) (different_id i) (none_id i) ++
  opt_int_label (vcpu_raw_id i) (fst (f_vcpu f)) ++
  opt_str_label (active_vcpu_id i) (snd (f_vcpu f)) (same_id i) (different_id i) (none_id i) ++
  opt_int_label (l3_raw_id i) (fst (f_l3 f)) ++
  opt_str_label (active_l3_id i) (snd (f_l3 f)) (same_id i) (different_id i) (none_id i) ++
  opt_int_label (numa_raw_id i) (fst (f_numa f)) ++
  opt_str_label (active_numa_id i) (snd (f_numa f)) (same_id i) (different_id i) (none_id i) ++
  opt_int_label (thread_raw_id i) (fst (f_thread f)) ++
  opt_str_label (active_thread_id i) (snd (f_thread f)) (same_id i) (different_id i) (none_id i) ++
  (if f_handle f =? 0 then [] else [num_label (alloc_handle_id i) (count_id i) (f_handle f)]) ++
  (if 0 <? f_time f then
     if s_count e <? 0 then [num_label (deallocation_time_id i) (nanoseconds_id i) (f_time f)]
     else [num_label (allocation_time_id i) (nanoseconds_id i) (f_time f);
           num_label (requested_size_id i) (lbytes_id i) (a_requested (s_attrs e))]
   else []).

(** The six values, internal/profile_builder.cc:807-830.  abs is taken to be that of int64_t. *)
Definition life_values (e : sample) : list Z :=
  let count := Z.abs (s_count e) in
  let weight := s_sum e in
  if f_censored (s_life e) then [0; 0; 0; 0; count; weight]
  else if 0 <? s_count e then [count; weight; 0; 0; 0; 0]
  else [0; 0; count; weight; 0; 0].

Fixpoint life_samples (i : life_ids) (b : builder) (es : list sample) : option (builder * list psample) :=
  match es with
  | [] => Some (b, [])
  | e :: es =>
      if (k_max_stack_depth <? List.length (a_stack (s_attrs e)))%nat then None else
      let (b, locs) := intern_callstack b (a_stack (s_attrs e)) in
      match common_tags b (s_attrs e) with
      | None => None
      | Some (b, labels) =>
          let s := PSample locs (life_values e) (labels ++ life_labels i e) in
          match life_samples i b es with
          | None => None
          | Some (b, ss) => Some (b, s :: ss)
          end
      end
  end.

(** ** The whole. *)
Record proto := Proto {
  o_strings : list string; o_locations : list location; o_mappings : list mapping;
  o_period : nat * nat; o_types : list (nat * nat); o_default : nat; o_drop : nat; o_samples : list psample }.

Fixpoint intern_types (b : builder) (l : list (string * string)) : builder * list (nat * nat) :=
  match l with
  | [] => (b, [])
  | (t, u) :: l => let (b, ti) := intern_string b t in
                   let (b, ui) := intern_string b u in
                   let (b, r) := intern_types b l in
                   (b, (ti, ui) :: r)
  end.

(** MakeLifetimeProfileProto, internal/profile_builder.cc:655-833.  [drop] is kProfileDropFrames. *)
Definition make_life (drop : string) (b : builder) (es : list sample) : option proto :=
  let (b, p1) := intern_string b "space" in
  let (b, p2) := intern_string b "bytes" in
  let (b, types) := intern_types b
    [("allocated_objects", "count"); ("allocated_space", "bytes"); ("deallocated_objects", "count");
     ("deallocated_space", "bytes"); ("censored_allocated_objects", "count"); ("censored_allocated_space", "bytes")] in
  let (b, dflt) := intern_string b "deallocated_space" in
  let (b, dropi) := intern_string b drop in
  let (b, i) := intern_life_ids b in
  match life_samples i b es with
  | None => None
  | Some (b, ss) => Some (Proto (b_strings b) (b_locs b) (b_maps b) (p1, p2) types dflt dropi ss)
  end.

(** MakeProfileProto after the mappings, for the other types, internal/profile_builder.cc:868-991.  [ms] is the merged map in the order in which it is visited.  The strings
    space_compressed and zero_space are interned and not used. *)
Definition make_heap (drop : string) (t : profile_type) (b : builder) (ms : list (attrs * merged)) : option (option proto) :=
  let (b, bytes_id) := intern_string b "bytes" in
  let (b, count_id) := intern_string b "count" in
  let (b, objects_id) := intern_string b "objects" in
  let (b, stale_scan_period_id) := intern_string b "stale_scan_period" in
  let (b, seconds_id) := intern_string b "seconds" in
  let (b, space_id) := intern_string b "space" in
  let (b, resident_space_id) := intern_string b "resident_space" in
  let (b, swapped_space_id) := intern_string b "swapped_space" in
  let (b, stale_space_id) := intern_string b "stale_space" in
  let (b, locked_space_id) := intern_string b "locked_space" in
  let (b, space_compressed_id) := intern_string b "space_compressed" in
  let (b, zero_space_id) := intern_string b "zero_space" in
  let (b, dropi) := intern_string b drop in
  let residency := match t with PHeap => true | _ => false end in
  let types := [(objects_id, count_id); (space_id, bytes_id)] ++
    (if residency then [(resident_space_id, bytes_id); (swapped_space_id, bytes_id); (stale_space_id, bytes_id);
                        (locked_space_id, bytes_id)] else []) in
  let dflt := match t with PHeap | PPeakHeap => Some space_id | PAllocations => Some objects_id | _ => None end in
  match dflt with
  | None => Some None
  | Some dflt =>
      match heap_samples residency stale_scan_period_id seconds_id b ms with
      | None => None
      | Some (b, ss) => Some (Some (Proto (b_strings b) (b_locs b) (b_maps b) (space_id, bytes_id) types dflt dropi ss))
      end
  end.

(** MakeProfileProto, internal/profile_builder.cc:839-991.  [order] is the order in which the hash map is visited.  None: a failed check or
    undefined behaviour; Some None: an error is returned. *)
Definition make_profile (drop : string) (images : list image) (t : profile_type) (res : option residency) (pf : option pageflags)
    (order : list (attrs * merged) -> list (attrs * merged)) (es : list sample) : option (option proto) :=
  match t with
  | PDoNotUse => Some None
  | PLifetimes | PEventTrace =>
      match make_life drop (add_current_mappings b_init images) es with None => None | Some p => Some (Some p) end
  | _ => make_heap drop t (add_current_mappings b_init images) (order (merge_samples res pf es))
  end.
