(** How a reader of profile.proto (pprof) understands a profile, and what a profile should say about the samples it was made from.
    Nothing here refers to how the tables are built. *)
From Verif Require Import Base ProfileProto.

(** ** Reading. *)
Definition reads_string (p : proto) (i : nat) (s : string) : Prop := nth_error (o_strings p) i = Some s.

(** A label with its ids replaced by what they stand for. *)
Record rlabel := RLabel { rl_key : string; rl_str : string; rl_num : Z; rl_unit : string }.
Definition reads_label (p : proto) (l : label) (r : rlabel) : Prop :=
  reads_string p (l_key l) (rl_key r) /\ reads_string p (l_str l) (rl_str r) /\ l_num l = rl_num r /\
  reads_string p (l_unit l) (rl_unit r).

(** A location id stands for the location that bears it. *)
Definition reads_location (p : proto) (i : nat) (a : Z) : Prop :=
  exists l, In l (o_locations p) /\ lo_id l = i /\ lo_address l = a.

Definition reads_types (p : proto) : list (nat * nat) -> list (string * string) -> Prop :=
  Forall2 (fun i s => reads_string p (fst i) (fst s) /\ reads_string p (snd i) (snd s)).

(** The tables are what the format asks for: the first string is empty, ids of locations and mappings are not 0, and nothing is in a table
    twice. *)
Record tables_ok (p : proto) : Prop := TablesOk {
  to_empty : nth_error (o_strings p) 0 = Some "";
  to_strings : NoDup (o_strings p);
  to_loc_ids : NoDup (map lo_id (o_locations p)) /\ ~ In 0%nat (map lo_id (o_locations p));
  to_loc_addrs : NoDup (map lo_address (o_locations p));
  to_map_ids : NoDup (map m_id (o_mappings p)) /\ ~ In 0%nat (map m_id (o_mappings p)) }.

(** The mappings are those of the process, in order. *)
Definition reads_mapping (p : proto) (m : mapping) (i : image) : Prop :=
  m_start m = i_start i /\ m_limit m = i_limit i /\ m_offset m = i_offset i /\ reads_string p (m_file m) (i_file i) /\
  reads_string p (m_build m) (i_build i).

Definition contains (m : mapping) (a : Z) : Prop := m_start m <= a < m_limit m.

(** A location names a mapping only if its address is in it; and it does name it, if the mappings are non-empty and disjoint. *)
Definition well_mapped (p : proto) : Prop :=
  forall l, In l (o_locations p) ->
    (lo_mapping l <> 0%nat -> exists m, In m (o_mappings p) /\ m_id m = lo_mapping l /\ contains m (lo_address l)) /\
    ((forall m, In m (o_mappings p) -> m_start m < m_limit m) ->
     (forall m m' x, In m (o_mappings p) -> In m' (o_mappings p) -> contains m x -> contains m' x -> m = m') ->
     forall m, In m (o_mappings p) -> contains m (lo_address l) -> lo_mapping l = m_id m).

(** ** What is to be said of a sample. *)
(** The address of the call, for a return address. *)
Definition call_site (f : Z) : Z := if f =? 0 then 2 ^ 64 - 1 else f - 1.

Definition number (key unit : string) (v : Z) : rlabel := RLabel key "" v unit.
Definition number_if (key unit : string) (v : Z) : list rlabel := if v =? 0 then [] else [number key unit v].
Definition text (key v : string) : rlabel := RLabel key v 0 "".

Definition status_name (g : guarded_status) : string :=
  match g with
  | LargerThanOnePage => "LargerThanOnePage" | Disabled => "Disabled" | RateLimited => "RateLimited"
  | NoAvailableSlots => "NoAvailableSlots" | MProtectFailed => "MProtectFailed" | Filtered => "Filtered"
  | NotAttempted => "NotAttempted" | Requested => "Requested" | Required => "Required" | Guarded => "Guarded"
  | TooSmall => "TooSmall" | UnknownStatus => "Unknown"
  end.

Definition said_of (a : attrs) : list rlabel :=
  number_if "bytes" "bytes" (a_allocated a) ++
  number_if "request" "bytes" (a_requested a) ++
  match a_alignment a with Some x => number_if "alignment" "bytes" x | None => [] end ++
  (if a_returning a then [number "size_returning" "" 1] else []) ++
  [number "access_hint" "access_hint" (a_hint a)] ++
  match a_access a with
  | Hot => [text "access_allocated" "hot"] | Cold => [text "access_allocated" "cold"] | NoAccess => []
  end ++
  [number "token_id" "token_id" (a_token a)] ++
  [text "allocation type" match a_type a with TNew => "new" | TMalloc => "malloc" | TAlignedMalloc => "aligned malloc" end] ++
  [text "guarded_status" (status_name (a_guarded a))].

Definition match_name (o : option bool) : string :=
  match o with None => "none" | Some true => "same" | Some false => "different" end.
Definition number_opt (key : string) (o : option Z) : list rlabel :=
  match o with Some v => [number key "" v] | None => [] end.

Definition said_of_life (e : sample) : list rlabel :=
  let f := s_life e in
  number_if "callstack-pair-id" "count" (f_profile_id f) ++
  number_if "avg_lifetime" "nanoseconds" (f_avg f) ++
  number_if "stddev_lifetime" "nanoseconds" (f_stddev f) ++
  number_if "min_lifetime" "nanoseconds" (f_min f) ++
  number_if "max_lifetime" "nanoseconds" (f_max f) ++
  number_opt "cpu_id" (fst (f_cpu f)) ++ [text "active CPU" (match_name (snd (f_cpu f)))] ++
  number_opt "vcpu_id" (fst (f_vcpu f)) ++ [text "active vCPU" (match_name (snd (f_vcpu f)))] ++
  number_opt "l3_id" (fst (f_l3 f)) ++ [text "active L3" (match_name (snd (f_l3 f)))] ++
  number_opt "numa_id" (fst (f_numa f)) ++ [text "active NUMA" (match_name (snd (f_numa f)))] ++
  number_opt "thread_id" (fst (f_thread f)) ++ [text "active thread" (match_name (snd (f_thread f)))] ++
  number_if "alloc_handle" "count" (f_handle f) ++
  (if f_time f <=? 0 then []
   else if s_count e <? 0 then [number "deallocation_time" "nanoseconds" (f_time f)]
   else [number "allocation_time" "nanoseconds" (f_time f); number "requested_size" "bytes" (a_requested (s_attrs e))]).

(** The numbers fit: sizes are below 2^63, as are the ids and the times; hint and token are bytes. *)
Definition i63 (x : Z) : Prop := 0 <= x < 2 ^ 63.
Definition i64 (x : Z) : Prop := - 2 ^ 63 <= x < 2 ^ 63.
Record attrs_fit (a : attrs) : Prop := AttrsFit {
  af_frames : Forall (fun f => 0 <= f < 2 ^ 64) (a_stack a);
  af_requested : i63 (a_requested a); af_allocated : i63 (a_allocated a);
  af_alignment : forall x, a_alignment a = Some x -> i63 x;
  af_hint : 0 <= a_hint a < 256; af_token : 0 <= a_token a < 256 }.
Record life_fit (f : life) : Prop := LifeFit {
  lf_id : i63 (f_profile_id f); lf_avg : i64 (f_avg f); lf_dev : i64 (f_stddev f); lf_min : i64 (f_min f); lf_max : i64 (f_max f);
  lf_handle : i63 (f_handle f); lf_time : i64 (f_time f);
  lf_ints : forall x, In (Some x) [fst (f_cpu f); fst (f_vcpu f); fst (f_l3 f); fst (f_numa f); fst (f_thread f)] -> i64 x }.

(** ** Sums over the samples that have the same attributes. *)
Definition attrs_eq_dec (a b : attrs) : {a = b} + {a <> b}.
Proof. repeat (decide equality; try apply Z.eq_dec). Defined.
Definition like (a : attrs) (es : list sample) : list sample :=
  filter (fun e => if attrs_eq_dec (s_attrs e) a then true else false) es.
Definition total {A} (f : A -> Z) (l : list A) : Z := fold_right (fun e n => f e + n) 0 l.

(** [v] is the int64_t that has the lowest 64 bits of [x]; it is [x] if [x] fits. *)
Definition int64_of (v x : Z) : Prop := (v - x) mod 2 ^ 64 = 0 /\ i64 v.

(** Bytes of a kind that the kernel reports for a sample, for each object that the sample stands for; 0 where it says nothing. *)
Definition resident_of (res : option residency) (sel : Z * Z -> Z) (e : sample) : Z :=
  match res with
  | Some get => match get (s_start e) (a_allocated (s_attrs e)) with Some i => s_count e * sel i | None => 0 end
  | None => 0
  end.
Definition flagged_of (pf : option pageflags) (sel : Z * Z * Z -> Z) (e : sample) : Z :=
  match pf with
  | Some get => match get (s_start e) (a_allocated (s_attrs e)) with Some i => s_count e * sel i | None => 0 end
  | None => 0
  end.
(** The scan periods that the kernel reports. *)
Definition periods (pf : option pageflags) (es : list sample) : list Z :=
  flat_map (fun e => match pf with
                     | Some get => match get (s_start e) (a_allocated (s_attrs e)) with Some (_, _, s) => [s] | None => [] end
                     | None => [] end) es.
(** The common one, 0 if there is none. *)
Definition common (l : list Z) : Z := match l with [] => 0 | x :: l => if forallb (Z.eqb x) l then x else 0 end.

(** The sample of a heap, peak-heap or allocation profile for the attributes [a]. *)
Definition reads_heap_sample (p : proto) (t : profile_type) (res : option residency) (pf : option pageflags) (es : list sample)
    (s : psample) (a : attrs) : Prop :=
  Forall2 (reads_location p) (ps_locations s) (map call_site (a_stack a)) /\
  Forall2 (reads_label p) (ps_labels s) (said_of a ++ number_if "stale_scan_period" "seconds" (common (periods pf (like a es)))) /\
  let l := like a es in
  exists rest, ps_values s = total s_count l :: total s_sum l :: rest /\
    match t with
    | PHeap => Forall2 int64_of rest
                 [total (resident_of res fst) l; total (resident_of res snd) l;
                  total (flagged_of pf (fun i => fst (fst i))) l; total (flagged_of pf (fun i => snd (fst i))) l]
    | _ => rest = []
    end.

(** The sample of a lifetime or event-trace profile for an entry: what was allocated, what was deallocated and what was not seen to be deallocated
    are in separate columns. *)
Definition reads_life_sample (p : proto) (s : psample) (e : sample) : Prop :=
  Forall2 (reads_location p) (ps_locations s) (map call_site (a_stack (s_attrs e))) /\
  Forall2 (reads_label p) (ps_labels s) (said_of (s_attrs e) ++ said_of_life e) /\
  exists a1 a2 d1 d2 c1 c2, ps_values s = [a1; a2; d1; d2; c1; c2] /\
    (f_censored (s_life e) = true -> (a1, a2, d1, d2) = (0, 0, 0, 0) /\ c1 = Z.abs (s_count e) /\ c2 = s_sum e) /\
    (f_censored (s_life e) = false -> 0 < s_count e -> (d1, d2, c1, c2) = (0, 0, 0, 0) /\ a1 = s_count e /\ a2 = s_sum e) /\
    (f_censored (s_life e) = false -> s_count e <= 0 -> (a1, a2, c1, c2) = (0, 0, 0, 0) /\ d1 = - s_count e /\ d2 = s_sum e).

(** What the conversion can express: no stack is deeper than 64 frames, and the guarded status has a name. *)
Definition expressible (a : attrs) : Prop :=
  (List.length (a_stack a) <= 64)%nat /\ a_guarded a <> TooSmall /\ a_guarded a <> UnknownStatus.
