(** C57: the profile.proto made from a profile says what the profile says.  The reading of a proto and what is expected of it are in
    ProfileProtoSpec.v. *)
From Verif Require Import Base ProfileProto ProfileProtoSpec ProfileProtoProofs ProfileProtoProofs2 ProfileProtoProofs3.
From Coq Require Import Permutation.

(** The numbers of the samples, and the scan periods that the kernel gives, fit. *)
Definition fit (pf : option pageflags) (es : list sample) : Prop :=
  (forall e, In e es -> attrs_fit (s_attrs e) /\ life_fit (s_life e)) /\
  (forall x, In x (periods pf es) -> i63 x).

Definition merges (t : profile_type) : Prop := t = PHeap \/ t = PPeakHeap \/ t = PAllocations.

(** Heap, peak-heap and allocation profiles.  For any mappings, samples and answers of the kernel, and in whatever order the merged samples are
    visited: the conversion succeeds; its tables are well formed and the locations are in the mappings they name; the columns are named
    as they should be; and there is exactly one sample for each list of attributes that a sample has, which reads as those attributes and has the
    sums over the samples that have them. *)
Theorem heap_profile_reads : forall drop images t res pf order es,
  (forall m, Permutation (order m) m) -> merges t -> fit pf es -> (forall e, In e es -> expressible (s_attrs e)) ->
  exists p, make_profile drop images t res pf order es = Some (Some p) /\
    tables_ok p /\ Forall2 (reads_mapping p) (o_mappings p) images /\ well_mapped p /\
    reads_types p [o_period p] [("space", "bytes")] /\ reads_string p (o_drop p) drop /\
    reads_types p (o_types p)
      (match t with
       | PHeap => [("objects", "count"); ("space", "bytes"); ("resident_space", "bytes"); ("swapped_space", "bytes");
                   ("stale_space", "bytes"); ("locked_space", "bytes")]
       | _ => [("objects", "count"); ("space", "bytes")]
       end) /\
    reads_string p (o_default p) (match t with PAllocations => "objects" | _ => "space" end) /\
    exists reps, NoDup reps /\ (forall a, In a reps <-> In a (map s_attrs es)) /\
      Forall2 (reads_heap_sample p t res pf es) (o_samples p) reps.
Proof.
  intros drop images t res pf order es ORD T [FIT PER] EX.
  assert (EQ : make_profile drop images t res pf order es =
               make_heap drop t (add_current_mappings b_init images) (order (merge_samples res pf es)))
    by (destruct T as [->|[->| ->]]; reflexivity).
  rewrite EQ. clear EQ. destruct (add_current_mappings_ok images) as (B0 & M0 & _ & R0).
  set (b0 := add_current_mappings b_init images) in *. clearbody b0.
  pose proof (merge_samples_is res pf es) as (ND & MI & KE). specialize (ORD (merge_samples res pf es)).
  set (ms := merge_samples res pf es) in *. clearbody ms. set (os := order ms) in *. clearbody os.
  assert (OI : forall a d, In (a, d) os -> In a (map s_attrs es) /\ merged_is res pf (like a es) d).
  { intros a d H. apply (Permutation_in _ ORD) in H. split; [|now apply MI]. apply KE.
    change a with (fst (a, d)). now apply in_map. }
  assert (FA : forall a, In a (map s_attrs es) -> attrs_fit a).
  { intros a H. apply in_map_iff in H. destruct H as (e & <- & H). now apply FIT. }
  remember (make_heap drop t b0 os) as o eqn:H. symmetry in H. unfold make_heap in H.
  repeat intern_in H.
  match type of H with context [heap_samples ?r ?pi ?si ?b os] =>
    pose proof (heap_samples_ok res pf es r pi si FA PER os b) as HS; set (bb := b) in *; set (rr := r) in * end.
  specialize (HS ltac:(assumption) OI ltac:(assumption) ltac:(assumption)).
  destruct (heap_samples rr _ _ bb os) as [[b' ss]|].
  2:{ exfalso. destruct HS as (a & IA & NE). apply NE. apply in_map_iff in IA. destruct IA as ([a' d] & <- & IA).
      apply OI in IA. destruct IA as [IA _]. apply in_map_iff in IA. destruct IA as (e & E & IA). cbn. rewrite <- E. now apply EX. }
  destruct HS as (B' & X' & RS & _).
  repeat match goal with R' : sres bb _ _ |- _ => apply (sres_ext _ _ _ _ X') in R' end.
  assert (XX : ext b0 b') by (eapply ext_trans; [|exact X']; assumption).
  assert (exists p dflt, o = Some (Some p) /\ p = Proto (b_strings b') (b_locs b') (b_maps b') (i4, i)
    ([(i1, i0); (i4, i)] ++ (if rr then [(i5, i); (i6, i); (i7, i); (i8, i)] else [])) dflt i11 ss /\
    sres b' dflt (match t with PAllocations => "objects" | _ => "space" end)) as (p & dflt & -> & Ep & Rd).
  { destruct T as [->|[->| ->]]; (eexists _, _; split; [symmetry; exact H|split; [reflexivity|]]); assumption. }
  exists p. split; [reflexivity|].
  destruct (tables b' p B' (minv_ext _ _ XX M0)) as [TO WM]; [rewrite Ep; reflexivity..|].
  split; [exact TO|]. split.
  { rewrite Ep. cbn. rewrite (ex_m _ _ XX). eapply Forall2_imp; [|exact R0]. intros m im HM.
    apply (smapping_ext _ _ _ _ XX) in HM. exact HM. }
  split; [exact WM|]. unfold reads_types, reads_string. rewrite Ep. cbn.
  split; [constructor; [split; assumption|constructor]|]. split; [assumption|].
  split; [|split; [exact Rd|]].
  - destruct T as [->|[->| ->]]; repeat (apply Forall2_cons; [split; assumption|]); apply Forall2_nil.
  - exists (map fst os). split; [|split].
    + eapply Permutation_NoDup; [|exact ND]. apply Permutation_map, Permutation_sym, ORD.
    + intros a. rewrite <- KE. split; apply Permutation_in; [|apply Permutation_sym]; now apply Permutation_map.
    + eapply Forall2_imp; [|exact RS]. intros s a (A1 & A2 & A3). split; [exact A1|split; [exact A2|]].
      destruct T as [->|[->| ->]]; exact A3.
Qed.
Print Assumptions heap_profile_reads.

(** So each column of the profile adds up to the total over the samples. *)
Lemma total_partition {f : sample -> Z} reps : forall es, NoDup reps -> (forall a, In a (map s_attrs es) -> In a reps) ->
  total (fun a => total f (like a es)) reps = total f es.
Proof.
  assert (Z0 : forall r, total (fun a : attrs => total f (like a [])) r = 0).
  { induction r as [|x r IH]; [reflexivity|]. unfold total in *. cbn [fold_right like filter] in *. now rewrite IH. }
  induction es as [|e es IH]; intros N I; [apply Z0|].
  change (e :: es) with ([e] ++ es). rewrite total_app, total_one, <- IH; [|exact N|intros; apply I; now right].
  assert (IE : In (s_attrs e) reps) by (apply I; now left). clear I IH.
  assert (G : forall r, NoDup r -> total (fun a => total f (like a ([e] ++ es))) r =
     (if in_dec attrs_eq_dec (s_attrs e) r then f e else 0) + total (fun a => total f (like a es)) r).
  { induction r as [|x r IH]; intros NR; [reflexivity|]. inversion NR; subst. specialize (IH H2).
    change (total ?g (x :: r)) with (g x + total g r). cbv beta. rewrite IH, like_app, total_app.
    destruct (attrs_eq_dec (s_attrs e) x) as [<-|NE].
    - rewrite like_one_same, total_one. destruct (in_dec attrs_eq_dec (s_attrs e) r); [contradiction|].
      destruct (in_dec attrs_eq_dec (s_attrs e) (s_attrs e :: r)) as [_|X]; [lia|exfalso; apply X; now left].
    - rewrite like_one_other by exact NE. change (total f []) with 0.
      destruct (in_dec attrs_eq_dec (s_attrs e) r) as [Y|Y], (in_dec attrs_eq_dec (s_attrs e) (x :: r)) as [W|W]; try lia.
      + exfalso. apply W. now right.
      + exfalso. destruct W; congruence. }
  rewrite G by exact N. destruct (in_dec attrs_eq_dec (s_attrs e) reps); [reflexivity|contradiction].
Qed.

Theorem heap_profile_totals : forall drop images t res pf order es p,
  (forall m, Permutation (order m) m) -> merges t -> fit pf es -> (forall e, In e es -> expressible (s_attrs e)) ->
  make_profile drop images t res pf order es = Some (Some p) ->
  total (fun s => nth 0 (ps_values s) 0) (o_samples p) = total s_count es /\
  total (fun s => nth 1 (ps_values s) 0) (o_samples p) = total s_sum es.
Proof.
  intros drop images t res pf order es p ORD T F EX E.
  destruct (heap_profile_reads drop images t res pf order es ORD T F EX) as (p' & E' & _ & _ & _ & _ & _ & _ & _ & reps & N & K & R).
  rewrite E in E'. injection E' as <-.
  assert (C : forall (f : sample -> Z) (g : psample -> Z),
     (forall s a, reads_heap_sample p t res pf es s a -> g s = total f (like a es)) -> total g (o_samples p) = total f es).
  { intros f g H. rewrite <- (total_partition reps es N) by (intros a IA; now apply K). clear - R H.
    induction R as [|s a ss reps S R IH]; [reflexivity|]. unfold total in *. cbn [fold_right]. rewrite IH. f_equal. now apply H. }
  split; apply C; intros s a (_ & _ & rest & V & _); rewrite V; reflexivity.
Qed.
Print Assumptions heap_profile_totals.

(** Lifetime and event-trace profiles: one sample for each entry, in order. *)
Theorem life_profile_reads : forall drop images t res pf order es,
  t = PLifetimes \/ t = PEventTrace -> fit None es -> (forall e, In e es -> expressible (s_attrs e)) ->
  exists p, make_profile drop images t res pf order es = Some (Some p) /\
    tables_ok p /\ Forall2 (reads_mapping p) (o_mappings p) images /\ well_mapped p /\
    reads_types p [o_period p] [("space", "bytes")] /\ reads_string p (o_drop p) drop /\
    reads_types p (o_types p)
      [("allocated_objects", "count"); ("allocated_space", "bytes"); ("deallocated_objects", "count");
       ("deallocated_space", "bytes"); ("censored_allocated_objects", "count"); ("censored_allocated_space", "bytes")] /\
    reads_string p (o_default p) "deallocated_space" /\
    Forall2 (reads_life_sample p) (o_samples p) es.
Proof.
  intros drop images t res pf order es T [FIT _] EX.
  assert (EQ : make_profile drop images t res pf order es =
               match make_life drop (add_current_mappings b_init images) es with None => None | Some p => Some (Some p) end)
    by (destruct T as [->| ->]; reflexivity).
  rewrite EQ. clear EQ. destruct (add_current_mappings_ok images) as (B0 & M0 & _ & R0).
  set (b0 := add_current_mappings b_init images) in *. clearbody b0. unfold make_life.
  destruct (intern_string b0 "space") as [b1 i1] eqn:E1. apply intern_string_ok in E1; [|exact B0]. destruct E1 as (B1 & X1 & R1 & _).
  destruct (intern_string b1 "bytes") as [b2 i2] eqn:E2. apply intern_string_ok in E2; [|exact B1]. destruct E2 as (B2 & X2 & R2 & _).
  destruct (intern_types b2 _) as [b3 ty] eqn:E3. apply intern_types_ok in E3; [|exact B2]. destruct E3 as (B3 & X3 & R3).
  destruct (intern_string b3 _) as [b4 i4] eqn:E4. apply intern_string_ok in E4; [|exact B3]. destruct E4 as (B4 & X4 & R4 & _).
  destruct (intern_string b4 drop) as [b5 i5] eqn:E5. apply intern_string_ok in E5; [|exact B4]. destruct E5 as (B5 & X5 & R5 & _).
  destruct (intern_life_ids b5) as [b6 ids] eqn:E6. apply intern_life_ids_ok in E6; [|exact B5]. destruct E6 as (B6 & X6 & R6).
  pose proof (life_samples_ok ids es b6 B6 R6 FIT) as HS. destruct (life_samples ids b6 es) as [[b7 ss]|].
  2:{ exfalso. destruct HS as (e & I & N). now apply N, EX. }
  destruct HS as (B7 & X7 & RS & _).
  pose proof (ext_trans _ _ _ X6 X7) as Y5. pose proof (ext_trans _ _ _ X5 Y5) as Y4. pose proof (ext_trans _ _ _ X4 Y4) as Y3.
  pose proof (ext_trans _ _ _ X3 Y3) as Y2. pose proof (ext_trans _ _ _ X2 Y2) as Y1. pose proof (ext_trans _ _ _ X1 Y1) as Y0.
  eexists. split; [reflexivity|]. match goal with |- tables_ok ?x /\ _ => set (p := x) end.
  destruct (tables b7 p B7 (minv_ext _ _ Y0 M0)) as [TO WM]; [reflexivity..|].
  split; [exact TO|]. split.
  { cbn. rewrite (ex_m _ _ Y0). eapply Forall2_imp; [|exact R0]. intros m im HM. apply (smapping_ext _ _ _ _ Y0) in HM. exact HM. }
  split; [exact WM|]. split.
  { constructor; [split|constructor]; [exact (sres_ext _ _ _ _ Y1 R1)|exact (sres_ext _ _ _ _ Y2 R2)]. }
  split; [exact (sres_ext _ _ _ _ Y5 R5)|]. split.
  { eapply Forall2_imp; [|exact R3]. intros x y [A B]. split; eapply (sres_ext _ _ _ _ Y3); eassumption. }
  split; [exact (sres_ext _ _ _ _ Y4 R4)|].
  eapply Forall2_imp; [|exact RS]. intros s e (A & B & C). split; [exact A|split; [exact B|]]. rewrite C. unfold life_values.
  destruct (f_censored (s_life e)).
  { eexists _, _, _, _, _, _. split; [reflexivity|]. split; [intros _; split; [reflexivity|split; reflexivity]|].
    split; intros; discriminate. }
  destruct (Z.ltb_spec 0 (s_count e)); (eexists _, _, _, _, _, _; split; [reflexivity|]); (split; [discriminate|]);
    (split; [intros _ L|intros _ L]; [split; [|split]|]; try lia; try reflexivity).
  split; [reflexivity|split; [lia|reflexivity]].
Qed.
Print Assumptions life_profile_reads.

(** Samples are told apart: stack and labels determine the attributes (an alignment that was asked for is not 0). *)
Theorem profile_samples_distinct : forall a a' n n',
  attrs_fit a -> attrs_fit a' -> expressible a -> expressible a' -> a_alignment a <> Some 0 -> a_alignment a' <> Some 0 ->
  map call_site (a_stack a) = map call_site (a_stack a') ->
  said_of a ++ number_if "stale_scan_period" "seconds" n = said_of a' ++ number_if "stale_scan_period" "seconds" n' ->
  a = a'.
Proof.
  intros a a' n n' F F' (_ & G1 & G2) (_ & G1' & G2') NA NA' ST LA.
  set (get k l := filter (fun r => String.eqb (rl_key r) k) l : list rlabel).
  assert (NI : forall k k' u v, get k (number_if k' u v) = if String.eqb k' k then number_if k' u v else []).
  { intros. unfold get, number_if. destruct (v =? 0); cbn; destruct (String.eqb k' k); reflexivity. }
  assert (GE : forall k, get k (said_of a ++ number_if "stale_scan_period" "seconds" n) =
                         get k (said_of a' ++ number_if "stale_scan_period" "seconds" n')) by (intros; now rewrite LA).
  assert (GA : forall k l l', get k (l ++ l') = get k l ++ get k l') by (intros; apply filter_app).
  unfold said_of in GE.
  assert (NV : forall k u v v', number_if k u v = number_if k u v' -> v = v').
  { intros k u v v'. unfold number_if, number. destruct (Z.eqb_spec v 0), (Z.eqb_spec v' 0); intros X; try congruence. }
  Ltac gett GE GA NI k := specialize (GE k); rewrite !GA, !NI in GE; cbn in GE.
  assert (E1 : a_allocated a = a_allocated a').
  { gett GE GA NI "bytes". destruct (a_alignment a), (a_alignment a'); rewrite ?NI in GE; cbn in GE;
    destruct (a_returning a), (a_returning a'), (a_access a), (a_access a'); cbn in GE; rewrite !app_nil_r in GE; now apply NV in GE. }
  assert (E2 : a_requested a = a_requested a').
  { gett GE GA NI "request". destruct (a_alignment a), (a_alignment a'); rewrite ?NI in GE; cbn in GE;
    destruct (a_returning a), (a_returning a'), (a_access a), (a_access a'); cbn in GE; rewrite !app_nil_r in GE; now apply NV in GE. }
  assert (E3 : a_alignment a = a_alignment a').
  { gett GE GA NI "alignment". destruct (a_alignment a) as [x|], (a_alignment a') as [y|]; rewrite ?NI in GE; cbn in GE;
    destruct (a_returning a), (a_returning a'), (a_access a), (a_access a'); cbn in GE; rewrite ?app_nil_r in GE;
    try reflexivity; try (f_equal; now apply NV in GE); unfold number_if in GE;
    try (destruct (Z.eqb_spec x 0) as [->|]; [contradiction|discriminate]);
    try (destruct (Z.eqb_spec y 0) as [->|]; [contradiction|discriminate]). }
  assert (E4 : a_returning a = a_returning a').
  { gett GE GA NI "size_returning". destruct (a_alignment a), (a_alignment a'); rewrite ?NI in GE; cbn in GE;
    destruct (a_returning a), (a_returning a'), (a_access a), (a_access a'); cbn in GE; unfold number, text in GE; congruence. }
  assert (E5 : a_hint a = a_hint a').
  { gett GE GA NI "access_hint". destruct (a_alignment a), (a_alignment a'); rewrite ?NI in GE; cbn in GE;
    destruct (a_returning a), (a_returning a'), (a_access a), (a_access a'); cbn in GE; unfold number, text in GE; congruence. }
  assert (E6 : a_access a = a_access a').
  { gett GE GA NI "access_allocated". destruct (a_alignment a), (a_alignment a'); rewrite ?NI in GE; cbn in GE;
    destruct (a_returning a), (a_returning a'), (a_access a), (a_access a'); cbn in GE; unfold number, text in GE; congruence. }
  assert (E7 : a_token a = a_token a').
  { gett GE GA NI "token_id". destruct (a_alignment a), (a_alignment a'); rewrite ?NI in GE; cbn in GE;
    destruct (a_returning a), (a_returning a'), (a_access a), (a_access a'); cbn in GE; unfold number, text in GE; congruence. }
  assert (E8 : a_type a = a_type a').
  { gett GE GA NI "allocation type". destruct (a_alignment a), (a_alignment a'); rewrite ?NI in GE; cbn in GE;
    destruct (a_returning a), (a_returning a'), (a_access a), (a_access a'); cbn in GE;
    unfold text in GE; destruct (a_type a), (a_type a'); congruence. }
  assert (E9 : a_guarded a = a_guarded a').
  { gett GE GA NI "guarded_status". rewrite E3, E4, E6 in GE. destruct (a_alignment a'); rewrite ?NI in GE; cbn in GE;
    destruct (a_returning a'), (a_access a'); cbn in GE;
    unfold text in GE; destruct (a_guarded a); try contradiction; destruct (a_guarded a'); try contradiction; cbn in GE; try reflexivity; discriminate GE. }
  assert (E0 : a_stack a = a_stack a').
  { pose proof (af_frames _ F) as P. pose proof (af_frames _ F') as P'. revert P P' ST. generalize (a_stack a), (a_stack a').
    clear. induction l as [|x l IH]; intros [|y m] P P' E; try discriminate; [reflexivity|].
    injection E as E1 E2. inversion P; inversion P'; subst. f_equal; [|now apply IH]. unfold call_site in E1.
    destruct (Z.eqb_spec x 0), (Z.eqb_spec y 0); lia. }
  destruct a, a'; cbn in *; congruence.
Qed.
Print Assumptions profile_samples_distinct.

(** The types that are not converted. *)
Theorem profile_other_types : forall drop images t res pf order es, ~ merges t -> t <> PLifetimes -> t <> PEventTrace ->
  make_profile drop images t res pf order es = Some None.
Proof.
  intros drop images t res pf order es N N1 N2. destruct t; try congruence; try (exfalso; apply N; unfold merges; tauto); try reflexivity.
  unfold make_profile, make_heap. repeat match goal with |- context [intern_string ?b ?s] => destruct (intern_string b s) end. reflexivity.
Qed.
Print Assumptions profile_other_types.

(** A non-trivial case: four samples, two of which have the same attributes; two mappings; the kernel answers for one address only. *)
Definition ex_attrs (st : list Z) (g : guarded_status) : attrs := Attrs st 100 (Some 16) true 112 200 Cold 1 g TMalloc.
Definition ex_life : life :=
  Life 7 10 0 10 10 (Some 3, Some true) (None, None) (Some 0, Some false) (None, None) (Some (-1), None) 0 5 false.
Definition ex_samples : list sample :=
  [Sample (ex_attrs [4097; 8193; 99999] NotAttempted) 2 224 4096 ex_life; Sample (ex_attrs [8193] Guarded) 1 112 0 ex_life;
   Sample (ex_attrs [4097; 8193; 99999] NotAttempted) (-3) 336 8192 ex_life;
   Sample (Attrs [] 5 None false 8 0 Hot 0 Filtered TNew) 1 8 4096 ex_life].
Definition ex_images : list image := [Image 8192 12288 0 "lib" ""; Image 4096 8192 0 "exe" "ab"].
Definition ex_res : option residency := Some (fun a n => if a =? 4096 then Some (n, 1) else None).
Definition ex_pf : option pageflags := Some (fun a n => if a =? 4096 then Some (n, 0, 30) else None).

Example ex_profile_hyps : fit ex_pf ex_samples /\ (forall e, In e ex_samples -> expressible (s_attrs e)) /\ fit None ex_samples.
Proof.
  assert (L : life_fit ex_life).
  { constructor; try (split; [discriminate|reflexivity]). cbn. intros x H.
    repeat (destruct H as [H|H]; [first [discriminate H|injection H as <-; split; [discriminate|reflexivity]]|]). destruct H. }
  assert (A : forall e, In e ex_samples -> attrs_fit (s_attrs e) /\ life_fit (s_life e)).
  { intros e H. repeat (destruct H as [<-|H]; [split; [|exact L];
      constructor; cbn; try (split; [discriminate|reflexivity]);
      [repeat (constructor; [split; [discriminate|reflexivity]|]); constructor|
       intros x X; first [discriminate X|injection X as <-; split; [discriminate|reflexivity]]]|]). destruct H. }
  split; [|split].
  - split; [exact A|]. cbn. intros x [<-|[<-|[]]]; split; discriminate || reflexivity.
  - intros e H. repeat (destruct H as [<-|H]; [split; [cbn; lia|split; discriminate]|]). destruct H.
  - split; [exact A|]. intros x [].
Qed.

Example ex_profile :
  match make_profile "drop" ex_images PHeap ex_res ex_pf (@rev _) ex_samples with
  | Some (Some p) => map ps_values (o_samples p) = [[1; 8; 8; 1; 8; 0]; [1; 112; 0; 0; 0; 0]; [-1; 560; 224; 2; 224; 0]] /\
                     map (fun l => (lo_id l, lo_address l, lo_mapping l)) (o_locations p) =
                       [(1%nat, 8192, 1%nat); (2%nat, 4096, 2%nat); (3%nat, 99998, 0%nat)]
  | _ => False
  end.
Proof. vm_compute. split; reflexivity. Qed.
