(** Lemmas about the lifetime profiles and the assembly of the proto. *)
From Verif Require Import Base ProfileProto ProfileProtoSpec ProfileProtoProofs ProfileProtoProofs2.

Record ids_ok (b : builder) (i : life_ids) : Prop := IdsOk {
  io_1 : sres b (count_id i) "count"; io_2 : sres b (nanoseconds_id i) "nanoseconds";
  io_3 : sres b (cpu_raw_id i) "cpu_id"; io_4 : sres b (active_cpu_id i) "active CPU";
  io_5 : sres b (vcpu_raw_id i) "vcpu_id"; io_6 : sres b (active_vcpu_id i) "active vCPU";
  io_7 : sres b (l3_raw_id i) "l3_id"; io_8 : sres b (active_l3_id i) "active L3";
  io_9 : sres b (numa_raw_id i) "numa_id"; io_10 : sres b (active_numa_id i) "active NUMA";
  io_11 : sres b (thread_raw_id i) "thread_id"; io_12 : sres b (active_thread_id i) "active thread";
  io_13 : sres b (avg_lifetime_id i) "avg_lifetime"; io_14 : sres b (stddev_lifetime_id i) "stddev_lifetime";
  io_15 : sres b (min_lifetime_id i) "min_lifetime"; io_16 : sres b (max_lifetime_id i) "max_lifetime";
  io_17 : sres b (same_id i) "same"; io_18 : sres b (different_id i) "different"; io_19 : sres b (none_id i) "none";
  io_20 : sres b (callstack_pair_id i) "callstack-pair-id"; io_21 : sres b (lbytes_id i) "bytes";
  io_22 : sres b (alloc_handle_id i) "alloc_handle"; io_23 : sres b (allocation_time_id i) "allocation_time";
  io_24 : sres b (deallocation_time_id i) "deallocation_time"; io_25 : sres b (requested_size_id i) "requested_size" }.

Lemma ids_ext b b' i : ext b b' -> ids_ok b i -> ids_ok b' i.
Proof. intros X []. constructor; eapply sres_ext; eassumption. Qed.

Lemma intern_life_ids_ok b b' i : binv b -> intern_life_ids b = (b', i) -> binv b' /\ ext b b' /\ ids_ok b' i.
Proof.
  intros B0 H. unfold intern_life_ids in H. repeat intern_in H. injection H as <- <-.
  split; [assumption|split; [assumption|]]. constructor; assumption.
Qed.

Lemma intern_types_ok l : forall b b' r, binv b -> intern_types b l = (b', r) ->
  binv b' /\ ext b b' /\ Forall2 (fun i s => sres b' (fst i) (fst s) /\ sres b' (snd i) (snd s)) r l.
Proof.
  induction l as [|[t u] l IH]; intros b b' r B H; cbn in H.
  - injection H as <- <-. split; [exact B|split; [apply ext_refl|constructor]].
  - intern_in H. intern_in H. destruct (intern_types _ l) as [b3 r3] eqn:E. injection H as <- <-.
    apply IH in E; [|assumption]. destruct E as (B3 & X3 & R3). split; [exact B3|].
    split; [eapply ext_trans; eassumption|]. constructor; [|exact R3]. split; eapply sres_ext; eassumption.
Qed.

Lemma opt_int_label_ok b k ks v : strings_ok (b_strings b) (b_smap b) -> sres b k ks -> (forall x, v = Some x -> i64 x) ->
  Forall2 (slabel b) (opt_int_label k v) (number_opt ks v).
Proof.
  intros S K V. destruct v as [x|]; cbn; [|constructor]. constructor; [|constructor].
  split; [exact K|split; [exact (so_empty _ _ S)|split; [|exact (so_empty _ _ S)]]]. cbn.
  rewrite to_int64_wrap. apply to_int64_small, V. reflexivity.
Qed.

Lemma opt_str_label_ok b k ks v i : strings_ok (b_strings b) (b_smap b) -> sres b k ks -> ids_ok b i ->
  slabel b (str_label k match v with None => none_id i | Some true => same_id i | Some false => different_id i end)
    (text ks (match_name v)).
Proof. intros S K []. apply str_label_ok; try assumption. destruct v as [[]|]; assumption. Qed.

Lemma life_labels_ok b i e : strings_ok (b_strings b) (b_smap b) -> ids_ok b i -> life_fit (s_life e) -> i63 (a_requested (s_attrs e)) ->
  Forall2 (slabel b) (life_labels i e) (said_of_life e).
Proof.
  intros S I [F1 F2 F3 F4 F5 F6 F7 F8] R. pose proof I as [].
  assert (OS : forall k ks v, sres b k ks ->
     Forall2 (slabel b) (opt_str_label k v (same_id i) (different_id i) (none_id i)) [text ks (match_name v)]).
  { intros. constructor; [|constructor]. now apply opt_str_label_ok. }
  unfold life_labels, said_of_life.
  repeat lazymatch goal with
  | |- Forall2 _ (positive_label _ _ _ ++ _) _ =>
      apply Forall2_app_intro; [apply positive_label_ok; try assumption; now apply i63_i64|]
  | |- Forall2 _ (opt_int_label _ _ ++ _) _ =>
      apply Forall2_app_intro;
      [apply opt_int_label_ok; try assumption; intros x Hx; apply F8; rewrite Hx; cbn; tauto|]
  | |- Forall2 _ (opt_str_label _ _ _ _ _ ++ _) _ => apply Forall2_app_intro; [apply OS; assumption|]
  end.
  apply Forall2_app_intro.
  - unfold number_if. destruct (f_handle (s_life e) =? 0); [constructor|]. constructor; [|constructor].
    apply num_label_ok; try assumption. now apply i63_i64.
  - destruct (Z.leb_spec (f_time (s_life e)) 0); destruct (Z.ltb_spec 0 (f_time (s_life e))); try lia; [constructor|].
    destruct (s_count e <? 0).
    + constructor; [|constructor]. now apply num_label_ok.
    + constructor; [now apply num_label_ok|]. constructor; [|constructor]. apply num_label_ok; try assumption. now apply i63_i64.
Qed.

Definition slife (b : builder) (s : psample) (e : sample) : Prop :=
  Forall2 (lres b) (ps_locations s) (map call_site (a_stack (s_attrs e))) /\
  Forall2 (slabel b) (ps_labels s) (said_of (s_attrs e) ++ said_of_life e) /\ ps_values s = life_values e.

Lemma slife_ext b b' s e : ext b b' -> slife b s e -> slife b' s e.
Proof.
  intros X (A & B & C). split; [|split; [|exact C]].
  - eapply Forall2_imp; [|exact A]. intros x y Hxy. exact (lres_ext _ _ _ _ X Hxy).
  - eapply Forall2_imp; [|exact B]. intros x y Hxy. exact (slabel_ext _ _ _ _ X Hxy).
Qed.

Lemma life_samples_ok i : forall es b, binv b -> ids_ok b i ->
  (forall e, In e es -> attrs_fit (s_attrs e) /\ life_fit (s_life e)) ->
  match life_samples i b es with
  | None => exists e, In e es /\ ~ expressible (s_attrs e)
  | Some (b', ss) => binv b' /\ ext b b' /\ Forall2 (slife b') ss es /\ forall e, In e es -> expressible (s_attrs e)
  end.
Proof.
  induction es as [|e es IH]; intros b B I FIT; cbn [life_samples].
  - split; [exact B|split; [apply ext_refl|split; [constructor|intros a []]]].
  - destruct (FIT e (or_introl eq_refl)) as [FA FL]. unfold k_max_stack_depth.
    destruct (Nat.ltb_spec 64 (List.length (a_stack (s_attrs e)))).
    { exists e. split; [now left|]. intros (X & _). lia. }
    destruct (intern_callstack b (a_stack (s_attrs e))) as [b1 locs] eqn:E1.
    apply intern_callstack_ok in E1; [|exact B|exact (af_frames _ FA)].
    destruct E1 as (B1 & X1 & R1). pose proof (common_tags_ok b1 _ B1 FA) as C.
    destruct (common_tags b1 (s_attrs e)) as [[b2 ls]|].
    2:{ exists e. split; [now left|]. intros (_ & X & Y). tauto. }
    destruct C as (B2 & X2 & R2 & NG). pose proof (ext_trans _ _ _ X1 X2) as X. apply (ids_ext _ _ _ X) in I.
    specialize (IH b2 B2 I (fun e' He => FIT e' (or_intror He))). destruct (life_samples i b2 es) as [[b3 ss]|].
    2:{ destruct IH as (x & IN & N). exists x. split; [now right|exact N]. }
    destruct IH as (B3 & X3 & R3 & EX). split; [exact B3|split; [eapply ext_trans; eassumption|split]].
    + constructor; [|exact R3]. apply (slife_ext b2); [exact X3|]. split; [|split; [|reflexivity]]; cbn.
      * eapply Forall2_imp; [|exact R1]. intros x y Hxy. exact (lres_ext _ _ _ _ X2 Hxy).
      * apply Forall2_app_intro; [exact R2|]. apply life_labels_ok; try assumption; [exact (bi_s _ B2)|exact (af_requested _ FA)].
    + intros x [<-|IN]; [split; [assumption|exact NG]|now apply EX].
Qed.

(** ** The tables of the result. *)
Lemma minv_ext b b' : ext b b' -> minv b -> minv b'.
Proof. intros X []. constructor; rewrite ?(ex_m _ _ X), ?(ex_mm _ _ X); assumption. Qed.

Lemma NoDup_map_nth {A B} (f : A -> B) (g : B -> option nat) l :
  (forall i x, nth_error l i = Some x -> g (f x) = Some i) -> NoDup (map f l).
Proof.
  intros H. apply NoDup_nth_error. intros i j L E. rewrite map_length in L.
  destruct (nth_error l i) as [x|] eqn:EI; [|apply nth_error_None in EI; lia].
  rewrite (map_nth_error f _ _ EI) in E. symmetry in E.
  destruct (nth_error l j) as [y|] eqn:EJ.
  - rewrite (map_nth_error f _ _ EJ) in E. injection E as E. apply H in EI. apply H in EJ. congruence.
  - apply nth_error_None in EJ. assert (nth_error (map f l) j = None) by (apply nth_error_None; now rewrite map_length). congruence.
Qed.

Lemma tables b p : binv b -> minv b -> o_strings p = b_strings b -> o_locations p = b_locs b -> o_mappings p = b_maps b ->
  tables_ok p /\ well_mapped p.
Proof.
  intros [S L] M ES EL EM. split.
  - constructor; rewrite ?ES, ?EL, ?EM.
    + exact (so_empty _ _ S).
    + rewrite <- map_id. apply (NoDup_map_nth _ (fun s => if String.eqb s "" then Some O else find_string (b_smap b) s)).
      intros [|i] x H.
      * rewrite (so_empty _ _ S) in H. now injection H as <-.
      * destruct (so_in _ _ S _ _ H) as [N E]. cbv beta. destruct (String.eqb_spec x ""); congruence.
    + split.
      * apply (NoDup_map_nth _ (fun n => Some (Nat.pred n))). intros i x H. now rewrite (proj1 (lk_in _ L _ _ H)).
      * intros H. apply in_map_iff in H. destruct H as (l & E & H). apply In_nth_error in H. destruct H as [i H].
        apply (lk_in _ L) in H. destruct H as [H _]. congruence.
    + apply (NoDup_map_nth _ (fun a => match find_addr (b_lmap b) a with Some n => Some (Nat.pred n) | None => None end)).
      intros i x H. destruct (lk_in _ L _ _ H) as (_ & E & _). now rewrite E.
    + split.
      * apply (NoDup_map_nth _ (fun n => Some (Nat.pred n))). intros i x H. now rewrite (mi_ids _ M _ _ H).
      * intros H. apply in_map_iff in H. destruct H as (l & E & H). apply In_nth_error in H. destruct H as [i H].
        apply (mi_ids _ M) in H. congruence.
  - intros l H. rewrite EL in H. rewrite EM. apply In_nth_error in H. destruct H as [i H].
    destruct (lk_in _ L _ _ H) as (_ & _ & ->). split.
    + intros N. destruct (mapping_of_in b _ M N) as (m & A & C & D). exists m. auto.
    + intros NE D m I C. now apply mapping_of_found.
Qed.
