(** Lemmas about the mappings, the merging of samples and the loops of the profile builder. *)
From Verif Require Import Base ProfileProto ProfileProtoSpec ProfileProtoProofs.
From Coq Require Import Sorting.Sorted.

Lemma Forall2_imp {A B} (R R' : A -> B -> Prop) l m : (forall x y, R x y -> R' x y) -> Forall2 R l m -> Forall2 R' l m.
Proof. intros H. induction 1; constructor; auto. Qed.

(** ** Mappings. *)
Record minv (b : builder) : Prop := Minv {
  mi_ids : forall i m, nth_error (b_maps b) i = Some m -> m_id m = S i;
  mi_sorted : StronglySorted (fun x y : Z * nat => fst x < fst y) (b_mmap b);
  mi_mm : forall k i, In (k, i) (b_mmap b) -> exists m, nth_error (b_maps b) i = Some m /\ m_start m = k;
  mi_keys : forall m, In m (b_maps b) -> In (m_start m) (map fst (b_mmap b)) }.

Definition smapping (b : builder) (m : mapping) (i : image) : Prop :=
  m_start m = i_start i /\ m_limit m = i_limit i /\ m_offset m = i_offset i /\ sres b (m_file m) (i_file i) /\
  sres b (m_build m) (i_build i).

Lemma smapping_ext b b' m i : ext b b' -> smapping b m i -> smapping b' m i.
Proof. intros X (A & B & C & D & E). repeat split; try assumption; eapply sres_ext; eassumption. Qed.

Lemma emplace_in m k v x : In x (emplace m k v) -> In x m \/ x = (k, v).
Proof.
  induction m as [|[k' v'] m IH]; cbn.
  - intros [<-|[]]. now right.
  - destruct (Z.ltb_spec k k').
    + intros [<-|H1]; [now right|now left].
    + destruct (Z.eqb_spec k k').
      * intros H1. now left.
      * intros [<-|H1]; [left; now left|]. destruct (IH H1); [left; now right|now right].
Qed.

Lemma emplace_keys m k v : In k (map fst (emplace m k v)) /\ forall x, In x m -> In x (emplace m k v).
Proof.
  induction m as [|[k' v'] m IH]; cbn.
  - split; [now left|intros x []].
  - destruct (Z.ltb_spec k k').
    + split; [now left|]. intros x H1. now right.
    + destruct (Z.eqb_spec k k') as [->|].
      * split; [now left|]. intros x H1. exact H1.
      * destruct IH as [A B]. split; [now right|]. intros x [H1|H1]; [now left|right; now apply B].
Qed.

Lemma emplace_sorted m k v : StronglySorted (fun x y : Z * nat => fst x < fst y) m ->
  StronglySorted (fun x y : Z * nat => fst x < fst y) (emplace m k v).
Proof.
  induction 1 as [|[k' v'] m S IH F]; cbn.
  - repeat constructor.
  - destruct (Z.ltb_spec k k').
    + constructor; [now constructor|]. constructor; [exact H|]. rewrite Forall_forall in *. intros x Hx. specialize (F x Hx).
      cbn in *. lia.
    + destruct (Z.eqb_spec k k'); [now constructor|]. constructor; [exact IH|]. rewrite Forall_forall in *. intros x Hx.
      apply emplace_in in Hx. destruct Hx as [Hx| ->]; [now apply F|cbn; lia].
Qed.

Lemma closest_spec m a : StronglySorted (fun x y : Z * nat => fst x < fst y) m ->
  match closest m a with
  | None => m = []
  | Some (k, i) => In (k, i) m /\ forall k', In k' (map fst m) -> k' <= a -> k' <= k /\ k <= a
  end.
Proof.
  induction m as [|[k0 i0] m IH]; intros S; [reflexivity|]. inversion S as [|? ? S' F]; subst. specialize (IH S').
  change (closest ((k0, i0) :: m) a) with
    (match m with [] => Some (k0, i0) | (k, _) :: _ => if k <=? a then closest m a else Some (k0, i0) end).
  destruct m as [|[k1 i1] m].
  - split; [now left|]. intros k' [<-|[]]. cbn. lia.
  - destruct (Z.leb_spec k1 a).
    + destruct (closest ((k1, i1) :: m) a) as [[k i]|]; [|discriminate]. destruct IH as [I C]. split; [now right|].
      pose proof (Forall_inv F) as F1. cbn in F1. pose proof (C k1 (or_introl eq_refl) H) as C1.
      intros k' [<-|H4] L; [cbn; lia|now apply C].
    + split; [now left|]. intros k' [<-|H4] L; [cbn in *; lia|]. exfalso. destruct H4 as [<-|H4]; [cbn in L; lia|].
      inversion S' as [|? ? _ F']; subst. rewrite Forall_forall in F'. apply in_map_iff in H4. destruct H4 as (x & <- & Hx).
      specialize (F' x Hx). cbn in F'. lia.
Qed.

Lemma add_mapping_ok b im l : binv b -> minv b -> b_locs b = [] -> Forall2 (smapping b) (b_maps b) l ->
  binv (add_mapping b im) /\ minv (add_mapping b im) /\ b_locs (add_mapping b im) = [] /\
  Forall2 (smapping (add_mapping b im)) (b_maps (add_mapping b im)) (l ++ [im]).
Proof.
  intros B M NL R. unfold add_mapping.
  destruct (intern_string b (i_file im)) as [b1 f] eqn:E1. apply intern_string_ok in E1; [|exact B].
  destruct E1 as (B1 & X1 & R1 & L1).
  destruct (intern_string b1 (i_build im)) as [b2 d] eqn:E2. apply intern_string_ok in E2; [|exact B1].
  destruct E2 as (B2 & X2 & R2 & L2). apply (sres_ext _ _ _ _ X2) in R1.
  pose proof (ext_trans _ _ _ X1 X2) as X. rewrite (ex_m _ _ X) in *. rewrite (ex_mm _ _ X) in *.
  split; [|split; [|split]].
  - constructor; cbn; [exact (bi_s _ B2)|]. constructor; cbn.
    + rewrite L2, L1, NL. intros i l0 H. destruct i; discriminate.
    + intros a i H. destruct (lk_find _ (bi_l _ B2) _ _ H) as (j & l0 & -> & N & _). rewrite L2, L1, NL in N. destruct j; discriminate.
  - constructor; cbn.
    + intros i m H. apply nth_error_snoc in H. destruct H as [H|[-> ->]]; [exact (mi_ids _ M _ _ H)|reflexivity].
    + apply emplace_sorted, (mi_sorted _ M).
    + intros k i H. apply emplace_in in H. destruct H as [H|[= -> ->]].
      * destruct (mi_mm _ M _ _ H) as (m & N & E). exists m. split; [now apply nth_error_app_l|exact E].
      * eexists. split; [rewrite nth_error_app2 by lia; replace (_ - _)%nat with O by lia; reflexivity|reflexivity].
    + intros m H. apply in_app_or in H. destruct (emplace_keys (b_mmap b) (i_start im) (List.length (b_maps b) - 0)%nat) as [A C].
      destruct H as [H|[<-|[]]]; [|exact A]. apply (mi_keys _ M) in H. apply in_map_iff in H. destruct H as (x & <- & H).
      apply in_map, C, H.
  - cbn. congruence.
  - cbn. apply Forall2_app_intro.
    + eapply Forall2_imp; [|exact R]. intros m i H. apply (smapping_ext b b2) in H; [exact H|exact X].
    + constructor; [|constructor]. repeat split; cbn; assumption.
Qed.

Lemma binv_init : binv b_init.
Proof.
  constructor; [exact strings_init|]. constructor; cbn; [intros i l H; destruct i; discriminate|discriminate].
Qed.

Lemma minv_init : minv b_init.
Proof. constructor; cbn; [intros i l H; destruct i; discriminate|constructor|intros k i []|intros m []]. Qed.

Lemma add_current_mappings_ok l :
  let b := add_current_mappings b_init l in
  binv b /\ minv b /\ b_locs b = [] /\ Forall2 (smapping b) (b_maps b) l.
Proof.
  cbv zeta. unfold add_current_mappings. induction l as [|im l IH] using rev_ind.
  - split; [exact binv_init|split; [exact minv_init|split; [reflexivity|constructor]]].
  - rewrite fold_left_app. cbn. destruct IH as (A & B & C & D). now apply add_mapping_ok.
Qed.

Lemma mapping_of_in b a : minv b -> mapping_of b a <> O ->
  exists m, In m (b_maps b) /\ m_id m = mapping_of b a /\ contains m a.
Proof.
  intros M. unfold mapping_of. pose proof (closest_spec (b_mmap b) a (mi_sorted _ M)) as C.
  destruct (closest (b_mmap b) a) as [[k i]|]; [|congruence].
  destruct (nth_error (b_maps b) i) as [m|] eqn:N; [|congruence].
  destruct (Z.leb_spec k a); [|cbn; congruence]. destruct (Z.ltb_spec a (m_limit m)); [|cbn; congruence].
  cbn. intros _. exists m. split; [eapply nth_error_In; eassumption|split; [reflexivity|]].
  destruct C as [I _]. apply (mi_mm _ M) in I. destruct I as (m' & N' & E). assert (m' = m) by congruence. subst. split; lia.
Qed.

Lemma mapping_of_found b a m : minv b ->
  (forall m, In m (b_maps b) -> m_start m < m_limit m) ->
  (forall m m' x, In m (b_maps b) -> In m' (b_maps b) -> contains m x -> contains m' x -> m = m') ->
  In m (b_maps b) -> contains m a -> mapping_of b a = m_id m.
Proof.
  intros M NE D I [C1 C2]. unfold mapping_of. pose proof (closest_spec (b_mmap b) a (mi_sorted _ M)) as C.
  pose proof (mi_keys _ M _ I) as K.
  destruct (closest (b_mmap b) a) as [[k i]|]; [|rewrite C in K; destruct K].
  destruct C as [CI C]. destruct (C _ K C1) as [K1 K2]. apply (mi_mm _ M) in CI. destruct CI as (m' & N & E). rewrite N.
  assert (I' : In m' (b_maps b)) by (eapply nth_error_In; eassumption).
  assert (m = m').
  { apply (D m m' k); try assumption; unfold contains; [lia|]. pose proof (NE _ I'). lia. }
  subst m'. destruct (Z.leb_spec k a); [|lia]. destruct (Z.ltb_spec a (m_limit m)); [|lia]. reflexivity.
Qed.

(** ** Merging. *)
Lemma same_fields_spec a b : same_fields a b = true <-> a = b.
Proof.
  assert (O : forall x y, optz_eqb x y = true <-> x = y).
  { intros [x|] [y|]; cbn; split; intros H; try congruence; [f_equal; lia|injection H; lia]. }
  assert (L : forall x y, listz_eqb x y = true <-> x = y).
  { induction x as [|x l IH]; intros [|y m]; cbn; split; intros H; try congruence.
    - apply andb_prop in H. destruct H as [H1 H2]. apply IH in H2. f_equal; [lia|exact H2].
    - injection H as -> ->. rewrite Z.eqb_refl. now apply IH. }
  assert (A : forall x y, access_eqb x y = true <-> x = y) by (intros [] []; cbn; split; congruence).
  assert (T : forall x y, type_eqb x y = true <-> x = y) by (intros [] []; cbn; split; congruence).
  assert (G : forall x y, status_eqb x y = true <-> x = y) by (intros [] []; cbn; split; congruence).
  unfold same_fields. rewrite !andb_true_iff, O, L, A, T, G, !Z.eqb_eq, Bool.eqb_true_iff.
  destruct a, b; cbn. split.
  - intros H. decompose [and] H. now subst.
  - intros [= -> -> -> -> -> -> -> -> -> ->]. repeat split.
Qed.

(** What merging the entries [l] should give. *)
Definition known (res : option residency) (e : sample) : bool :=
  match res with
  | Some get => match get (s_start e) (a_allocated (s_attrs e)) with Some _ => true | None => false end
  | None => false
  end.

Record merged_is (res : option residency) (pf : option pageflags) (l : list sample) (d : merged) : Prop := MergedIs {
  me_count : d_count d = total s_count l;
  me_sum : d_sum d = total s_sum l;
  me_res : wrap64 (opt0 (d_resident d)) = wrap64 (total (resident_of res fst) l);
  me_swp : wrap64 (opt0 (d_swapped d)) = wrap64 (total (resident_of res snd) l);
  me_both : d_resident d = None <-> d_swapped d = None;
  me_st : wrap64 (opt0 (d_stale d)) = wrap64 (total (flagged_of pf (fun i => fst (fst i))) l);
  me_lk : wrap64 (opt0 (d_locked d)) = wrap64 (total (flagged_of pf (fun i => snd (fst i))) l);
  me_per : match d_period d with None => periods pf l = [] | Some x => periods pf l <> [] /\ x = common (periods pf l) end }.

Lemma total_app {A} (f : A -> Z) l l' : total f (l ++ l') = total f l + total f l'.
Proof. unfold total. induction l as [|x l IH]; cbn [fold_right app]; [reflexivity|]. rewrite IH. apply Z.add_assoc. Qed.

Lemma total_one {A} (f : A -> Z) x : total f [x] = f x.
Proof. unfold total. cbn [fold_right]. apply Z.add_0_r. Qed.

Lemma common_snoc l x : l <> [] -> common (l ++ [x]) = if common l =? x then common l else 0.
Proof.
  destruct l as [|y l]; [congruence|]. intros _. cbn. rewrite forallb_app. cbn. rewrite andb_true_r.
  destruct (forallb (Z.eqb y) l); cbn.
  - destruct (Z.eqb_spec y x); reflexivity.
  - now destruct x.
Qed.

Lemma merged0_is res pf : merged_is res pf [] merged0.
Proof. constructor; try reflexivity. Qed.

Lemma wrap_add x y x' y' : wrap64 x = wrap64 x' -> wrap64 y = wrap64 y' -> wrap64 (x + y) = wrap64 (x' + y').
Proof. unfold wrap64. intros H1 H2. rewrite Z.add_mod, H1, H2, <- Z.add_mod; [reflexivity|discriminate..]. Qed.

Lemma wrap_wrap x : wrap64 (wrap64 x) = wrap64 x.
Proof. unfold wrap64. apply Z.mod_mod. discriminate. Qed.

Lemma merge_entry_is res pf l d e : merged_is res pf l d -> merged_is res pf (l ++ [e]) (merge_entry res pf e d).
Proof.
  intros [C S R W B T K P]. unfold merge_entry.
  set (d1 := Merged (d_count d + s_count e) (d_sum d + s_sum e) (d_resident d) (d_swapped d) (d_stale d) (d_locked d) (d_period d)).
  set (d2 := match res with Some get => _ | None => d1 end).
  assert (D2 : d_count d2 = total s_count (l ++ [e]) /\ d_sum d2 = total s_sum (l ++ [e]) /\
     wrap64 (opt0 (d_resident d2)) = wrap64 (total (resident_of res fst) (l ++ [e])) /\
     wrap64 (opt0 (d_swapped d2)) = wrap64 (total (resident_of res snd) (l ++ [e])) /\
     (d_resident d2 = None <-> d_swapped d2 = None) /\ d_stale d2 = d_stale d /\ d_locked d2 = d_locked d /\ d_period d2 = d_period d).
  { rewrite !total_app, !total_one. unfold d2, resident_of.
    destruct res as [get|]; cbn.
    - destruct (get (s_start e) (a_allocated (s_attrs e))) as [[r w]|]; cbn.
      + destruct (d_resident d) as [x|] eqn:ER; cbn.
        * destruct (d_swapped d) as [y|] eqn:ES; [|now destruct B as [_ B]; specialize (B eq_refl)].
          cbn in *. repeat split; try congruence; rewrite wrap_wrap; apply wrap_add; try assumption; apply wrap_wrap.
        * destruct (d_swapped d) as [y|] eqn:ES; [destruct B as [B _]; specialize (B eq_refl); discriminate|].
          cbn in *. repeat split; try congruence; rewrite wrap_wrap; rewrite <- (Z.add_0_l (e.(s_count) * _)) at 1;
            apply wrap_add; [exact R|reflexivity|exact W|reflexivity].
      + rewrite !Z.add_0_r. repeat split; try congruence; first [exact R|exact W|apply B].
    - rewrite !Z.add_0_r. repeat split; try congruence; first [exact R|exact W|apply B]. }
  clearbody d2. destruct D2 as (C2 & S2 & R2 & W2 & B2 & T2 & K2 & P2). rewrite <- T2 in T. rewrite <- K2 in K. rewrite <- P2 in P.
  clear d1 T2 K2 P2 C S R W B d. unfold periods in *. 
  constructor; try (destruct pf as [get|]; [destruct (get (s_start e) (a_allocated (s_attrs e))) as [[[st lk] sec]|]|]; cbn; assumption).
  - rewrite total_app, total_one. unfold flagged_of at 2.
    destruct pf as [get|]; [|cbn; now rewrite Z.add_0_r].
    destruct (get (s_start e) (a_allocated (s_attrs e))) as [[[st lk] sec]|]; cbn; [|now rewrite Z.add_0_r].
    rewrite wrap_wrap. apply wrap_add; [exact T|apply wrap_wrap].
  - rewrite total_app, total_one. unfold flagged_of at 2.
    destruct pf as [get|]; [|cbn; now rewrite Z.add_0_r].
    destruct (get (s_start e) (a_allocated (s_attrs e))) as [[[st lk] sec]|]; cbn; [|now rewrite Z.add_0_r].
    rewrite wrap_wrap. apply wrap_add; [exact K|apply wrap_wrap].
  - unfold periods. rewrite flat_map_app. cbn [flat_map]. rewrite app_nil_r.
    destruct pf as [get|]; [|rewrite app_nil_r; exact P].
    destruct (get (s_start e) (a_allocated (s_attrs e))) as [[[st lk] sec]|]; [|rewrite app_nil_r; exact P].
    cbn [add_pageflags d_period]. destruct (d_period d2) as [x|].
    + destruct P as [N ->]. rewrite (common_snoc _ _ N).
      destruct (_ =? sec); (split; [intros E; apply app_eq_nil in E; now destruct E|reflexivity]).
    + rewrite P. cbn. split; [discriminate|reflexivity].
Qed.

(** The map has one entry for each list of attributes, and each entry sums what has those attributes. *)
Lemma like_app a l l' : like a (l ++ l') = like a l ++ like a l'.
Proof. apply filter_app. Qed.

Lemma like_one_same e : like (s_attrs e) [e] = [e].
Proof. unfold like. cbn. now destruct (attrs_eq_dec (s_attrs e) (s_attrs e)). Qed.

Lemma like_one_other a e : s_attrs e <> a -> like a [e] = [].
Proof. unfold like. cbn. intros N. now destruct (attrs_eq_dec (s_attrs e) a). Qed.

Definition map_is (res : option residency) (pf : option pageflags) (es : list sample) (m : list (attrs * merged)) : Prop :=
  NoDup (map fst m) /\ (forall a d, In (a, d) m -> merged_is res pf (like a es) d) /\
  (forall a, In a (map fst m) <-> In a (map s_attrs es)).

Lemma update_map_keys m a f x : In x (map fst (update_map m a f)) <-> In x (map fst m) \/ x = a.
Proof.
  induction m as [|[k d] m IH]; cbn; [intuition congruence|]. destruct (same_fields k a) eqn:E; cbn.
  - apply same_fields_spec in E. subst. intuition congruence.
  - rewrite IH. tauto.
Qed.

Lemma update_map_nodup m a f : NoDup (map fst m) -> NoDup (map fst (update_map m a f)).
Proof.
  induction m as [|[k d] m IH]; cbn; intros H; [repeat constructor; intros []|].
  inversion H; subst. destruct (same_fields k a) eqn:E; cbn; [now constructor|].
  constructor; [|now apply IH]. rewrite update_map_keys. intros [X| ->]; [contradiction|].
  assert (same_fields a a = true) by now apply same_fields_spec. congruence.
Qed.

Lemma update_map_in m a f x d : NoDup (map fst m) -> In (x, d) (update_map m a f) ->
  (x <> a /\ In (x, d) m) \/ (x = a /\ exists d0, d = f d0 /\ (In (a, d0) m \/ (~ In a (map fst m) /\ d0 = merged0))).
Proof.
  induction m as [|[k dk] m IH]; cbn.
  - intros _ [[= <- <-]|[]]. right. split; [reflexivity|]. exists merged0. split; [reflexivity|right]. now split.
  - intros H. inversion H; subst. destruct (same_fields k a) eqn:E; cbn.
    + apply same_fields_spec in E. subst k. intros [[= <- <-]|I].
      * right. split; [reflexivity|]. exists dk. split; [reflexivity|left; now left].
      * left. split; [|now right]. intros ->. apply H2. change a with (fst (a, d)). now apply in_map.
    + assert (k <> a) by (intros ->; rewrite (proj2 (same_fields_spec a a) eq_refl) in E; discriminate).
      intros [[= <- <-]|I]; [left; split; [assumption|now left]|].
      destruct (IH H3 I) as [[A B]|(A & d0 & B & C)]; [left; split; [exact A|now right]|].
      right. split; [exact A|]. exists d0. split; [exact B|]. destruct C as [C|[C1 C2]]; [left; now right|right].
      split; [|exact C2]. intros [X|X]; [congruence|contradiction].
Qed.

Lemma merge_samples_is res pf es : map_is res pf es (merge_samples res pf es).
Proof.
  unfold merge_samples. induction es as [|e es IH] using rev_ind.
  - split; [constructor|split; [intros a d []|cbn; tauto]].
  - rewrite fold_left_app. cbn. destruct IH as (N & M & K). set (m := fold_left _ es []) in *. clearbody m. split; [|split].
    + now apply update_map_nodup.
    + intros a d I. apply update_map_in in I; [|exact N]. rewrite like_app.
      destruct I as [[NE I]|(-> & d0 & -> & I)].
      * rewrite like_one_other by congruence. rewrite app_nil_r. now apply M.
      * rewrite like_one_same. apply merge_entry_is. destruct I as [I|[I ->]]; [now apply M|].
        replace (like (s_attrs e) es) with (@nil sample); [apply merged0_is|].
        rewrite K in I. clear - I. induction es as [|x es IH]; [reflexivity|]. cbn in *.
        destruct (attrs_eq_dec (s_attrs x) (s_attrs e)); [tauto|]. apply IH. tauto.
    + intros a. rewrite update_map_keys, K, map_app, in_app_iff. cbn. intuition congruence.
Qed.

(** ** The loops. *)
Definition sheap (b : builder) (t : bool) (res : option residency) (pf : option pageflags) (es : list sample)
    (s : psample) (a : attrs) : Prop :=
  Forall2 (lres b) (ps_locations s) (map call_site (a_stack a)) /\
  Forall2 (slabel b) (ps_labels s) (said_of a ++ number_if "stale_scan_period" "seconds" (common (periods pf (like a es)))) /\
  let l := like a es in
  exists rest, ps_values s = total s_count l :: total s_sum l :: rest /\
    if t then Forall2 int64_of rest
                 [total (resident_of res fst) l; total (resident_of res snd) l;
                  total (flagged_of pf (fun i => fst (fst i))) l; total (flagged_of pf (fun i => snd (fst i))) l]
    else rest = [].

Lemma sheap_ext b b' t res pf es s a : ext b b' -> sheap b t res pf es s a -> sheap b' t res pf es s a.
Proof.
  intros X (A & B & C). split; [|split; [|exact C]].
  - eapply Forall2_imp; [|exact A]. intros. eapply lres_ext; eassumption.
  - eapply Forall2_imp; [|exact B]. intros. eapply slabel_ext; eassumption.
Qed.

Lemma int64_of_wrap v x : wrap64 v = wrap64 x -> int64_of (to_int64 v) x.
Proof.
  intros H. rewrite <- to_int64_wrap, H, to_int64_wrap. unfold int64_of, to_int64, i64.
  pose proof (Z.mod_pos_bound (x + 2 ^ 63) (2 ^ 64) eq_refl). split; [|lia].
  rewrite (Z.mod_eq (x + 2 ^ 63)) by discriminate.
  match goal with |- ?e mod _ = 0 => replace e with ((- ((x + 2 ^ 63) / 2 ^ 64)) * 2 ^ 64) by ring end.
  now apply Z.mod_mul.
Qed.

Lemma heap_samples_ok res pf es t pid sid : (forall a, In a (map s_attrs es) -> attrs_fit a) ->
  (forall x, In x (periods pf es) -> i63 x) -> forall m b, binv b ->
  (forall a d, In (a, d) m -> In a (map s_attrs es) /\ merged_is res pf (like a es) d) ->
  sres b pid "stale_scan_period" -> sres b sid "seconds" ->
  match heap_samples t pid sid b m with
  | None => exists a, In a (map fst m) /\ ~ expressible a
  | Some (b', ss) => binv b' /\ ext b b' /\ Forall2 (sheap b' t res pf es) ss (map fst m) /\
                     forall a, In a (map fst m) -> expressible a
  end.
Proof.
  intros FIT PER. induction m as [|[a d] m IH]; intros b B M PI SI; cbn [heap_samples map fst].
  - split; [exact B|split; [apply ext_refl|split; [constructor|intros a []]]].
  - destruct (M a d (or_introl eq_refl)) as [IA MD]. pose proof (FIT a IA) as FA. unfold k_max_stack_depth.
    destruct (Nat.ltb_spec 64 (List.length (a_stack a))).
    { exists a. split; [now left|]. intros (X & _). lia. }
    destruct (intern_callstack b (a_stack a)) as [b1 locs] eqn:E1. apply intern_callstack_ok in E1; [|exact B|exact (af_frames _ FA)].
    destruct E1 as (B1 & X1 & R1). pose proof (common_tags_ok b1 a B1 FA) as C.
    destruct (common_tags b1 a) as [[b2 ls]|].
    2:{ exists a. split; [now left|]. intros (_ & X & Y). tauto. }
    destruct C as (B2 & X2 & R2 & NG). pose proof (ext_trans _ _ _ X1 X2) as X.
    apply (sres_ext _ _ _ _ X) in PI. apply (sres_ext _ _ _ _ X) in SI.
    assert (M' : forall a d, In (a, d) m -> In a (map s_attrs es) /\ merged_is res pf (like a es) d)
      by (intros; apply M; now right).
    specialize (IH b2 B2 M' PI SI). destruct (heap_samples t pid sid b2 m) as [[b3 ss]|].
    2:{ destruct IH as (x & I & N). exists x. split; [now right|exact N]. }
    destruct IH as (B3 & X3 & R3 & EX). split; [exact B3|split; [eapply ext_trans; eassumption|split]].
    + constructor; [|exact R3]. apply (sheap_ext b2); [exact X3|]. split; [|split]; cbn.
      * eapply Forall2_imp; [|exact R1]. intros x y Hxy. exact (lres_ext _ _ _ _ X2 Hxy).
      * apply Forall2_app_intro; [exact R2|].
        assert (opt0 (d_period d) = common (periods pf (like a es))) as ->.
        { pose proof (me_per _ _ _ _ MD) as P. destruct (d_period d); [exact (proj2 P)|]. now rewrite P. }
        apply positive_label_ok; try assumption; [exact (bi_s _ B2)|]. apply i63_i64.
        assert (PL : forall x, In x (periods pf (like a es)) -> i63 x).
        { intros x Hx. apply PER. unfold periods in *. apply in_flat_map in Hx. destruct Hx as (e & He & Hx).
          apply in_flat_map. exists e. split; [|exact Hx]. now apply filter_In in He. }
        destruct (periods pf (like a es)) as [|x l]; cbn; [split; [discriminate|reflexivity]|].
        destruct (forallb (Z.eqb x) l); [apply PL; now left|split; [discriminate|reflexivity]].
      * eexists. rewrite (me_count _ _ _ _ MD), (me_sum _ _ _ _ MD). split; [reflexivity|].
        destruct t; [|reflexivity]. destruct MD.
        do 4 (apply Forall2_cons; [apply int64_of_wrap; assumption|]). apply Forall2_nil.
    + intros x [<-|I]; [split; [assumption|exact NG]|now apply EX].
Qed.
