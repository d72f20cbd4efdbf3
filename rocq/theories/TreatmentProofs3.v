(** Lemmas about the treatment of hugepages: the invariant. *)
From Coq Require Import Permutation.
From Verif Require Import Base Bitmap BitmapProofs BitmapProofs2 RangeTrackerProofs RangeTrackerProofs2 RangeTrackerProps HintedLists HintedListsProofs PageTracker PageTrackerProps Filler FillerProofs FillerProofs2 FillerProofs3 FillerProofs4 FillerProofs5 FillerProofs6 FillerProps Treatment TreatmentProofs TreatmentProofs2.

Definition ph_sampled (p : phase) : list Z := match p with PPass g => g_sampled g | _ => [] end.
Definition busy_list (b : option (Z * obs)) : list Z := match b with Some (x, _) => [x] | None => [] end.
Definition ph_selected (p : phase) : list Z := match p with PPass g => map e_x (g_done g) ++ busy_list (g_busy g) ++ g_todo g | _ => [] end.
Definition ph_busy (p : phase) : list Z := match p with PPass g => busy_list (g_busy g) | _ => [] end.

(** The state of a filler under treatment: [sm] and [sl] are the selected trackers, [bz] the one being collapsed. *)
Record finv (N : Z) (sub : bool) (f : filler) (own : list Z) (lv : Z -> list (Z * Z * Z)) (given sm sl bz : list Z) : Prop := {
  vi_reach : fl_reach N sub f own lv;
  vi_perm : Permutation given (own ++ fl_freed f);
  vi_nsm : NoDup sm;
  vi_nsl : NoDup sl;
  vi_sub : forall x, In x sm \/ In x sl -> In x given;
  vi_keep : forall x, In x given -> fl_keep f x = b1 (inb x sm) + b2 (inb x sl);
  vi_coll : forall x, In x given -> fl_collapsing f x = true <-> In x bz;
  vi_bsub : forall x, In x bz -> In x sl;
  vi_busy : forall x, In x bz -> pt_rcount (fl_tr f x) = 0;
  vi_freed : forall x, In x (fl_freed f) -> In x sm \/ In x sl }.

Definition tinv (N : Z) (c : tconf) (s : tsys) : Prop :=
  y_phase s <> PCrash /\ finv N (tc_sub c) (y_f s) (y_own s) (y_lv s) (y_given s) (ph_sampled (y_phase s)) (ph_selected (y_phase s)) (ph_busy (y_phase s)).

Lemma given_NoDup N sub f own lv given : fl_ok N sub f own lv -> Permutation given (own ++ fl_freed f) -> NoDup given.
Proof.
  intros Ok P. apply (Permutation_NoDup (Permutation_sym P)). apply SpanProofs2.NoDup_app_intro; [exact (fo_own _ _ _ _ _ Ok)|exact (fo_nodup _ _ _ _ _ Ok)|].
  intros y Hy Hf. exact (proj1 (fo_freed _ _ _ _ _ Ok y Hf) Hy).
Qed.

Lemma rem1_Perm_cons x (l l' : list Z) : Permutation l (x :: l') -> Permutation (rem1 x l) l'.
Proof.
  intros P. assert (Hx : In x l) by (apply (Permutation_in x (Permutation_sym P)); left; reflexivity).
  pose proof (rem1_perm x l Hx) as Q. apply (Permutation_cons_inv (a := x)). rewrite <- P. symmetry. exact Q.
Qed.

Lemma finv_get N sub f own lv given sm sl bz n d o f' x i b : 1 < N -> finv N sub f own lv given sm sl bz -> 0 < n < N -> (d = true -> n = 1) ->
  try_get N sub f n d o = Some (f', Some (x, i, b)) -> finv N sub f' own (upd lv x (((i, n), o) :: lv x)) given sm sl bz.
Proof.
  intros HN [R P V1 V2 V3 V4 V5 V6 V7 V8] Hn Hd E. pose proof (fl_reach_ok N _ _ _ _ HN R) as Ok.
  destruct (try_get_ok N sub f own lv n d o ltac:(lia) Ok Hn Hd) as (f1 & r & E1 & H). rewrite E in E1. injection E1 as <- <-.
  destruct H as (Hx & Ok' & [O1 O2 O3 O4 O5] & _ & _ & _ & _ & _ & Eu & _).
  constructor; rewrite ?O2, ?O4, ?O5; auto.
  - exact (fr_get N sub f own lv n d o f' x i b R Hn Hd E).
  - intros y Hy. destruct (Z.eq_dec y x) as [Ey|Ny]; [|rewrite (O1 y Ny); auto]. subst y.
    pose proof (others_rcount N sub f f' own lv _ x ltac:(lia) Ok Ok' Hx O1) as Q.
    assert (0 <= pages_with (released_page (fl_tr f x)) i n) by (unfold pages_with; generalize (zseq i (Z.to_nat n)); clear; intros l; induction l as [|y l IH]; cbn; [lia|destruct (released_page _ y); lia]). rewrite (V7 x Hy) in Q.
    destruct (tk_bounds N _ _ ltac:(lia) (fo_tk _ _ _ _ _ Ok' x Hx)) as (_ & _ & _ & B). lia.
Qed.

Lemma finv_put N sub f own lv given sm sl bz x l1 i n o l2 os f' r : 1 < N -> finv N sub f own lv given sm sl bz -> In x own -> lv x = l1 ++ ((i, n), o) :: l2 ->
  fl_put N sub f x i n o os = Some (f', r) ->
  finv N sub f' (match l1 ++ l2 with [] => rem1 x own | _ => own end) (upd lv x (l1 ++ l2)) (match r with Some y => rem1 y given | None => given end) sm sl bz.
Proof.
  intros HN [R P V1 V2 V3 V4 V5 V6 V7 V8] Hx Hlv E. pose proof (fl_reach_ok N _ _ _ _ HN R) as Ok.
  destruct (put_ok N sub f own lv x l1 i n o l2 os ltac:(lia) Ok Hx Hlv) as (f1 & r1 & E1 & Ok' & Er & Ef & Et & Ek & Ec & Eu & _). rewrite E in E1. injection E1 as <- <-.
  pose proof (put_rcount N sub f x i n o os f' r E) as Erc.
  assert (Hgx : In x given) by (apply (Permutation_in x (Permutation_sym P)); apply in_app_iff; auto).
  assert (Pn : Permutation own (x :: rem1 x own)) by (apply rem1_perm; assumption).
  pose proof (given_NoDup N sub f own lv given Ok P) as Ng.
  assert (Hsub : forall y, In y (match r with Some y => rem1 y given | None => given end) -> In y given).
  { intros y. destruct r; [|auto]. intros H. exact (rem1_In _ _ _ H). }
  constructor; rewrite ?Ek, ?Ec; auto.
  - exact (fr_put N sub f own lv x l1 i n o l2 os f' r R Hx Hlv E).
  - rewrite Er, Ef. destruct (l1 ++ l2); [|assumption]. destruct (fl_keep f x =? 0).
    + apply rem1_Perm_cons. rewrite P, Pn at 1. reflexivity.
    + rewrite P, Pn at 1. cbn [app]. apply Permutation_middle.
  - intros y Hy. pose proof (V3 y Hy) as Hg. rewrite Er. destruct (l1 ++ l2); [|assumption]. destruct (Z.eqb_spec (fl_keep f x) 0) as [E0|E0]; [|assumption].
    apply (rem1_In_iff x y given Ng). split; [assumption|]. intros ->. rewrite (V4 x Hgx) in E0.
    assert (H0 : b1 (inb x sm) + b2 (inb x sl) <> 0) by (apply bits_nonzero; rewrite !inb_In; assumption). contradiction.
  - intros y Hy. destruct (Z.eq_dec y x) as [->|Ny]; [rewrite Erc; auto|rewrite (Et y Ny); auto].
  - intros y Hy. rewrite Ef in Hy. destruct (l1 ++ l2); [|auto]. destruct (Z.eqb_spec (fl_keep f x) 0) as [E0|E0]; [auto|]. destruct Hy as [<-|Hy]; [|auto].
    rewrite (V4 x Hgx) in E0. apply bits_nonzero in E0. rewrite !inb_In in E0. assumption.
Qed.

Lemma finv_contribute N sub f own lv given sm sl bz x donated dense n o t i u : 1 < N -> finv N sub f own lv given sm sl bz -> ~ In x given ->
  0 < n -> pt_get N (pt_new N donated) n o = Some (t, i, u) -> (donated = true -> dense = false /\ n < N) -> (dense = true -> n = 1) ->
  let f' := fl_contribute N sub f x t donated dense in
  finv N sub (set_collapsing (set_keep f' (upd (fl_keep f') x 0)) (upd (fl_collapsing f') x false)) (x :: own) (upd lv x [((i, n), o)]) (x :: given) sm sl bz.
Proof.
  intros HN [R P V1 V2 V3 V4 V5 V6 V7 V8] Hx Hn E Hdon Hden f'. pose proof (fl_reach_ok N _ _ _ _ HN R) as Ok.
  assert (No : ~ In x own) by (intros H; apply Hx; apply (Permutation_in x (Permutation_sym P)); apply in_app_iff; auto).
  assert (Nf : ~ In x (fl_freed f)) by (intros H; apply Hx; apply (Permutation_in x (Permutation_sym P)); apply in_app_iff; auto).
  assert (R' : fl_reach N sub f' (x :: own) (upd lv x [((i, n), o)])) by (apply (fr_contribute N sub f own lv x donated dense n o t i u); assumption).
  assert (F : (forall y, y <> x -> fl_tr f' y = fl_tr f y) /\ fl_freed f' = fl_freed f /\ fl_keep f' = fl_keep f /\ fl_collapsing f' = fl_collapsing f).
  { pose proof (pr_get N _ _ n o t i u (pr_new N donated) Hn E) as Rt. pose proof (pt_get_flags N _ n o t i u E) as (F1 & F2 & F3 & F4).
    assert (R0 : pt_rcount t = 0) by (unfold pt_get in E; destruct (find_and_mark _ _ _) as [[fr ix]|]; [|discriminate]; cbn in E; injection E as <- <- <-; reflexivity).
    assert (Hu : pt_used t = n) by (rewrite (used_live N t _ ltac:(lia) Rt); cbn; clear; lia).
    destruct (contribute_ok N sub f own lv x t [((i, n), o)] donated dense ltac:(lia) Ok No Nf Rt ltac:(discriminate) R0 F2 F1) as (_ & C1 & _ & _ & C2 & C3 & C4 & _); [|..].
    - intros Hdo. destruct (Hdon Hdo) as (Hd1 & Hd2). split; [assumption|]. rewrite Hu. assumption.
    - intros Hde' q [<-|[]]. cbn. auto.
    - auto. }
  destruct F as (Et & Ef & Ek & Ec).
  assert (Nsl : ~ In x sl) by (intros H; apply Hx; apply V3; auto).
  assert (Nsm : ~ In x sm) by (intros H; apply Hx; apply V3; auto).
  constructor; cbn [set_collapsing set_keep fl_keep fl_collapsing fl_freed fl_tr]; rewrite ?Ek, ?Ec, ?Ef; auto.
  - apply reach_coll, reach_keep. assumption.
  - cbn [app]. apply perm_skip. assumption.
  - intros y Hy. right. auto.
  - intros y [<-|Hy].
    + rewrite upd_same, (proj2 (inb_false x sm) Nsm), (proj2 (inb_false x sl) Nsl). reflexivity.
    + rewrite upd_other by congruence. auto.
  - intros y [<-|Hy].
    + rewrite upd_same. split; [discriminate|]. intros H. exfalso. exact (Nsl (V6 x H)).
    + rewrite upd_other by congruence. auto.
  - intros y Hy. rewrite Et by (intros ->; exact (Nsl (V6 x Hy))). auto.
Qed.

Lemma finv_release N sub f own lv given sm sl bz ans desired fp skip f' r : 1 < N -> finv N sub f own lv given sm sl bz ->
  release_pages N sub ans f desired fp skip f' r -> finv N sub f' own lv given sm sl bz.
Proof.
  intros HN [R P V1 V2 V3 V4 V5 V6 V7 V8] H. pose proof (fl_reach_ok N _ _ _ _ HN R) as Ok.
  destruct (release_pages_ok N sub ans f own lv desired fp skip f' r HN Ok H) as (_ & [S1 S2 S3 S4 S5 S6 S7 S8] & _ & _ & _ & (Q & Q1 & Q2 & _) & _).
  constructor; rewrite ?S4, ?S7, ?S8; auto.
  - exact (fr_release N sub f own lv ans desired fp skip f' r R H).
  - intros y Hy. rewrite Q1; [auto|]. intros Hq. destruct (Q2 y Hq) as (_ & Hc & _). pose proof (proj2 (V5 y (V3 y (or_intror (V6 y Hy)))) Hy). congruence.
Qed.

Lemma other_tinv N c s s' : 1 < N -> tinv N c s -> other_step N (tc_sub c) s s' -> tinv N c s'.
Proof.
  intros HN (Hc & V) H. destruct H; (split; [exact Hc|]); cbn [with_fill with_info y_f y_own y_lv y_given y_phase].
  - eapply finv_get; eassumption.
  - eapply finv_put; eassumption.
  - eapply finv_contribute; eassumption.
  - eapply finv_release; eassumption.
Qed.

(** Starting a pass. *)
Lemma finv_start N c f own lv given now info ls lu k1 info' sampled k2 sel : 1 < N -> finv N (tc_sub c) f own lv given [] [] [] ->
  visited_sampled N f = Some ls -> visited_unbacked N (tc_sub c) f = Some lu ->
  select_sampled c now (fl_keep f) info [] ls = (k1, info', sampled) ->
  select_trackers c now (fl_tr f) info k1 [] lu k2 sel ->
  finv N (tc_sub c) (set_keep f k2) own lv given sampled sel [].
Proof.
  intros HN [R P V1 V2 V3 V4 V5 V6 V7 V8] Es Eu Hs Ht. pose proof (fl_reach_ok N _ _ _ _ HN R) as Ok.
  destruct (visited_sampled_ok N _ f own lv HN Ok) as (l1 & E1 & N1 & H1). rewrite Es in E1. injection E1 as <-.
  destruct (visited_unbacked_ok N _ (tc_sub c) f own lv HN Ok) as (l2 & E2 & N2 & H2). rewrite Eu in E2. injection E2 as <-.
  assert (Hk : Z.of_nat (length (@nil Z)) <= k_scan) by (cbn; unfold k_scan; lia).
  destruct (select_sampled_ok c now ls _ info [] k1 info' sampled Hs N1 Hk) as (A1 & A2 & A3 & _ & _ & A6 & _ & _).
  assert (T0 : tsel_inv (fl_tr f) [] []) by (constructor; [assumption|congruence|intros ? ? []]).
  destruct (select_trackers_ok c now (fl_tr f) info k1 [] lu k2 sel Ht [] T0) as (d & Pd & T1). cbn [app] in Pd.
  assert (Nf : fl_freed f = []).
  { destruct (fl_freed f) as [|y l]; [reflexivity|]. destruct (V8 y (or_introl eq_refl)) as [[]|[]]. }
  assert (Hg : forall y, In y own -> In y given) by (intros y Hy; apply (Permutation_in y (Permutation_sym P)); apply in_app_iff; auto).
  assert (Hsel : forall y, In y sel -> In y lu).
  { intros y Hy. assert (Hi : In y (filter (fun x => tr_eligible c now (info x)) lu)) by (apply (Permutation_in y (Permutation_sym Pd)); apply in_app_iff; auto). apply filter_In in Hi. tauto. }
  constructor; cbn [set_keep fl_keep fl_collapsing fl_freed fl_tr]; auto; try (intros ? []; fail).
  - apply reach_keep. assumption.
  - assert (Nd : NoDup (sel ++ d)) by (apply (Permutation_NoDup Pd); apply NoDup_filter; assumption). exact (NoDup_app_l _ _ Nd).
  - intros y [Hy|Hy]; apply Hg.
    + apply A3 in Hy. destruct Hy as [[]|(Hy & _)]. apply H1 in Hy. tauto.
    + apply Hsel, H2 in Hy. tauto.
  - intros y Hy. apply (select_trackers_bits c now (fl_tr f) info (fun y => inb y sampled) y k1 [] lu k2 sel Ht N2).
    change (k1 y = b1 (inb y sampled) + b2 false). apply A6. exact (V4 y Hy).
  - intros y Hy. rewrite Nf in Hy. destruct Hy.
Qed.

(** ** The end of a pass *)

Lemma restore_sampled_keep : forall l k x, fold_left (fun k x => keep_clear k x k_sampled) l k x = if inb x l then Z.land (k x) (255 - k_sampled) else k x.
Proof.
  induction l as [|y l IH]; intros k x; [reflexivity|]. cbn [fold_left]. rewrite IH. change (inb x (y :: l)) with ((x =? y) || inb x l).
  unfold keep_clear, upd. destruct (Z.eqb_spec x y) as [->|Hn]; cbn [orb]; [|reflexivity].
  destruct (inb y l); [|reflexivity]. rewrite <- Z.land_assoc. reflexivity.
Qed.

(** What became of one tracker and of its residency state. *)
Record entry_done (N M : Z) (c : tconf) (os : Z -> Z -> Z -> bool) (own : list Z) (runs : list (Z * Z * Z)) (e : entry) (t t' : ptracker) (i i' : tinfo) : Prop := {
  ed_gone : ~ In (e_x e) own -> t' = t;
  ed_info : In (e_x e) own -> i' = TInfo (e_backed e) true (e_time e) (ti_sampled i) (ti_tagged i);
  ed_backed : In (e_x e) own -> e_backed e = true -> (forall j, released_page t' j = released_page t j) /\ (tc_sub c = true -> pt_unbroken t' = true);
  ed_only : In (e_x e) own -> e_backed e = false -> forall j, 0 <= j < N -> released_page t' j = true ->
    released_page t j = true \/ ~ is_live runs j /\ (trigger N M c e = true \/ tc_sub c = true /\ bit (e_bits N M e (o_unbacked (e_obs e)) true) j = true);
  ed_mono : In (e_x e) own -> forall j, 0 <= j < N -> released_page t j = true -> released_page t' j = true;
  ed_mark : In (e_x e) own -> e_backed e = false -> tc_sub c = true -> forall j, 0 <= j < N -> ~ is_live runs j -> bit (e_bits N M e (o_unbacked (e_obs e)) true) j = true -> released_page t' j = true;
  ed_all : In (e_x e) own -> e_backed e = false -> trigger N M c e = true -> (forall i n, os (e_x e) i n = true) -> forall j, 0 <= j < N -> ~ is_live runs j -> released_page t' j = true }.

Record restored_all (N M : Z) (c : tconf) (os : Z -> Z -> Z -> bool) (own : list Z) (lv : Z -> list (Z * Z * Z)) (l : list entry)
  (f : filler) (info : Z -> tinfo) (s : tstats) (f' : filler) (info' : Z -> tinfo) (s' : tstats) : Prop := {
  ra_reach : fl_reach N (tc_sub c) f' own lv;
  ra_freed : fl_freed f' = fl_freed f;
  ra_keep : forall y, fl_keep f' y = if inb y (map e_x l) then Z.land (fl_keep f y) (255 - k_collapse) else fl_keep f y;
  ra_coll : forall y, fl_collapsing f y = false -> fl_collapsing f' y = false;
  ra_other : forall y, ~ In y (map e_x l) -> fl_tr f' y = fl_tr f y /\ info' y = info y;
  ra_done : forall e, In e l -> entry_done N M c os own (lv (e_x e)) e (fl_tr f (e_x e)) (fl_tr f' (e_x e)) (info (e_x e)) (info' (e_x e));
  ra_same : same_collapse s s';
  ra_unmapped : fl_unmapped f' - fl_unmapped f = (st_subreleased s' - st_subreleased s) + (st_stale s' - st_stale s) + (st_unbacked s' - st_unbacked s);
  ra_unaccounted : fl_unaccounted f' - fl_unaccounted f = fl_unmapped f' - fl_unmapped f;
  ra_sub : st_subreleased s <= st_subreleased s' /\ (st_subreleased s' <> st_subreleased s -> exists e, In e l /\ e_backed e = false /\ any_swapped N M e = true);
  ra_stale : st_stale s <= st_stale s' /\ (st_stale s' <> st_stale s -> tc_stale c = true /\ exists e, In e l /\ e_backed e = false /\ any_swapped N M e = false /\ any_stale N M e = true);
  ra_unb : st_unbacked s <= st_unbacked s' /\ (st_unbacked s' <> st_unbacked s -> tc_sub c = true) }.

Lemma same_collapse_trans a b d : same_collapse a b -> same_collapse b d -> same_collapse a d.
Proof. unfold same_collapse. intuition congruence. Qed.

Lemma restore_all_ok N M c os own lv : 1 < N -> 0 < M -> M mod N = 0 \/ N mod M = 0 ->
  forall l f info s, fl_reach N (tc_sub c) f own lv -> NoDup (map e_x l) -> (forall e, In e l -> In (e_x e) own \/ In (e_x e) (fl_freed f)) ->
  exists f' info' s', restore_all N M c os f info s l = Some (f', info', s') /\ restored_all N M c os own lv l f info s f' info' s'.
Proof.
  intros HN HM Hd. induction l as [|e l IH]; intros f info s R Nd Hin.
  - exists f, info, s. split; [reflexivity|]. constructor; cbn [map In inb existsb]; auto; try tauto; try lia; try (split; [lia|congruence]). repeat split.
  - destruct (restore_one_ok N M c os f own lv info s e HN HM Hd R (Hin e (or_introl eq_refl))) as (f1 & i1 & s1 & E1 & Q).
    cbn [restore_all]. rewrite E1. cbn [obind]. inversion Nd as [|? ? Nx Nl]; subst. pose proof (rs_freed _ _ _ _ _ _ _ _ _ _ _ _ _ Q) as Ef.
    destruct (IH f1 i1 s1 (rs_reach _ _ _ _ _ _ _ _ _ _ _ _ _ Q) Nl) as (f' & info' & s' & E & S).
    { intros e' He'. rewrite Ef. apply Hin. right. assumption. }
    exists f', info', s'. split; [assumption|].
    destruct Q as [Q1 Q2 Q3 Q4 Q5 Q6 Q7 Q8 Q9 Q10 Q11 Q12 Q13 Q14 Q15 Q16 Q17 Q18], S as [S1 S2 S3 S4 S5 S6 S7 S8 S9 S10 S11 S12].
    constructor; auto.
    + congruence.
    + intros y. rewrite S3, Q3. cbn [map]. change (inb y (e_x e :: map e_x l)) with ((y =? e_x e) || inb y (map e_x l)).
      unfold keep_clear, upd. destruct (Z.eqb_spec y (e_x e)) as [->|Hn]; cbn [orb]; [|reflexivity].
      rewrite (proj2 (inb_false _ _) Nx). reflexivity.
    + intros y Hy. cbn [map In] in Hy. destruct (S5 y) as (A & B); [tauto|]. destruct (Q5 y) as (A' & B'); [intros ->; tauto|]. split; congruence.
    + intros e' [<-|He'].
      * destruct (S5 (e_x e) Nx) as (A & B). rewrite A, B. constructor; auto.
        intros No. destruct (Hin e (or_introl eq_refl)) as [Ho|Hf]; [contradiction|]. exact (proj1 (Q6 Hf)).
      * assert (Hne : e_x e' <> e_x e) by (intros E'; apply Nx; rewrite <- E'; apply in_map; assumption).
        destruct (Q5 _ Hne) as (A & B). rewrite <- A, <- B. apply S6. assumption.
    + exact (same_collapse_trans _ _ _ Q7 S7).
    + lia.
    + lia.
    + split; [lia|]. intros Hne. destruct (Z.eq_dec (st_subreleased s1) (st_subreleased s)) as [Eq|Ne].
      * destruct (proj2 S10) as (e' & He' & A); [congruence|]. exists e'. split; [right; assumption|assumption].
      * exists e. split; [left; reflexivity|]. apply Q10. assumption.
    + split; [lia|]. intros Hne. destruct (Z.eq_dec (st_stale s1) (st_stale s)) as [Eq|Ne].
      * destruct (proj2 S11) as (A0 & e' & He' & A); [congruence|]. split; [assumption|]. exists e'. split; [right; assumption|assumption].
      * destruct (proj2 Q11 Ne) as (A1 & A2 & A3 & A4). split; [assumption|]. exists e. split; [left; reflexivity|auto].
    + split; [lia|]. intros Hne. destruct (Z.eq_dec (st_unbacked s1) (st_unbacked s)) as [Eq|Ne]; [apply S12; congruence|apply Q12; assumption].
Qed.

Lemma fetch_all_ok : forall n f, (length (fl_freed f) < n)%nat -> exists f', fetch_all n f = (fl_freed f, f') /\ (f' = f /\ fl_freed f = [] \/ f' = set_freed f []).
Proof.
  induction n as [|n IH]; intros f Hn; [lia|]. cbn [fetch_all]. unfold fl_fetch. destruct (fl_freed f) as [|x l] eqn:E; [exists f; auto|].
  destruct (IH (set_freed f l)) as (f' & E' & H); [cbn [set_freed fl_freed length] in *; lia|]. rewrite E'. cbn [set_freed fl_freed] in *. exists f'. split; [reflexivity|].
  right. destruct H as [(-> & ->)| ->]; reflexivity.
Qed.
Lemma fetch_all_reach N sub own lv : forall n f, fl_reach N sub f own lv -> fl_reach N sub (snd (fetch_all n f)) own lv.
Proof.
  induction n as [|n IH]; intros f R; [assumption|]. cbn [fetch_all]. destruct (fl_fetch f) as [[x|] f1] eqn:E.
  - pose proof (fr_fetch N sub f own lv _ f1 R E) as R1. specialize (IH f1 R1). destruct (fetch_all n f1). exact IH.
  - exact (fr_fetch N sub f own lv _ f1 R E).
Qed.
Lemma rem_all_Perm : forall l (g o : list Z), Permutation g (o ++ l) -> Permutation (fold_left (fun l x => rem1 x l) l g) o.
Proof.
  induction l as [|x l IH]; intros g o P; [rewrite app_nil_r in P; exact P|]. cbn [fold_left]. apply IH. apply rem1_Perm_cons. rewrite P. symmetry. apply Permutation_middle.
Qed.

(** What the end of a pass does to the state. *)
Record finished (N M : Z) (c : tconf) (s : tsys) (g : pass) (os : Z -> Z -> Z -> bool) (s' : tsys) (mine : tstats) : Prop := {
  fi_inv : tinv N c s';
  fi_idle : y_phase s' = PIdle;
  fi_own : y_own s' = y_own s;
  fi_lv : y_lv s' = y_lv s;
  fi_given : Permutation (y_given s) (y_given s' ++ fl_freed (y_f s));
  fi_freed : fl_freed (y_f s') = [];
  fi_other : forall y, ~ In y (map e_x (g_done g)) -> fl_tr (y_f s') y = fl_tr (y_f s) y /\ y_info s' y = y_info s y;
  fi_done : forall e, In e (g_done g) -> entry_done N M c os (y_own s) (y_lv s (e_x e)) e (fl_tr (y_f s) (e_x e)) (fl_tr (y_f s') (e_x e)) (y_info s (e_x e)) (y_info s' (e_x e));
  fi_same : same_collapse (g_stats g) mine;
  fi_unmapped : fl_unmapped (y_f s') - fl_unmapped (y_f s) = (st_subreleased mine - st_subreleased (g_stats g)) + (st_stale mine - st_stale (g_stats g)) + (st_unbacked mine - st_unbacked (g_stats g));
  fi_unaccounted : fl_unaccounted (y_f s') - fl_unaccounted (y_f s) = fl_unmapped (y_f s') - fl_unmapped (y_f s);
  fi_sub : st_subreleased (g_stats g) <= st_subreleased mine /\ (st_subreleased mine <> st_subreleased (g_stats g) -> exists e, In e (g_done g) /\ e_backed e = false /\ any_swapped N M e = true);
  fi_stale : st_stale (g_stats g) <= st_stale mine /\ (st_stale mine <> st_stale (g_stats g) -> tc_stale c = true /\ exists e, In e (g_done g) /\ e_backed e = false /\ any_swapped N M e = false /\ any_stale N M e = true);
  fi_unb : st_unbacked (g_stats g) <= st_unbacked mine /\ (st_unbacked mine <> st_unbacked (g_stats g) -> tc_sub c = true);
  fi_stats : y_stats s' = stats_update (y_stats s) mine;
  fi_max : y_max s' = (if 0 <? st_attempted (g_stats g) then update_backoff c (y_max s) (st_max (g_stats g)) else y_max s);
  fi_cur : y_cur s' = y_cur s;
  fi_past : y_past s' = match y_past s with
       | a :: l => Past (a_asked a) (a_skipped a) (g_done g) (st_eligible (g_stats g)) (st_subreleased mine) (st_unbacked mine) (st_stale mine) :: l
       | [] => []
       end }.

Lemma finish_ok N M c s g os : 1 < N -> 0 < M -> M mod N = 0 \/ N mod M = 0 -> tinv N c s -> y_phase s = PPass g -> g_todo g = [] -> g_busy g = None ->
  exists mine, finished N M c s g os (pass_finish N M c s g os) mine.
Proof.
  intros HN HM Hd (_ & [R P V1 V2 V3 V4 V5 V6 V7 V8]) Hp Ht Hb. rewrite Hp in *. cbn [ph_sampled ph_selected ph_busy] in *. rewrite Ht, Hb in *. cbn [busy_list app] in *. rewrite app_nil_r in *.
  set (f0 := restore_sampled (y_f s) (g_sampled g)). assert (R0 : fl_reach N (tc_sub c) f0 (y_own s) (y_lv s)) by (apply reach_keep; assumption).
  destruct (restore_all_ok N M c os (y_own s) (y_lv s) HN HM Hd (g_done g) f0 (y_info s) (g_stats g) R0 V2) as (f' & info' & mine & E & [A1 A2 A3 A4 A5 A6 A7 A8 A9 A10 A11 A12]).
  { intros e He. apply in_app_iff. apply (Permutation_in _ P). apply V3. right. apply in_map. assumption. }
  unfold pass_finish. fold f0. rewrite E.
  destruct (fetch_all_ok (S (length (fl_freed f'))) f' ltac:(lia)) as (f'' & Ef & Hf).
  pose proof (fetch_all_reach N (tc_sub c) (y_own s) (y_lv s) (S (length (fl_freed f'))) f' A1) as R''. rewrite Ef in *. cbn [snd] in R''.
  change (fl_freed f0) with (fl_freed (y_f s)) in A2. rewrite A2 in *.
  assert (F : fl_freed f'' = [] /\ fl_tr f'' = fl_tr f' /\ fl_keep f'' = fl_keep f' /\ fl_collapsing f'' = fl_collapsing f' /\ fl_unmapped f'' = fl_unmapped f' /\ fl_unaccounted f'' = fl_unaccounted f').
  { destruct Hf as [(-> & H0)| ->]; [|repeat split]. rewrite A2. repeat split. exact H0. }
  destruct F as (F1 & F2 & F3 & F4 & F5 & F6).
  assert (Pg : Permutation (fold_left (fun l x => rem1 x l) (fl_freed (y_f s)) (y_given s)) (y_own s)) by (apply rem_all_Perm; assumption).
  assert (Hsub : forall y, In y (fold_left (fun l x => rem1 x l) (fl_freed (y_f s)) (y_given s)) -> In y (y_given s)).
  { intros y Hy. apply (Permutation_in y (Permutation_sym P)). apply in_app_iff. left. exact (Permutation_in y Pg Hy). }
  exists mine. constructor; cbn [y_phase y_own y_lv y_given y_f y_info y_stats y_max y_cur y_past]; rewrite ?F1, ?F2, ?F5, ?F6; auto.
  - split; [discriminate|]. cbn [ph_sampled ph_selected ph_busy y_phase y_own y_lv y_given y_f]. constructor; rewrite ?F1, ?F2, ?F3, ?F4; auto; try constructor; try (intros ? []; fail); try (intros ? [[]|[]]; fail).
    + rewrite app_nil_r. assumption.
    + intros y Hy. rewrite A3. change (fl_keep f0 y) with (fold_left (fun k x => keep_clear k x k_sampled) (g_sampled g) (fl_keep (y_f s)) y). rewrite restore_sampled_keep.
      rewrite (V4 y (Hsub y Hy)). destruct (inb y (g_sampled g)), (inb y (map e_x (g_done g))); reflexivity.
    + intros Hc. exfalso. rewrite A4 in Hc; [discriminate|]. change (fl_collapsing f0) with (fl_collapsing (y_f s)).
      destruct (fl_collapsing (y_f s) x) eqn:Ec; [|reflexivity]. apply (V5 x (Hsub x H)) in Ec. destruct Ec.
    + intros [].
  - rewrite Pg. assumption.
Qed.

Lemma pass_tinv N M c s s' : 1 < N -> 0 < M -> M mod N = 0 \/ N mod M = 0 -> tinv N c s -> pass_step N M c s s' -> tinv N c s'.
Proof.
  intros HN HM Hd T H. destruct H as [s asked now ls lu k1 info sampled k2 sel Hp Es Eu Hs Ht|s g x l o out t Hp Ht Hb Hdec|s g x l o t elapsed Hp Ht Hb Hdec Hr|s g x l o Hp Ht Hb Hdec Hr|s g x o t ok errno elapsed Hp Hb|s g os Hp Ht Hb].
  - destruct T as (_ & V). rewrite Hp in V. cbn [ph_sampled ph_selected ph_busy] in V. unfold pass_start.
    destruct (if asked then should_backoff (y_max s) (y_cur s) else (false, y_cur s)) as [back cur]. split; [discriminate|].
    cbn [ph_sampled ph_selected ph_busy y_phase y_own y_lv y_given y_f g_sampled g_todo g_busy g_done busy_list map app]. eapply finv_start; eassumption.
  - destruct T as (_ & V). rewrite Hp in V. split; [discriminate|]. cbn [with_phase ph_sampled ph_selected ph_busy y_phase y_own y_lv y_given y_f g_sampled g_todo g_busy g_done] in *.
    rewrite Ht, Hb in V. rewrite map_app, <- app_assoc. exact V.
  - destruct T as (_ & V). rewrite Hp in V. split; [discriminate|]. cbn [with_phase ph_sampled ph_selected ph_busy y_phase y_own y_lv y_given y_f g_sampled g_todo g_busy g_done] in *.
    rewrite Ht, Hb in V. rewrite map_app, <- app_assoc. exact V.
  - destruct T as (_ & V). rewrite Hp in V. cbn [ph_sampled ph_selected ph_busy] in V. rewrite Ht, Hb in V. cbn [busy_list app] in V. destruct V as [R P V1 V2 V3 V4 V5 V6 V7 V8].
    assert (Hx : In x (map e_x (g_done g) ++ x :: l)) by (apply in_app_iff; right; left; reflexivity). pose proof (V3 x (or_intror Hx)) as Hg.
    destruct (fl_collapsing (y_f s) x) eqn:Ec; [apply (V5 x Hg) in Ec; destruct Ec|]. split; [discriminate|].
    cbn [with_phase ph_sampled ph_selected ph_busy y_phase y_own y_lv y_given y_f g_sampled g_todo g_busy g_done busy_list app].
    constructor; cbn [set_collapsing fl_keep fl_collapsing fl_freed fl_tr]; auto.
    + apply reach_coll. assumption.
    + intros y Hy. unfold upd. destruct (Z.eqb_spec y x) as [->|Hn]; [split; [intros _; left; reflexivity|reflexivity]|]. rewrite (V5 y Hy). split; [intros []|intros [E|[]]; congruence].
    + intros y [<-|[]]. assumption.
    + intros y [<-|[]]. unfold pt_released in Hr. apply Z.ltb_ge in Hr. pose proof (fl_reach_ok N _ _ _ _ HN R) as Ok.
      apply (Permutation_in x P) in Hg. apply in_app_iff in Hg. destruct Hg as [Hg|Hg].
      * destruct (tk_bounds N _ _ ltac:(lia) (fo_tk _ _ _ _ _ Ok x Hg)) as (_ & _ & _ & B). lia.
      * destruct (fo_freed _ _ _ _ _ Ok x Hg) as (_ & Rt). destruct (released_pages_exact N _ _ ltac:(lia) Rt) as (_ & _ & B & _). lia.
  - destruct T as (_ & V). rewrite Hp in V. cbn [ph_sampled ph_selected ph_busy] in V. rewrite Hb in V. cbn [busy_list app] in V. destruct V as [R P V1 V2 V3 V4 V5 V6 V7 V8].
    unfold pt_released. rewrite (V7 x (or_introl eq_refl)). cbn [Z.ltb Z.compare]. split; [discriminate|].
    cbn [with_phase ph_sampled ph_selected ph_busy y_phase y_own y_lv y_given y_f g_sampled g_todo g_busy g_done busy_list app]. rewrite map_app, <- app_assoc. cbn [map app e_x].
    constructor; cbn [set_collapsing fl_keep fl_collapsing fl_freed fl_tr]; auto; try (intros ? []; fail).
    + apply reach_coll. assumption.
    + intros y Hy. unfold upd. destruct (Z.eqb_spec y x) as [->|Hn]; [split; [discriminate|intros []]|]. rewrite (V5 y Hy). split; [intros [E|[]]; congruence|intros []].
  - destruct (finish_ok N M c s g os HN HM Hd T Hp Ht Hb) as (mine & F). exact (fi_inv _ _ _ _ _ _ _ _ F).
Qed.

Theorem treat_tinv N M c s : 1 < N -> 0 < M -> M mod N = 0 \/ N mod M = 0 -> treat_reach N M c s -> tinv N c s.
Proof.
  intros HN HM Hd. induction 1 as [t0 i0|s s' H IH Hc Hs|s s' H IH Hs].
  - split; [discriminate|]. constructor; cbn; auto; try constructor; try (intros ? []; fail); try (intros ? [[]|[]]; fail); try discriminate; intros [].
  - exact (other_tinv N c s s' HN IH Hs).
  - exact (pass_tinv N M c s s' HN HM Hd IH Hs).
Qed.
