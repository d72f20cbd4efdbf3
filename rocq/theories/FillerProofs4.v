(** Contributing, releasing and the rest preserve the filler's invariant. *)
From Coq Require Import Permutation.
From Verif Require Import Base Bitmap BitmapProofs RangeTrackerProofs RangeTrackerProofs2 RangeTrackerProps HintedLists HintedListsProofs PageTracker PageTrackerProps Filler FillerProofs FillerProofs2 FillerProofs3.

(** ** Contribute *)

Lemma new_on_list N sub f own lv x h t live : 0 < N -> fl_ok N sub f own lv -> ~ In x own -> ~ In x (fl_freed f) ->
  flists_ok N sub h (x :: own) -> tk_ok N t live -> pt_rcount t = 0 -> pt_was_released t = false ->
  (forall y, fl_tr h y = upd (fl_tr f) x t y) -> fl_freed h = fl_freed f -> fl_size h = fl_size f + 1 ->
  (forall d, fl_alloc h d = fl_alloc f d + g_alloc d t) -> fl_unmapped h = fl_unmapped f -> fl_was_rel h = fl_was_rel f ->
  fl_unaccounted h = fl_unaccounted f ->
  fl_ok N sub h (x :: own) (upd lv x live).
Proof.
  intros HN Ok Nx Nf HL K R0 W0 T3 F1 F2 F3 F4 F5 F6.
  assert (TS : forall g, tsum g (fl_tr h) (x :: own) = g t + tsum g (fl_tr f) own).
  { intros g. rewrite (tsum_ext g (fl_tr h) (upd (fl_tr f) x t)) by (intros y _; rewrite T3; reflexivity).
    rewrite tsum_cons, upd_same, tsum_upd_out by assumption. reflexivity. }
  destruct Ok as [A1 A2 A3 A4 A5 A6 A7 A8 A9]. constructor.
  - assumption.
  - intros y [<-|Hy]; [rewrite T3, !upd_same; assumption|]. assert (y <> x) by (intros ->; contradiction). rewrite T3, !upd_other by assumption. auto.
  - rewrite F2, A3. cbn [length]. lia.
  - intros d. rewrite F3, TS, A4. lia.
  - rewrite F4, TS, A5, R0. lia.
  - intros d. rewrite F5, TS, A6. unfold g_was at 2. rewrite W0. cbn [andb]. lia.
  - rewrite F6. assumption.
  - rewrite F1. assumption.
  - intros y Hy. rewrite F1 in Hy. destruct (A9 y Hy) as (B1 & B2). assert (y <> x) by (intros ->; contradiction).
    split; [intros [E|E]; [apply H; symmetry; exact E|contradiction]|]. rewrite T3, upd_other by assumption. assumption.
Qed.

Lemma contribute_ok N sub f own lv x t live donated dense : 0 < N -> fl_ok N sub f own lv -> ~ In x own -> ~ In x (fl_freed f) ->
  pt_reach N t live -> live <> [] -> pt_rcount t = 0 -> pt_was_released t = false -> pt_dense t = false ->
  (donated = true -> dense = false /\ pt_used t < N) -> (dense = true -> forall r, In r live -> snd (fst r) = 1) ->
  let f' := fl_contribute N sub f x t donated dense in
  fl_ok N sub f' (x :: own) (upd lv x live) /\ (forall y, y <> x -> fl_tr f' y = fl_tr f y) /\
  pt_dense (fl_tr f' x) = dense /\ pt_donated (fl_tr f' x) = donated /\
  fl_freed f' = fl_freed f /\ fl_keep f' = fl_keep f /\ fl_collapsing f' = fl_collapsing f /\ fl_unaccounted f' = fl_unaccounted f /\
  fl_unmapped f' = fl_unmapped f.
Proof.
  intros HN Ok Nx Nf R L R0 W0 D0 Hdd Hd1. cbv zeta. pose proof (fo_lists _ _ _ _ _ Ok) as HL.
  unfold fl_contribute. cbv zeta. set (a := updb (fl_alloc (put_tracker f x t)) dense (fl_alloc (put_tracker f x t) dense + pt_used t)).
  set (f1 := set_alloc (put_tracker f x t) a).
  assert (Ea : forall d', fl_alloc f1 d' = fl_alloc f d' + (if Bool.eqb dense d' then pt_used t else 0)).
  { intros d'. change (fl_alloc f1 d') with (a d'). unfold a. rewrite updb_at. destruct dense, d'; cbn [Bool.eqb fl_alloc put_tracker set_tr]; lia. }
  destruct donated.
  - destruct (Hdd eq_refl) as (-> & Hroom). clear Hdd Hd1. rewrite fl_donate_eq. set (t' := pt_set_donated (fl_tr f1 x) true).
    assert (Et : fl_tr f1 x = t) by (unfold f1; cbn; apply upd_same).
    assert (K : tk_ok N t' live).
    { unfold t'. rewrite Et. constructor; [apply pr_donated; assumption|assumption| | | |].
      - intros H. cbn in H. rewrite D0 in H. discriminate.
      - intros _. exact D0.
      - intros _. exact R0.
      - intros _. exact Hroom. }
    set (f2 := put_tracker f1 x t').
    assert (H2 : flists_ok N sub f2 own).
    { apply (lists_ok_tr _ _ _ _ _ (fl_tr f)); [exact HL|]. intros y Hy. assert (y <> x) by (intros ->; contradiction).
      unfold f2, f1. cbn [fl_tr put_tracker set_tr set_alloc]. rewrite !upd_other by assumption. auto. }
    assert (E2 : fl_tr f2 x = t') by (unfold f2; cbn; apply upd_same).
    pose proof (put_on_ok N sub f2 own x H2 Nx) as P. rewrite E2 in P. specialize (P (tk_range N sub t' live HN K)).
    change (kind N sub t') with LDon in P. change (pidx N t') with (pt_longest t') in P.
    destruct (put_on_fields f2 LDon (pt_longest t') x) as (F1 & F2 & F3 & F4 & F5 & F6 & F7 & F8 & F9).
    set (h := put_on f2 LDon (pt_longest t') x) in *.
    assert (Th : forall y, fl_tr h y = upd (fl_tr f) x t' y).
    { intros y. rewrite F1. unfold f2, f1. cbn [fl_tr put_tracker set_tr set_alloc]. apply upd_upd_at. }
    split; [|repeat match goal with |- _ /\ _ => split end; cbn [fl_tr set_size fl_freed fl_keep fl_collapsing fl_unaccounted fl_unmapped]; auto].
    + apply (new_on_list N sub f own lv x _ t' live); auto.
      * unfold t'. rewrite Et. exact R0.
      * unfold t'. rewrite Et. exact W0.
      * intros d'. cbn [fl_alloc set_size]. rewrite F4. change (fl_alloc f2 d') with (fl_alloc f1 d'). rewrite Ea. unfold g_alloc, t'. rewrite Et.
        cbn [pt_dense pt_set_donated]. rewrite D0. reflexivity.
    + intros y Hy. rewrite Th. apply upd_other. assumption.
    + rewrite Th, upd_same. unfold t'. rewrite Et. exact D0.
    + rewrite Th, upd_same. reflexivity.
  - set (td := if dense then pt_set_dense t else t).
    set (f2 := if dense then put_tracker f1 x (pt_set_dense t) else f1).
    assert (Et : fl_tr f2 x = td) by (unfold f2, td, f1; destruct dense; cbn; apply upd_same).
    set (t' := pt_set_donated td false).
    assert (Rd : pt_reach N td live) by (unfold td; destruct dense; [apply pr_dense|]; assumption).
    assert (Dd : pt_dense td = dense) by (unfold td; destruct dense; [reflexivity|assumption]).
    assert (K : tk_ok N t' live).
    { constructor; [apply pr_donated; assumption|assumption| |discriminate|discriminate|discriminate]. intros H. apply Hd1. rewrite <- Dd. exact H. }
    assert (T2 : forall y, fl_tr f2 y = upd (fl_tr f) x td y).
    { intros y. unfold f2, td, f1. destruct dense; cbn [fl_tr put_tracker set_tr set_alloc]; [apply upd_upd_at|reflexivity]. }
    assert (H2 : flists_ok N sub f2 own).
    { unfold flists_ok. apply (lists_ok_tr _ _ _ _ _ (fl_tr f)).
      - replace (fl_lists f2) with (fl_lists f) by (unfold f2; destruct dense; reflexivity).
        replace (fl_used_rel f2) with (fl_used_rel f) by (unfold f2; destruct dense; reflexivity).
        replace (fl_used_part f2) with (fl_used_part f) by (unfold f2; destruct dense; reflexivity). exact HL.
      - intros y Hy. rewrite T2, upd_other; [auto|]. intros ->. contradiction. }
    assert (Hl : pt_longest (fl_tr f2 x) <> N).
    { rewrite Et. destruct (tk_bounds N t' live HN K) as (B & _). change (pt_longest t') with (pt_longest td) in B. lia. }
    assert (P : flists_ok N sub (fl_add N sub f2 x) (x :: own)) by (apply (add_ok N sub f2 own x live); auto; rewrite Et; exact K).
    destruct (fl_add_fields N sub f2 x Hl) as (F1 & F2 & F3 & F4 & F5 & F6 & F7 & F8 & F9).
    assert (Q : fl_freed f2 = fl_freed f /\ fl_size f2 = fl_size f /\ fl_alloc f2 = fl_alloc f1 /\ fl_unmapped f2 = fl_unmapped f /\ fl_unaccounted f2 = fl_unaccounted f /\
      fl_was_rel f2 = fl_was_rel f /\ fl_keep f2 = fl_keep f /\ fl_collapsing f2 = fl_collapsing f) by (unfold f2; destruct dense; repeat split; reflexivity).
    destruct Q as (Q1 & Q2 & Q3 & Q4 & Q5 & Q6 & Q7 & Q8).
    set (h := fl_add N sub f2 x) in *.
    assert (Th : forall y, fl_tr h y = upd (fl_tr f) x t' y).
    { intros y. rewrite F1, Et. fold t'. unfold upd. destruct (Z.eqb_spec y x) as [->|Hne]; [reflexivity|]. rewrite T2. apply upd_other. assumption. }
    split; [|repeat match goal with |- _ /\ _ => split end; cbn [fl_tr set_size fl_freed fl_keep fl_collapsing fl_unaccounted fl_unmapped]; try congruence].
    + apply (new_on_list N sub f own lv x _ t' live); auto.
      * unfold t', td. destruct dense; exact R0.
      * unfold t', td. destruct dense; exact W0.
      * cbn [fl_freed set_size]. congruence.
      * cbn [fl_size set_size]. rewrite F3, Q2. reflexivity.
      * intros d'. cbn [fl_alloc set_size]. rewrite F4, Q3, Ea. unfold g_alloc. change (pt_dense t') with (pt_dense td). rewrite Dd.
        unfold t', td. destruct dense; reflexivity.
      * cbn [fl_unmapped set_size]. congruence.
      * cbn [fl_was_rel set_size]. congruence.
      * cbn [fl_unaccounted set_size]. congruence.
    + intros y Hy. rewrite Th. apply upd_other. assumption.
    + rewrite Th, upd_same. exact Dd.
    + rewrite Th, upd_same. reflexivity.
Qed.

(** ** Releasing the free pages of one hugepage *)

(** The pages of [f'] are those of [f], with more of them released. *)
Record same_pages (f f' : filler) : Prop := {
  sp_free : forall y, pt_free (fl_tr f' y) = pt_free (fl_tr f y);
  sp_dense : forall y, pt_dense (fl_tr f' y) = pt_dense (fl_tr f y);
  sp_more : forall y, pt_rcount (fl_tr f y) <= pt_rcount (fl_tr f' y);
  sp_freed : fl_freed f' = fl_freed f;
  sp_size : fl_size f' = fl_size f;
  sp_alloc : fl_alloc f' = fl_alloc f;
  sp_keep : fl_keep f' = fl_keep f;
  sp_coll : fl_collapsing f' = fl_collapsing f }.
Lemma same_pages_refl f : same_pages f f.
Proof. constructor; auto. intros y. lia. Qed.
Lemma same_pages_trans f g h : same_pages f g -> same_pages g h -> same_pages f h.
Proof. intros [] []. constructor; try congruence. intros y. specialize (sp_more0 y). specialize (sp_more1 y). lia. Qed.

Lemma pt_release_flags N t os t' c calls : pt_release_free N t os = Some (t', c, calls) ->
  pt_dense t' = pt_dense t /\ pt_was_released t' = pt_was_released t.
Proof.
  unfold pt_release_free. intros H. destruct (release_loop _ _ _ _ _ _) as [[[rel k] cl]|]; [|discriminate]. injection H as <- <- <-. auto.
Qed.

(** A step that only marks pages as released. *)
Lemma more_released_ok N sub f own lv x t ua : 0 < N -> fl_ok N sub f own lv -> In x own ->
  pt_reach N t (lv x) -> pt_free t = pt_free (fl_tr f x) -> pt_dense t = pt_dense (fl_tr f x) -> pt_was_released t = pt_was_released (fl_tr f x) ->
  pt_rcount (fl_tr f x) <= pt_rcount t -> 0 <= ua ->
  let g := put_tracker (fl_remove N sub f x) x t in
  let f' := fl_add N sub (set_unaccounted (set_unmapped g (fl_unmapped g + (pt_rcount t - pt_rcount (fl_tr f x)))) ua) x in
  fl_ok N sub f' own lv /\ same_pages f f' /\ (forall y, fl_tr f' y = upd (fl_tr f) x (pt_set_donated t false) y) /\
  fl_unmapped f' = fl_unmapped f + (pt_rcount t - pt_rcount (fl_tr f x)) /\ fl_unaccounted f' = ua.
Proof.
  intros HN Ok Hx R Ef Ed Ew Hm Hua. cbv zeta. pose proof (fo_tk _ _ _ _ _ Ok x Hx) as K.
  destruct (fl_remove_fields N sub f x) as (G1 & G2 & G3 & G4 & G5 & G6 & G7 & G8 & G9).
  set (fr := fl_remove N sub f x) in *. cbn [fl_unmapped put_tracker set_tr].
  set (g := set_unaccounted _ ua). set (t' := pt_set_donated t false).
  assert (K' : tk_ok N t' (lv x)).
  { constructor; [apply pr_donated; assumption|apply (tk_live _ _ _ K)| |discriminate|discriminate|discriminate].
    intros H. apply (tk_dense _ _ _ K). rewrite <- Ed. exact H. }
  destruct (step_ok N sub f own lv x g t t' (lv x) HN Ok Hx eq_refl eq_refl eq_refl) as (ST & STt); auto.
  { unfold g. cbn [fl_tr set_unaccounted set_unmapped put_tracker set_tr]. rewrite G1. reflexivity. }
  { intros d. change (fl_alloc fr d = fl_alloc f d - g_alloc d (fl_tr f x) + g_alloc d t). rewrite G4. unfold g_alloc, pt_used. rewrite Ef, Ed. clear. lia. }
  { change (fl_unmapped fr + (pt_rcount t - pt_rcount (fl_tr f x)) = fl_unmapped f - pt_rcount (fl_tr f x) + pt_rcount t). rewrite G5. clear. lia. }
  { intros d. change (fl_was_rel fr d = fl_was_rel f d - g_was d (fl_tr f x) + g_was d t). rewrite G7. unfold g_was. rewrite Ed, Ew. clear. lia. }
  assert (Hl : pt_longest (fl_tr g x) <> N).
  { unfold g. cbn [fl_tr set_unaccounted set_unmapped put_tracker set_tr]. rewrite upd_same. destruct (tk_bounds N t' _ HN K') as (B & _).
    change (pt_longest t') with (pt_longest t) in B. clear - B. lia. }
  destruct (fl_add_fields N sub g x Hl) as (A1 & A2 & A3 & A4 & A5 & A6 & A7 & A8 & A9).
  split; [apply (fl_ok_same _ _ _ _ _ x (lv x)); auto|].
  split; [|split; [assumption|]].
  - constructor.
    + intros y. rewrite STt. unfold upd. destruct (Z.eqb_spec y x) as [->|]; [exact Ef|reflexivity].
    + intros y. rewrite STt. unfold upd. destruct (Z.eqb_spec y x) as [->|]; [exact Ed|reflexivity].
    + intros y. rewrite STt. unfold upd. destruct (Z.eqb_spec y x) as [->|]; [exact Hm|clear; lia].
    + rewrite A2. exact G2.
    + rewrite A3. exact G3.
    + rewrite A4. exact G4.
    + rewrite A8. exact G8.
    + rewrite A9. exact G9.
  - rewrite A5, A6. split; [|reflexivity]. unfold g. cbn [fl_unmapped set_unaccounted set_unmapped]. rewrite G5. reflexivity.
Qed.

Lemma release_tracker_ok N sub f own lv x os : 0 < N -> fl_ok N sub f own lv -> In x own ->
  exists f' r t, release_tracker N sub f x os = Some (f', r) /\ fl_ok N sub f' own lv /\ same_pages f f' /\
    (exists calls, pt_release_free N (fl_tr f x) os = Some (t, r, calls)) /\
    (forall y, fl_tr f' y = upd (fl_tr f) x (pt_set_donated t false) y) /\
    0 <= r /\ r = pt_rcount t - pt_rcount (fl_tr f x) /\
    fl_unmapped f' = fl_unmapped f + r /\ fl_unaccounted f' = fl_unaccounted f.
Proof.
  intros HN Ok Hx. pose proof (fo_tk _ _ _ _ _ Ok x Hx) as K.
  destruct (fl_remove_fields N sub f x) as (G1 & G2 & G3 & G4 & G5 & G6 & G7 & G8 & G9).
  destruct (pt_release_ok N (fl_tr f x) (lv x) os HN (pt_reach_ok N _ _ HN (tk_reach _ _ _ K))) as (t & c & calls & E & _ & Ef & B1 & _ & _ & _ & Ec & Erc).
  destruct (pt_release_flags _ _ _ _ _ _ E) as (F1 & F2).
  assert (Hc : 0 <= c).
  { rewrite Ec. clear - B1. induction calls as [|r l IH]; [cbn; lia|]. cbn [map]. rewrite zsum_cons.
    destruct (B1 r (or_introl eq_refl)) as (_ & ? & _). assert (forall r0, In r0 l -> 0 <= fst r0 /\ 0 < snd r0 /\ fst r0 + snd r0 <= N /\
      (forall j, run_at r0 j -> bit (rt_bits (pt_free (fl_tr f x))) j = false /\ bit (pt_rel (fl_tr f x)) j = false)) as B2 by (intros; apply B1; right; assumption).
    specialize (IH B2). destruct (os (fst r) (snd r)); lia. }
  pose proof (pr_release N _ _ os t c calls (tk_reach _ _ _ K) E) as R'.
  destruct (more_released_ok N sub f own lv x t (fl_unaccounted f) HN Ok Hx R' Ef F1 F2 ltac:(clear - Erc Hc; lia) (fo_unacc _ _ _ _ _ Ok)) as (M1 & M2 & M3 & M4 & M5).
  cbv zeta in *. set (fr := fl_remove N sub f x) in *.
  assert (Ecc : pt_rcount t - pt_rcount (fl_tr f x) = c) by (clear - Erc; lia). rewrite Ecc in *.
  unfold release_tracker. fold fr. rewrite G1, E. cbn [obind].
  assert (Es : set_unaccounted (set_unmapped (put_tracker fr x t) (fl_unmapped (put_tracker fr x t) + c)) (fl_unaccounted f) =
     set_unmapped (put_tracker fr x t) (fl_unmapped (put_tracker fr x t) + c)).
  { rewrite <- G6. reflexivity. }
  rewrite Es in *.
  exists (fl_add N sub (set_unmapped (put_tracker fr x t) (fl_unmapped (put_tracker fr x t) + c)) x), c, t.
  repeat match goal with |- _ /\ _ => split end; auto. exists calls. reflexivity.
Qed.

Lemma handle_release_free_ok N sub f own lv x os : 0 < N -> fl_ok N sub f own lv -> In x own ->
  exists f' r, handle_release_free N sub f x os = Some (f', r) /\ fl_ok N sub f' own lv /\ same_pages f f' /\
    (forall y, y <> x -> fl_tr f' y = fl_tr f y) /\ (exists t calls, pt_release_free N (fl_tr f x) os = Some (t, r, calls) /\ fl_tr f' x = pt_set_donated t false) /\
    0 <= r /\ fl_unmapped f' = fl_unmapped f + r /\ fl_unaccounted f' = fl_unaccounted f + r.
Proof.
  intros HN Ok Hx. destruct (release_tracker_ok N sub f own lv x os HN Ok Hx) as (f' & r & t & E & Ok' & [] & (calls & Ep) & Et & Hr & _ & Eu & Ea).
  unfold handle_release_free. rewrite E. cbn [obind]. eexists _, r. split; [reflexivity|].
  pose proof (fo_unacc _ _ _ _ _ Ok). split.
  { destruct Ok' as [A1 A2 A3 A4 A5 A6 A7 A8 A9]. constructor; auto. cbn [fl_unaccounted set_unaccounted]. rewrite Ea. lia. }
  split; [constructor; assumption|]. split; [intros y Hy; cbn; rewrite Et; apply upd_other; assumption|].
  split; [exists t, calls; split; [assumption|]; cbn; rewrite Et; apply upd_same|]. cbn. rewrite Ea. auto.
Qed.

Lemma handle_unbacked_ok N sub f own lv x ub : 0 < N -> fl_ok N sub f own lv -> In x own -> wf N ub ->
  exists f' r, handle_unbacked N sub f x ub = (f', r) /\ fl_ok N sub f' own lv /\ same_pages f f' /\
    (forall y, y <> x -> fl_tr f' y = fl_tr f y) /\ (exists t, pt_mark_subreleased N (fl_tr f x) ub = (t, r) /\ fl_tr f' x = pt_set_donated t false) /\
    0 <= r /\ fl_unmapped f' = fl_unmapped f + r /\ fl_unaccounted f' = fl_unaccounted f + r.
Proof.
  intros HN Ok Hx W. pose proof (fo_tk _ _ _ _ _ Ok x Hx) as K. pose proof (fo_unacc _ _ _ _ _ Ok) as U0.
  destruct (fl_remove_fields N sub f x) as (G1 & G2 & G3 & G4 & G5 & G6 & G7 & G8 & G9).
  destruct (pt_mark_subreleased N (fl_tr f x) ub) as [t c] eqn:E.
  pose proof (pr_mark N _ _ ub t c (tk_reach _ _ _ K) W E) as R'.
  destruct (pt_mark_ok N _ _ ub t c HN (pt_reach_ok N _ _ HN (tk_reach _ _ _ K)) W E) as (_ & Ef & Eb & Erc).
  assert (Hc : 0 <= c).
  { unfold pt_mark_subreleased in E. injection E as <- <-. rewrite count_bits_spec by (clear - HN; lia).
    apply zcount_bound. }
  assert (F : pt_dense t = pt_dense (fl_tr f x) /\ pt_was_released t = pt_was_released (fl_tr f x)) by (unfold pt_mark_subreleased in E; injection E as <- <-; auto).
  destruct F as (F1 & F2).
  destruct (more_released_ok N sub f own lv x t (fl_unaccounted f + c) HN Ok Hx R' Ef F1 F2 ltac:(clear - Erc Hc; lia) ltac:(clear - U0 Hc; lia)) as (M1 & M2 & M3 & M4 & M5).
  unfold handle_unbacked. set (fr := fl_remove N sub f x) in *. rewrite G1, E. 
  assert (Ecc : pt_rcount t - pt_rcount (fl_tr f x) = c) by (clear - Erc; lia). rewrite Ecc in *.
  assert (Ea : fl_unaccounted (set_unmapped (put_tracker fr x t) (fl_unmapped (put_tracker fr x t) + c)) + c = fl_unaccounted f + c) by (cbn; rewrite G6; reflexivity).
  rewrite Ea. eexists _, c. split; [reflexivity|]. split; [exact M1|]. split; [exact M2|].
  split; [intros y Hy; rewrite M3; apply upd_other; assumption|]. split; [exists t; split; [reflexivity|]; rewrite M3; apply upd_same|]. auto.
Qed.

Lemma collapse_ok N sub f own lv x : 0 < N -> fl_ok N sub f own lv -> In x own ->
  let f' := on_collapse_success N sub f x in
  fl_ok N sub f' own lv /\ same_pages f f' /\ (forall y, y <> x -> fl_tr f' y = fl_tr f y) /\ pt_rel (fl_tr f' x) = pt_rel (fl_tr f x) /\
  fl_unmapped f' = fl_unmapped f /\ fl_unaccounted f' = fl_unaccounted f.
Proof.
  intros HN Ok Hx. cbv zeta. unfold on_collapse_success. destruct (pt_unbroken (fl_tr f x)); [pose proof (same_pages_refl f); auto 8|].
  pose proof (fo_tk _ _ _ _ _ Ok x Hx) as K. pose proof (fo_unacc _ _ _ _ _ Ok) as U0.
  destruct (fl_remove_fields N sub f x) as (G1 & G2 & G3 & G4 & G5 & G6 & G7 & G8 & G9). rewrite G1.
  set (t := pt_set_unbroken (fl_tr f x) true).
  destruct (more_released_ok N sub f own lv x t (fl_unaccounted f) HN Ok Hx (pr_unbroken _ _ _ _ (tk_reach _ _ _ K)) eq_refl eq_refl eq_refl (Z.le_refl _) U0) as (M1 & M2 & M3 & M4 & M5).
  cbv zeta in *. set (fr := fl_remove N sub f x) in *.
  assert (Es : set_unaccounted (set_unmapped (put_tracker fr x t) (fl_unmapped (put_tracker fr x t) + (pt_rcount t - pt_rcount (fl_tr f x)))) (fl_unaccounted f) = put_tracker fr x t).
  { change (pt_rcount t) with (pt_rcount (fl_tr f x)). rewrite Z.sub_diag, Z.add_0_r, <- G6. reflexivity. }
  rewrite Es in *. split; [assumption|]. split; [assumption|]. split; [intros y Hy; rewrite M3; apply upd_other; assumption|].
  split; [rewrite M3, upd_same; reflexivity|]. split; [|assumption]. rewrite M4. change (pt_rcount t) with (pt_rcount (fl_tr f x)). lia.
Qed.

(** ** Releasing the candidates *)

Lemma g_was_clear d t : g_was d (pt_set_was_released t false) = 0.
Proof. reflexivity. Qed.
Lemma clear_was_ok N sub f own lv x : fl_ok N sub f own lv -> In x own -> pt_was_released (fl_tr f x) = true ->
  fl_ok N sub (clear_was_released f x (fl_tr f x)) own lv.
Proof.
  intros Ok Hx Hw. unfold clear_was_released. apply was_ok; [assumption|assumption|]. intros d. rewrite updb_at, g_was_clear. unfold g_was. rewrite Hw. cbn [andb].
  destruct (pt_dense (fl_tr f x)), d; cbn [Bool.eqb]; lia.
Qed.

Lemma release_candidates_ok N sub own lv os : 0 < N -> forall c f target, fl_ok N sub f own lv -> (forall x, In x c -> In x own) ->
  exists f' r, release_candidates N sub f c target os = Some (f', r) /\ fl_ok N sub f' own lv /\ same_pages f f' /\
    0 <= r /\ fl_unmapped f' = fl_unmapped f + r /\ fl_unaccounted f' = fl_unaccounted f /\
    (forall y, ~ In y c -> fl_tr f' y = fl_tr f y).
Proof.
  intros HN. induction c as [|x c IH]; intros f target Ok Hc; cbn [release_candidates].
  { exists f, 0. split; [reflexivity|]. repeat match goal with |- _ /\ _ => split end; auto; try lia. apply same_pages_refl. }
  destruct (Z.ltb_spec 0 target) as [Ht|Ht].
  2:{ exists f, 0. split; [reflexivity|]. repeat match goal with |- _ /\ _ => split end; auto; try lia. apply same_pages_refl. }
  destruct (release_tracker_ok N sub f own lv x (os x) HN Ok (Hc x (or_introl eq_refl))) as (f1 & r & t & E & Ok1 & S1 & _ & Et & Hr & _ & Eu & Ea).
  rewrite E. cbn [obind].
  set (f2 := if pt_was_released (fl_tr f1 x) && pt_released (fl_tr f1 x) then clear_was_released f1 x (fl_tr f1 x) else f1).
  assert (Ok2 : fl_ok N sub f2 own lv).
  { unfold f2. destruct (pt_was_released (fl_tr f1 x)) eqn:Ew; [|assumption]. destruct (pt_released (fl_tr f1 x)); [|assumption].
    apply clear_was_ok; [assumption|apply Hc; left; reflexivity|assumption]. }
  assert (S2 : same_pages f1 f2 /\ fl_unmapped f2 = fl_unmapped f1 /\ fl_unaccounted f2 = fl_unaccounted f1 /\ forall y, y <> x -> fl_tr f2 y = fl_tr f1 y).
  { unfold f2. pose proof (same_pages_refl f1). destruct (_ && _); [|auto]. split; [|split; [reflexivity|split; [reflexivity|]]; intros y Hy; cbn; apply upd_other; assumption].
    constructor; auto; intros y; cbn; unfold upd; destruct (Z.eqb_spec y x) as [->|]; try reflexivity; lia. }
  destruct S2 as (S2 & U2 & A2 & T2).
  destruct (IH f2 (target - r) Ok2 (fun y Hy => Hc y (or_intror Hy))) as (f' & r' & E' & Ok' & S' & Hr' & Eu' & Ea' & T').
  rewrite E'. cbn [obind]. exists f', (r + r'). split; [reflexivity|]. repeat match goal with |- _ /\ _ => split end; auto; try lia.
  - exact (same_pages_trans _ _ _ S1 (same_pages_trans _ _ _ S2 S')).
  - intros y Hy. cbn [In] in Hy. assert (y <> x) by (intros ->; tauto). rewrite T' by tauto. rewrite T2 by assumption. rewrite Et. apply upd_other. assumption.
Qed.
