(** Lemmas about the treatment of hugepages: recording, and the invariant. *)
From Coq Require Import Permutation.
From Verif Require Import Base Bitmap BitmapProofs BitmapProofs2 RangeTrackerProofs RangeTrackerProofs2 RangeTrackerProps HintedLists HintedListsProofs PageTracker PageTrackerProps Filler FillerProofs FillerProofs2 FillerProofs3 FillerProofs4 FillerProofs5 FillerProofs6 FillerProps Treatment TreatmentProofs.

Definition same_collapse (s s' : tstats) : Prop :=
  st_eligible s' = st_eligible s /\ st_attempted s' = st_attempted s /\ st_succeeded s' = st_succeeded s /\ st_errors s' = st_errors s /\
  st_total_unbacked s' = st_total_unbacked s /\ st_time s' = st_time s /\ st_max s' = st_max s /\ st_skipped s' = st_skipped s.

Definition any_swapped (N M : Z) (e : entry) : bool := negb (is_zero N (e_bits N M e (o_swapped (e_obs e)) false)).
Definition any_stale (N M : Z) (e : entry) : bool := negb (is_zero N (e_bits N M e (o_stale (e_obs e)) false)).
Definition trigger (N M : Z) (c : tconf) (e : entry) : bool := any_swapped N M e || (tc_stale c && any_stale N M e).

Lemma e_bits_wf N M e w all : 1 < N -> 0 < M -> M mod N = 0 \/ N mod M = 0 -> wf N (e_bits N M e w all).
Proof.
  intros HN HM Hd. unfold e_bits. destruct (e_looked e).
  - exact (proj1 (scale_spec M N w M all ltac:(lia) ltac:(lia) Hd)).
  - apply clear_all_wf. 
Qed.

Record restored (N M : Z) (c : tconf) (os : Z -> Z -> Z -> bool) (own : list Z) (lv : Z -> list (Z * Z * Z)) (e : entry) (f : filler) (info : Z -> tinfo) (s : tstats) (f' : filler) (info' : Z -> tinfo) (s' : tstats) : Prop := {
  rs_reach : fl_reach N (tc_sub c) f' own lv;
  rs_freed : fl_freed f' = fl_freed f;
  rs_keep : fl_keep f' = keep_clear (fl_keep f) (e_x e) k_collapse;
  rs_coll : forall y, fl_collapsing f y = false -> fl_collapsing f' y = false;
  rs_other : forall y, y <> e_x e -> fl_tr f' y = fl_tr f y /\ info' y = info y;
  rs_gone : In (e_x e) (fl_freed f) -> fl_tr f' (e_x e) = fl_tr f (e_x e) /\ s' = s;
  rs_same : same_collapse s s';
  rs_unmapped : fl_unmapped f' - fl_unmapped f = (st_subreleased s' - st_subreleased s) + (st_stale s' - st_stale s) + (st_unbacked s' - st_unbacked s);
  rs_unaccounted : fl_unaccounted f' - fl_unaccounted f = fl_unmapped f' - fl_unmapped f;
  rs_sub : st_subreleased s <= st_subreleased s' /\ (st_subreleased s' <> st_subreleased s -> e_backed e = false /\ any_swapped N M e = true);
  rs_stale : st_stale s <= st_stale s' /\ (st_stale s' <> st_stale s -> e_backed e = false /\ tc_stale c = true /\ any_swapped N M e = false /\ any_stale N M e = true);
  rs_unb : st_unbacked s <= st_unbacked s' /\ (st_unbacked s' <> st_unbacked s -> e_backed e = false /\ tc_sub c = true);
  rs_info : In (e_x e) own -> info' (e_x e) = TInfo (e_backed e) true (e_time e) (ti_sampled (info (e_x e))) (ti_tagged (info (e_x e)));
  rs_backed : In (e_x e) own -> e_backed e = true -> (forall j, released_page (fl_tr f' (e_x e)) j = released_page (fl_tr f (e_x e)) j) /\ (tc_sub c = true -> pt_unbroken (fl_tr f' (e_x e)) = true);
  rs_only : In (e_x e) own -> e_backed e = false -> forall j, 0 <= j < N -> released_page (fl_tr f' (e_x e)) j = true ->
    released_page (fl_tr f (e_x e)) j = true \/ ~ is_live (lv (e_x e)) j /\ (trigger N M c e = true \/ tc_sub c = true /\ bit (e_bits N M e (o_unbacked (e_obs e)) true) j = true);
  rs_mono : In (e_x e) own -> forall j, 0 <= j < N -> released_page (fl_tr f (e_x e)) j = true -> released_page (fl_tr f' (e_x e)) j = true;
  rs_mark : In (e_x e) own -> e_backed e = false -> tc_sub c = true -> forall j, 0 <= j < N -> ~ is_live (lv (e_x e)) j -> bit (e_bits N M e (o_unbacked (e_obs e)) true) j = true ->
    released_page (fl_tr f' (e_x e)) j = true;
  rs_all : In (e_x e) own -> e_backed e = false -> trigger N M c e = true -> (forall i n, os (e_x e) i n = true) -> forall j, 0 <= j < N -> ~ is_live (lv (e_x e)) j ->
    released_page (fl_tr f' (e_x e)) j = true }.

Lemma own_not_full N sub f own lv x : 1 < N -> fl_ok N sub f own lv -> In x own -> pt_fully_freed N (fl_tr f x) = false.
Proof.
  intros HN Ok Hx. destruct (tk_bounds N _ _ ltac:(lia) (fo_tk _ _ _ _ _ Ok x Hx)) as (B & _). unfold pt_fully_freed. apply Z.eqb_neq. lia.
Qed.
Lemma freed_full N sub f own lv x : 1 < N -> fl_ok N sub f own lv -> In x (fl_freed f) -> pt_fully_freed N (fl_tr f x) = true.
Proof.
  intros HN Ok Hx. destruct (fo_freed _ _ _ _ _ Ok x Hx) as (_ & R). destruct (hugepage_runs N _ _ ltac:(lia) R) as (_ & _ & _ & _ & _ & _ & _ & _ & _ & H). apply H. reflexivity.
Qed.

(** The part of Restore that hands back free pages. *)
Definition free_part (N : Z) (c : tconf) (os : Z -> Z -> bool) (f : filler) (s : tstats) (x : Z) (sw st : bool) : option (filler * tstats) :=
  if sw then let? (f, r) := handle_release_free N (tc_sub c) f x os in Some (f, if 0 <? r then add_sub s r else s)
  else if tc_stale c && st then let? (f, r) := handle_release_free N (tc_sub c) f x os in Some (f, if 0 <? r then add_stale s r else s)
  else Some (f, s).

Lemma free_part_ok N c os f own lv s x sw st : 1 < N -> fl_reach N (tc_sub c) f own lv -> In x own ->
  exists f' s', free_part N c os f s x sw st = Some (f', s') /\ fl_reach N (tc_sub c) f' own lv /\
    fl_freed f' = fl_freed f /\ fl_keep f' = fl_keep f /\ fl_collapsing f' = fl_collapsing f /\
    (forall y, y <> x -> fl_tr f' y = fl_tr f y) /\ same_collapse s s' /\ st_unbacked s' = st_unbacked s /\
    fl_unmapped f' - fl_unmapped f = (st_subreleased s' - st_subreleased s) + (st_stale s' - st_stale s) /\
    fl_unaccounted f' - fl_unaccounted f = fl_unmapped f' - fl_unmapped f /\
    (st_subreleased s <= st_subreleased s' /\ (st_subreleased s' <> st_subreleased s -> sw = true)) /\
    (st_stale s <= st_stale s' /\ (st_stale s' <> st_stale s -> tc_stale c = true /\ sw = false /\ st = true)) /\
    (forall j, 0 <= j < N -> released_page (fl_tr f' x) j = true -> released_page (fl_tr f x) j = true \/ ~ is_live (lv x) j /\ (sw || (tc_stale c && st)) = true) /\
    (forall j, 0 <= j < N -> released_page (fl_tr f x) j = true -> released_page (fl_tr f' x) j = true) /\
    ((sw || (tc_stale c && st)) = true -> (forall i n, os i n = true) -> forall j, 0 <= j < N -> ~ is_live (lv x) j -> released_page (fl_tr f' x) j = true).
Proof.
  intros HN R Hx. assert (HN0 : 0 < N) by lia. pose proof (fl_reach_ok N _ f own lv HN R) as Ok.
  assert (Q : exists f' r, handle_release_free N (tc_sub c) f x os = Some (f', r) /\ fl_reach N (tc_sub c) f' own lv /\ same_pages f f' /\
    (forall y, y <> x -> fl_tr f' y = fl_tr f y) /\ 0 <= r /\ fl_unmapped f' = fl_unmapped f + r /\ fl_unaccounted f' = fl_unaccounted f + r /\
    (forall j, 0 <= j < N -> released_page (fl_tr f' x) j = true -> released_page (fl_tr f x) j = true \/ ~ is_live (lv x) j) /\
    (forall j, 0 <= j < N -> released_page (fl_tr f x) j = true -> released_page (fl_tr f' x) j = true) /\
    ((forall i n, os i n = true) -> forall j, 0 <= j < N -> ~ is_live (lv x) j -> released_page (fl_tr f' x) j = true)).
  { destruct (handle_release_free_ok N (tc_sub c) f own lv x os HN0 Ok Hx) as (f' & r & E & _ & Sp & Et & (t & calls & Ep & Ex) & Hr & Eu & Ea).
    exists f', r. split; [assumption|]. split; [exact (fr_release_free N _ f own lv x os f' r R Hx E)|]. split; [assumption|]. split; [assumption|]. split; [assumption|]. split; [assumption|]. split; [assumption|].
    pose proof (tk_reach _ _ _ (fo_tk _ _ _ _ _ Ok x Hx)) as Rt. rewrite Ex. change (released_page (pt_set_donated t false)) with (released_page t).
    destruct (release_free_exact N _ _ os HN0 Rt) as (t1 & c1 & l1 & E1 & _ & _ & _ & B3 & B4 & _). rewrite Ep in E1. injection E1 as <- <- <-.
    split; [|split].
    - intros j Hj H. apply (B4 j Hj) in H. destruct H as [H|(q & Hq & _ & Hin)]; [auto|]. right. apply (B3 j Hj). eauto.
    - intros j Hj H. apply (B4 j Hj). auto.
    - intros Ho j Hj Nl. apply (release_free_all N _ _ os t r calls HN0 Rt Ho Ep); assumption. }
  destruct Q as (f' & r & E & R' & [S1 S2 S3 S4 S5 S6 S7 S8] & Et & Hr & Eu & Ea & B1 & B2 & B3). unfold free_part.
  destruct sw; [|destruct (tc_stale c) eqn:Es; [destruct st|]]; cbn [andb orb].
  - rewrite E. cbn [obind]. eexists f', _. split; [reflexivity|]. split; [assumption|]. split; [assumption|]. split; [assumption|]. split; [assumption|]. split; [assumption|].
    destruct (Z.ltb_spec 0 r) as [Hp|Hp]; cbn [add_sub st_subreleased st_unbacked st_stale]; (split; [repeat split|]); (split; [reflexivity|]); (split; [lia|]); (split; [lia|]); (split; [split; [lia|auto]|]); (split; [split; [lia|intros; lia]|]); (split; [|split; auto]); intros j Hj H; destruct (B1 j Hj H); auto.
  - rewrite E. cbn [obind]. eexists f', _. split; [reflexivity|]. split; [assumption|]. split; [assumption|]. split; [assumption|]. split; [assumption|]. split; [assumption|].
    destruct (Z.ltb_spec 0 r) as [Hp|Hp]; cbn [add_stale st_subreleased st_unbacked st_stale]; (split; [repeat split|]); (split; [reflexivity|]); (split; [lia|]); (split; [lia|]); (split; [split; [lia|intros; lia]|]); (split; [split; [lia|auto]|]); (split; [|split; auto]); intros j Hj H; destruct (B1 j Hj H); auto.
  - exists f, s. unfold same_collapse. repeat match goal with |- _ /\ _ => split end; auto; try lia; try reflexivity; try (intros; discriminate); intros; solve [congruence|lia].
  - exists f, s. unfold same_collapse. repeat match goal with |- _ /\ _ => split end; auto; try lia; try reflexivity; try (intros; discriminate); intros; solve [congruence|lia].
Qed.

Lemma restore_one_ok N M c os f own lv info s e : 1 < N -> 0 < M -> M mod N = 0 \/ N mod M = 0 -> fl_reach N (tc_sub c) f own lv ->
  In (e_x e) own \/ In (e_x e) (fl_freed f) ->
  exists f' info' s', restore_one N M c os f info s e = Some (f', info', s') /\ restored N M c os own lv e f info s f' info' s'.
Proof.
  intros HN HM Hdiv R Hin. assert (HN0 : 0 < N) by lia. pose proof (fl_reach_ok N _ f own lv HN R) as Ok.
  set (x := e_x e) in *. unfold restore_one. fold x. set (f1 := set_keep f (keep_clear (fl_keep f) x k_collapse)).
  assert (R1 : fl_reach N (tc_sub c) f1 own lv) by (apply reach_keep; assumption).
  change (fl_tr f1) with (fl_tr f). destruct Hin as [Hx|Hx].
  2:{ rewrite (freed_full N _ f own lv x HN Ok Hx). exists f1, info, s. split; [reflexivity|].
      assert (Nx : ~ In x own) by exact (proj1 (fo_freed _ _ _ _ _ Ok x Hx)).
      constructor; fold x; try (intros; contradiction); try reflexivity; auto; try (cbn; lia); try (split; [lia|intros; lia]). repeat split. }
  rewrite (own_not_full N _ f own lv x HN Ok Hx).
  assert (Nf : ~ In x (fl_freed f)) by (intros H; exact (proj1 (fo_freed _ _ _ _ _ Ok x H) Hx)).
  set (f2 := set_collapsing f1 (upd (fl_collapsing f1) x false)).
  set (i2 := upd info x (TInfo (e_backed e) true (e_time e) (ti_sampled (info x)) (ti_tagged (info x)))).
  assert (R2 : fl_reach N (tc_sub c) f2 own lv) by (apply reach_coll; assumption).
  assert (I2 : forall y, y <> x -> i2 y = info y) by (intros y Hy; apply upd_other; assumption).
  assert (Ix : i2 x = TInfo (e_backed e) true (e_time e) (ti_sampled (info x)) (ti_tagged (info x))) by apply upd_same.
  assert (C2 : forall y, fl_collapsing f y = false -> fl_collapsing f2 y = false).
  { intros y Hy. cbn. unfold upd. destruct (y =? x); [reflexivity|assumption]. }
  destruct (e_backed e) eqn:Eb.
  - exists (if tc_sub c then on_collapse_success N (tc_sub c) f2 x else f2), i2, s. split; [reflexivity|].
    destruct (tc_sub c) eqn:Esub.
    + pose proof (fl_reach_ok N _ f2 own lv HN R2) as Ok2. destruct (collapse_ok N true f2 own lv x HN0 Ok2 Hx) as (_ & [S1 S2 S3 S4 S5 S6 S7 S8] & Et & Er & Eu & Ea).
      assert (Hub : pt_unbroken (fl_tr (on_collapse_success N true f2 x) x) = true).
      { unfold on_collapse_success. destruct (pt_unbroken (fl_tr f2 x)) eqn:E; [assumption|].
        destruct (fl_remove_fields N true f2 x) as (G1 & _). rewrite G1. set (g := put_tracker _ x _).
        assert (El : pt_longest (fl_tr g x) <> N).
        { unfold g. cbn. rewrite upd_same. pose proof (own_not_full N _ f own lv x HN Ok Hx) as Q. unfold pt_fully_freed in Q. apply Z.eqb_neq in Q. exact Q. }
        destruct (fl_add_fields N true g x El) as (A & _). rewrite A, upd_same. unfold g. cbn. rewrite upd_same. reflexivity. }
      constructor; fold x; rewrite ?Eb, ?Esub; try (intros; discriminate); try (intros; contradiction).
      * apply fr_collapse; assumption.
      * rewrite S4. reflexivity.
      * rewrite S7. reflexivity.
      * rewrite S8. exact C2.
      * intros y Hy. rewrite (Et y Hy). auto.
      * repeat split.
      * rewrite Eu. cbn. lia.
      * rewrite Eu, Ea. cbn. lia.
      * split; [lia|intros; lia].
      * split; [lia|intros; lia].
      * split; [lia|intros; lia].
      * intros _. exact Ix.
      * intros _ _. split; [|auto]. intros j. unfold released_page. rewrite Er. reflexivity.
      * intros _ j _. unfold released_page. rewrite Er. auto.
    + constructor; fold x; rewrite ?Eb, ?Esub; try (intros; discriminate); try (intros; contradiction); try reflexivity; auto; try (cbn; lia); try (split; [lia|intros; lia]).
      * repeat split.
      * intros _ _. split; [reflexivity|discriminate].
  - change (negb (is_zero N (e_bits N M e (o_swapped (e_obs e)) false))) with (any_swapped N M e).
    change (negb (is_zero N (e_bits N M e (o_stale (e_obs e)) false))) with (any_stale N M e).
    destruct (free_part_ok N c (os x) f2 own lv s x (any_swapped N M e) (any_stale N M e) HN R2 Hx) as (f3 & s3 & E3 & R3 & Fr & Kp & Cl & Ot & Sc & Sb & Su & Sa & P1 & P2 & Q1 & Q2 & Q3).
    unfold free_part in E3. rewrite E3. cbn [obind]. clear E3. fold (trigger N M c e) in Q1, Q3.
    change (released_page (fl_tr f2 x)) with (released_page (fl_tr f x)) in *. change (fl_unmapped f2) with (fl_unmapped f) in *. change (fl_unaccounted f2) with (fl_unaccounted f) in *.
    destruct (tc_sub c) eqn:Esub.
    + set (ub := e_bits N M e (o_unbacked (e_obs e)) true). assert (W : wf N ub) by (apply e_bits_wf; assumption).
      pose proof (fl_reach_ok N _ f3 own lv HN R3) as Ok3.
      destruct (handle_unbacked_ok N true f3 own lv x ub HN0 Ok3 Hx W) as (f4 & r & E4 & _ & [S1 S2 S3 S4 S5 S6 S7 S8] & Et & (t & Ep & Ex) & Hr & Eu & Ea).
      rewrite E4. eexists f4, i2, _. split; [reflexivity|].
      destruct (mark_subreleased_exact N _ _ ub t r HN0 (tk_reach _ _ _ (fo_tk _ _ _ _ _ Ok3 x Hx)) W Ep) as (B & _ & _ & _).
      assert (B' : forall j, 0 <= j < N -> released_page (fl_tr f4 x) j = true <-> released_page (fl_tr f3 x) j = true \/ ~ is_live (lv x) j /\ bit ub j = true).
      { intros j Hj. rewrite Ex. change (released_page (pt_set_donated t false)) with (released_page t). apply B. assumption. }
      constructor; fold x; rewrite ?Eb, ?Esub; fold ub; try (intros; discriminate); try (intros; contradiction).
      * exact (fr_unbacked N true f3 own lv x ub f4 r R3 Hx W E4).
      * rewrite S4, Fr. reflexivity.
      * rewrite S7, Kp. reflexivity.
      * rewrite S8, Cl. exact C2.
      * intros y Hy. rewrite (Et y Hy), (Ot y Hy). auto.
      * destruct (0 <? r); exact Sc.
      * destruct (Z.ltb_spec 0 r); cbn [add_unbacked st_subreleased st_stale st_unbacked]; lia.
      * lia.
      * destruct (0 <? r); cbn [add_unbacked st_subreleased]; (split; [apply P1|intros H; split; [reflexivity|apply P1; assumption]]).
      * destruct (0 <? r); cbn [add_unbacked st_stale]; (split; [apply P2|intros H; split; [reflexivity|apply P2; assumption]]).
      * destruct (Z.ltb_spec 0 r); cbn [add_unbacked st_unbacked]; (split; [lia|auto]).
      * intros _. exact Ix.
      * intros _ _ j Hj H. apply (B' j Hj) in H. destruct H as [H|(H1 & H2)]; [|auto]. destruct (Q1 j Hj H) as [H'|(H1 & H2)]; auto.
      * intros _ j Hj H. apply (B' j Hj). left. auto.
      * intros _ _ _ j Hj H1 H2. apply (B' j Hj). auto.
      * intros _ _ Ht Ho j Hj Nl. apply (B' j Hj). left. auto.
    + exists f3, i2, s3. split; [reflexivity|].
      constructor; fold x; rewrite ?Eb, ?Esub; try (intros; discriminate); try (intros; contradiction).
      * assumption.
      * rewrite Fr. reflexivity.
      * rewrite Kp. reflexivity.
      * rewrite Cl. exact C2.
      * intros y Hy. rewrite (Ot y Hy). auto.
      * exact Sc.
      * lia.
      * lia.
      * split; [apply P1|intros H; split; [reflexivity|apply P1; assumption]].
      * split; [apply P2|intros H; split; [reflexivity|apply P2; assumption]].
      * split; [lia|intros; lia].
      * intros _. exact Ix.
      * intros _ _ j Hj H. destruct (Q1 j Hj H) as [H'|(H1 & H2)]; auto.
      * intros _ j Hj H. auto.
      * intros _ _ Ht Ho j Hj Nl. auto.
Qed.
