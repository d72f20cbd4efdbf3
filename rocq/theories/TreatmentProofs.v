(** Lemmas about the treatment of hugepages. *)
From Coq Require Import Permutation.
From Verif Require Import Base Bitmap BitmapProofs BitmapProofs2 RangeTrackerProofs RangeTrackerProofs2 RangeTrackerProps HintedLists HintedListsProofs PageTracker PageTrackerProps Filler FillerProofs FillerProofs2 FillerProofs3 FillerProofs4 FillerProofs5 FillerProofs6 FillerProps Treatment.

Definition inb (x : Z) (l : list Z) : bool := existsb (Z.eqb x) l.
Lemma inb_In x l : inb x l = true <-> In x l.
Proof. unfold inb. rewrite existsb_exists. split; [intros (y & Hy & E); apply Z.eqb_eq in E; subst; assumption|intros H; exists x; split; [assumption|apply Z.eqb_refl]]. Qed.
Lemma inb_false x l : inb x l = false <-> ~ In x l.
Proof. rewrite <- inb_In. destruct (inb x l); split; congruence. Qed.
Lemma inb_app x l l' : inb x (l ++ l') = inb x l || inb x l'.
Proof. apply existsb_app. Qed.
Lemma inb_perm x l l' : Permutation l l' -> inb x l = inb x l'.
Proof.
  intros P. destruct (inb x l') eqn:E.
  - apply inb_In in E. apply inb_In. exact (Permutation_in _ (Permutation_sym P) E).
  - apply inb_false in E. apply inb_false. intros H. apply E. exact (Permutation_in _ P H).
Qed.
Lemma NoDup_app_not {A} (l l' : list A) x : NoDup (l ++ l') -> In x l -> ~ In x l'.
Proof. induction l as [|y l IH]; [intros _ []|]. cbn [app]. intros N [->|H]; inversion N as [|? ? N1 N2]; subst; [intros H'; apply N1; apply in_app_iff; auto|auto]. Qed.

(** ** The bits *)

Definition b2 (b : bool) : Z := if b then 2 else 0.
Definition b1 (b : bool) : Z := if b then 1 else 0.
Lemma set_collapse_bit a b : Z.lor (b1 a + b2 b) k_collapse = b1 a + 2.
Proof. destruct a, b; reflexivity. Qed.
Lemma clear_collapse_bit a b : Z.land (b1 a + b2 b) (255 - k_collapse) = b1 a.
Proof. destruct a, b; reflexivity. Qed.
Lemma set_sampled_bit a b : Z.lor (b1 a + b2 b) k_sampled = 1 + b2 b.
Proof. destruct a, b; reflexivity. Qed.
Lemma clear_sampled_bit a b : Z.land (b1 a + b2 b) (255 - k_sampled) = b2 b.
Proof. destruct a, b; reflexivity. Qed.
Lemma bits_nonzero a b : b1 a + b2 b <> 0 <-> a = true \/ b = true.
Proof. destruct a, b; cbn; intuition (try discriminate; try lia). Qed.

(** ** Choosing *)

Definition tkey (t : ptracker) : Z := 2 * pt_objects t + (if pt_dense t then 1 else 0).
Lemma compare_tkey a b : compare_for_treatment a b = (tkey b <? tkey a).
Proof.
  unfold compare_for_treatment, tkey.
  destruct (Z.ltb_spec (pt_objects b) (pt_objects a)), (Z.ltb_spec (pt_objects a) (pt_objects b)), (pt_dense a), (pt_dense b); cbn [negb]; symmetry; try (apply Z.ltb_lt; lia); apply Z.ltb_ge; lia.
Qed.

Record tsel_inv (tr : Z -> ptracker) (a d : list Z) : Prop := {
  tsi_len : Z.of_nat (length a) <= k_scan;
  tsi_full : d <> [] -> k_scan <= Z.of_nat (length a);
  tsi_best : forall x y, In x a -> In y d -> tkey (tr y) <= tkey (tr x) }.

Lemma push_tracker_ok tr k a x k' a' d : push_tracker tr k a x k' a' -> tsel_inv tr a d ->
  exists d', Permutation (a ++ d ++ [x]) (a' ++ d') /\ tsel_inv tr a' d'.
Proof.
  intros H [L F B]. inversion H as [k0 c0 x0 Hlen|k0 c1 w c2 x0 Hlen Hw Hx|k0 c1 w c2 x0 Hlen Hw Hx]; subst.
  - exists d. split; [rewrite <- app_assoc; apply Permutation_app_head; apply Permutation_app_comm|].
    constructor; [rewrite app_length; cbn [length]; lia|intros Hd; specialize (F Hd); lia|]. intros y b Ha Hb. apply in_app_iff in Ha. destruct Ha as [Ha|[<-|[]]]; [auto|].
    destruct d; [destruct Hb|]. specialize (F ltac:(discriminate)). lia.
  - exists (d ++ [x]). split; [reflexivity|]. constructor; [assumption|intros _; assumption|]. intros y b Ha Hb. apply in_app_iff in Hb. destruct Hb as [Hb|[<-|[]]]; [auto|].
    specialize (Hw y Ha). rewrite compare_tkey in Hw, Hx. apply Z.ltb_ge in Hw. apply Z.ltb_lt in Hx. lia.
  - exists (d ++ [w]). rewrite app_length in L, F, Hlen. cbn [length] in L, F, Hlen. rewrite compare_tkey in Hx. apply Z.ltb_ge in Hx. split.
    + rewrite <- !app_assoc. apply Permutation_app_head. cbn [app].
      transitivity (w :: x :: c2 ++ d).
      * apply perm_skip. rewrite (Permutation_app_comm d). apply Permutation_sym. apply Permutation_cons_app. reflexivity.
      * rewrite perm_swap. apply perm_skip. rewrite app_assoc. apply Permutation_cons_append.
    + constructor; [rewrite app_length; cbn [length]; lia|intros _; rewrite app_length; cbn [length]; lia|].
      assert (HK : forall y, In y (c1 ++ x :: c2) -> tkey (tr w) <= tkey (tr y)).
      { intros y Ha. apply in_app_iff in Ha. cbn [In] in Ha. destruct Ha as [Ha|[<-|Ha]]; [|assumption|];
          (assert (Hin : In y (c1 ++ w :: c2)) by (apply in_app_iff; cbn [In]; auto); specialize (Hw y Hin); rewrite compare_tkey in Hw; apply Z.ltb_ge in Hw; exact Hw). }
      intros y b Ha Hb. specialize (HK y Ha). apply in_app_iff in Hb. destruct Hb as [Hb|[<-|[]]]; [|assumption].
      specialize (B w b ltac:(apply in_app_iff; cbn [In]; auto) Hb). lia.
Qed.

Lemma push_tracker_bits tr k a x k' a' (g : Z -> bool) y : push_tracker tr k a x k' a' -> NoDup (a ++ [x]) ->
  k y = b1 (g y) + b2 (inb y a) -> k' y = b1 (g y) + b2 (inb y a').
Proof.
  intros H N Hk. inversion H as [k0 c0 x0 Hlen|k0 c1 w c2 x0 Hlen Hw Hx|k0 c1 w c2 x0 Hlen Hw Hx]; subst; [|auto|].
  - unfold keep_set, upd. rewrite inb_app. cbn [inb existsb]. destruct (Z.eqb_spec y x) as [->|Hy].
    + rewrite Hk, set_collapse_bit, Bool.orb_true_r. reflexivity.
    + rewrite Hk. cbn [orb]. rewrite Bool.orb_false_r. reflexivity.
  - assert (Hwx : w <> x).
    { intros ->. apply (NoDup_app_not _ _ x N); [apply in_app_iff; cbn [In]; auto|left; reflexivity]. }
    assert (Nw : ~ In w (c1 ++ c2)).
    { apply NoDup_app_l in N. apply NoDup_remove_2 in N. assumption. }
    assert (Nx : ~ In x (c1 ++ w :: c2)).
    { intros Hi. apply (NoDup_app_not _ _ x N Hi). left. reflexivity. }
    pose proof Hk as Hy. rewrite inb_app in Hy. change (inb y (w :: c2)) with ((y =? w) || inb y c2) in Hy.
    rewrite inb_app. change (inb y (x :: c2)) with ((y =? x) || inb y c2).
    unfold keep_clear. destruct (Z.eq_dec y w) as [E|Hyw].
    + subst w. rewrite upd_same. unfold keep_set. rewrite (upd_other _ _ _ _ Hwx), Hy, clear_collapse_bit. rewrite (proj2 (Z.eqb_neq y x) Hwx). cbn [orb].
      assert (E : inb y c1 || inb y c2 = false) by (rewrite <- inb_app; apply inb_false; assumption). rewrite E. cbn [b2]. lia.
    + rewrite (upd_other _ _ _ _ Hyw). unfold keep_set. destruct (Z.eq_dec y x) as [E|Hyx].
      * subst y. rewrite upd_same. rewrite Hk, set_collapse_bit, Z.eqb_refl. cbn [orb]. rewrite Bool.orb_true_r. reflexivity.
      * rewrite (upd_other _ _ _ _ Hyx), Hy, (proj2 (Z.eqb_neq y w) Hyw), (proj2 (Z.eqb_neq y x) Hyx). reflexivity.
Qed.

Lemma push_tracker_NoDup tr k a x k' a' : push_tracker tr k a x k' a' -> NoDup (a ++ [x]) -> NoDup a'.
Proof.
  intros H N. inversion H as [k0 c0 x0 Hlen|k0 c1 w c2 x0 Hlen Hw Hx|k0 c1 w c2 x0 Hlen Hw Hx]; subst; [assumption|exact (NoDup_app_l _ _ N)|].
  apply (Permutation_NoDup (Permutation_middle c1 c2 x)). constructor.
  - intros Hi. apply (NoDup_app_not _ _ x N); [|left; reflexivity]. apply in_app_iff in Hi. apply in_app_iff. cbn [In]. tauto.
  - apply NoDup_app_l in N. exact (NoDup_remove_1 _ _ _ N).
Qed.

Lemma push_tracker_In tr k a x k' a' : push_tracker tr k a x k' a' -> forall y, In y a' -> In y a \/ y = x.
Proof.
  intros H y Hy. inversion H; subst; [|auto|].
  - apply in_app_iff in Hy. destruct Hy as [Hy|[Hy|[]]]; auto.
  - apply in_app_iff in Hy. cbn [In] in Hy. rewrite in_app_iff. cbn [In]. intuition.
Qed.

Lemma select_trackers_ok c now tr info k a l k' a' : select_trackers c now tr info k a l k' a' -> forall d, tsel_inv tr a d ->
  exists d', Permutation (a ++ d ++ filter (fun x => tr_eligible c now (info x)) l) (a' ++ d') /\ tsel_inv tr a' d'.
Proof.
  induction 1 as [k a|k a x l k' a' Hc Hs IH|k a x l k1 a1 k' a' Hc Hp Hs IH]; intros d Hd; cbn [filter].
  - exists d. rewrite app_nil_r. split; [reflexivity|assumption].
  - rewrite Hc. apply IH. assumption.
  - rewrite Hc. destruct (push_tracker_ok tr k a x k1 a1 d Hp Hd) as (d1 & P1 & I1). destruct (IH d1 I1) as (d' & P & I).
    exists d'. split; [|assumption]. rewrite <- P, app_assoc. rewrite app_assoc, <- P1. rewrite <- !app_assoc. reflexivity.
Qed.

Lemma select_trackers_bits c now tr info (g : Z -> bool) z k a l k' a' : select_trackers c now tr info k a l k' a' -> NoDup (a ++ l) ->
  k z = b1 (g z) + b2 (inb z a) -> k' z = b1 (g z) + b2 (inb z a').
Proof.
  induction 1 as [k a|k a x l k' a' Hc Hs IH|k a x l k1 a1 k' a' Hc Hp Hs IH]; intros N Hk; [assumption| |].
  - apply IH; [|assumption]. exact (NoDup_remove_1 _ _ _ N).
  - assert (Na : NoDup a) by exact (NoDup_app_l _ _ N).
    assert (Nx : ~ In x a) by (intros Hi; apply (NoDup_app_not _ _ x N Hi); left; reflexivity).
    assert (Nax : NoDup (a ++ [x])).
    { apply SpanProofs2.NoDup_app_intro; [assumption|constructor; [intros []|constructor]|]. intros y Hy [<-|[]]. contradiction. }
    apply IH.
    + assert (Hsub : forall y, In y a1 -> In y a \/ y = x) by exact (push_tracker_In _ _ _ _ _ _ Hp).
      apply SpanProofs2.NoDup_app_intro.
      * exact (push_tracker_NoDup _ _ _ _ _ _ Hp Nax).
      * apply NoDup_app_r in N. inversion N; assumption.
      * intros y Hy Hl. destruct (Hsub y Hy) as [Hy'| ->]; [apply (NoDup_app_not _ _ y N Hy'); right; assumption|]. apply NoDup_app_r in N. inversion N; contradiction.
    + exact (push_tracker_bits tr k a x k1 a1 g z Hp Nax Hk).
Qed.

Lemma select_sampled_ok c now : forall l k info a k' info' a', select_sampled c now k info a l = (k', info', a') -> NoDup (a ++ l) -> Z.of_nat (length a) <= k_scan ->
  NoDup a' /\ Z.of_nat (length a') <= k_scan /\
  (forall x, In x a' <-> In x a \/ (In x l /\ In x a')) /\
  (forall x, In x l -> In x a' -> ti_sampled (info x) = true /\ tc_interval c < Z.max (now - ti_tagged (info x)) 0) /\
  (forall x, In x l -> ti_sampled (info x) = true -> tc_interval c < Z.max (now - ti_tagged (info x)) 0 -> In x a' \/ Z.of_nat (length a') = k_scan) /\
  (forall x b, k x = b1 (inb x a) + b2 b -> k' x = b1 (inb x a') + b2 b) /\
  (forall x, ~ In x l -> info' x = info x) /\
  (forall x, ti_backed (info' x) = ti_backed (info x) /\ ti_valid (info' x) = ti_valid (info x) /\ ti_time (info' x) = ti_time (info x) /\ ti_sampled (info' x) = ti_sampled (info x) /\
     ti_tagged (info' x) = if inb x a' && negb (inb x a) then now else ti_tagged (info x)).
Proof.
  induction l as [|x l IH]; intros k info a k' info' a' E N L; cbn [select_sampled] in E.
  - injection E as <- <- <-. rewrite app_nil_r in N. repeat match goal with |- _ /\ _ => split end; auto; try (intros; contradiction).
    + intros; tauto.
    + intros x. repeat split. destruct (inb x a); reflexivity.
  - assert (Nl : NoDup (a ++ l)) by exact (NoDup_remove_1 _ _ _ N). assert (Nx : ~ In x (a ++ l)) by exact (NoDup_remove_2 _ _ _ N). rewrite in_app_iff in Nx.
    assert (Skip : forall k1 i1 a1, select_sampled c now k info a l = (k1, i1, a1) -> (In x a1 -> False)).
    { intros k1 i1 a1 E1 Hx. destruct (IH _ _ _ _ _ _ E1 Nl L) as (_ & _ & H & _). apply H in Hx. tauto. }
    destruct (Z.leb_spec k_scan (Z.of_nat (length a))) as [Hf|Hf]; [|destruct (ti_sampled (info x)) eqn:Es; cbn [negb] in E; [destruct (Z.ltb_spec (tc_interval c) (Z.max (now - ti_tagged (info x)) 0)) as [Ht|Ht]|]].
    + destruct (IH _ _ _ _ _ _ E Nl L) as (A1 & A2 & A3 & A4 & A5 & A6 & A7 & A8). pose proof (Skip _ _ _ E) as Sk.
      split; [assumption|]. split; [assumption|]. split; [intros y; specialize (A3 y); cbn [In]; tauto|].
      split; [intros y [<-|Hy] Ha; [contradiction|auto]|]. split; [intros y [<-|Hy] H1 H2; [|auto]|].
      { right. assert (Hsub : (length a <= length a')%nat) by (apply NoDup_incl_length; [exact (NoDup_app_l _ _ N)|intros y Hy; apply A3; auto]). lia. }
      split; [assumption|]. split; [intros y Hy; apply A7; cbn [In] in Hy; tauto|assumption].
    + assert (Nax : NoDup ((a ++ [x]) ++ l)) by (rewrite <- app_assoc; exact N).
      assert (La : Z.of_nat (length (a ++ [x])) <= k_scan) by (rewrite app_length; cbn [length]; lia).
      destruct (IH _ _ _ _ _ _ E Nax La) as (A1 & A2 & A3 & A4 & A5 & A6 & A7 & A8).
      assert (Hx' : In x a') by (apply A3; left; apply in_app_iff; cbn [In]; auto).
      split; [assumption|]. split; [assumption|]. split.
      { intros y. specialize (A3 y). rewrite in_app_iff in A3. cbn [In] in *. split; [|intros [H|(_ & H)]; [apply A3; auto|assumption]].
        intros H. apply A3 in H as H'. destruct H' as [[H'|[<-|[]]]|(H' & _)]; auto. }
      split; [intros y [<-|Hy] Ha; [auto|]|].
      { assert (y <> x) by (intros ->; tauto). specialize (A4 y Hy Ha). rewrite upd_other in A4 by assumption. assumption. }
      split; [intros y [<-|Hy] H1 H2; [auto|]|].
      { assert (y <> x) by (intros ->; tauto). apply A5; [assumption| |]; rewrite upd_other by assumption; assumption. }
      split.
      { intros y b Hk. apply A6. unfold keep_set. destruct (Z.eq_dec y x) as [->|Hy].
        - rewrite upd_same, Hk, set_sampled_bit, inb_app. cbn [inb existsb]. rewrite Z.eqb_refl, Bool.orb_true_r. reflexivity.
        - rewrite upd_other by assumption. rewrite Hk, inb_app. cbn [inb existsb]. rewrite (proj2 (Z.eqb_neq y x) Hy). cbn [orb]. rewrite Bool.orb_false_r. reflexivity. }
      split; [intros y Hy; cbn [In] in Hy; rewrite A7 by tauto; apply upd_other; intros ->; tauto|].
      intros y. specialize (A8 y). rewrite inb_app in A8. change (inb y [x]) with ((y =? x) || false) in A8. rewrite Bool.orb_false_r in A8. destruct (Z.eq_dec y x) as [->|Hy].
      * rewrite upd_same in A8. rewrite Z.eqb_refl, Bool.orb_true_r in A8. cbn [negb ti_backed ti_valid ti_time ti_sampled ti_tagged] in A8. rewrite Bool.andb_false_r in A8.
        rewrite (proj2 (inb_In x a') Hx'), (proj2 (inb_false x a) ltac:(tauto)). cbn [andb negb]. rewrite Es. exact A8.
      * rewrite upd_other in A8 by assumption. rewrite (proj2 (Z.eqb_neq y x) Hy), Bool.orb_false_r in A8. exact A8.
    + destruct (IH _ _ _ _ _ _ E Nl L) as (A1 & A2 & A3 & A4 & A5 & A6 & A7 & A8). pose proof (Skip _ _ _ E) as Sk.
      split; [assumption|]. split; [assumption|]. split; [intros y; specialize (A3 y); cbn [In]; tauto|].
      split; [intros y [<-|Hy] Ha; [contradiction|auto]|]. split; [intros y [<-|Hy] H1 H2; [lia|auto]|].
      split; [assumption|]. split; [intros y Hy; apply A7; cbn [In] in Hy; tauto|assumption].
    + destruct (IH _ _ _ _ _ _ E Nl L) as (A1 & A2 & A3 & A4 & A5 & A6 & A7 & A8). pose proof (Skip _ _ _ E) as Sk.
      split; [assumption|]. split; [assumption|]. split; [intros y; specialize (A3 y); cbn [In]; tauto|].
      split; [intros y [<-|Hy] Ha; [contradiction|auto]|]. split; [intros y [<-|Hy] H1 H2; [congruence|auto]|].
      split; [assumption|]. split; [intros y Hy; apply A7; cbn [In] in Hy; tauto|assumption].
Qed.

(** ** What is visited *)

Lemma obind_some {A B} (a : A) (k : A -> option B) : obind (Some a) k = k a. Proof. reflexivity. Qed.

Lemma visited_sampled_ok N sub f own lv : 1 < N -> fl_ok N sub f own lv ->
  exists l, visited_sampled N f = Some l /\ NoDup l /\ forall x, In x l <-> In x own /\ pt_donated (fl_tr f x) = false.
Proof.
  intros HN Ok. pose proof (fo_lists _ _ _ _ _ Ok) as HL. pose proof (lk_range _ _ _ _ _ _ _ HL) as Rg. unfold visited_sampled.
  destruct (iter_from_ok N sub f own (LPart false) 0 HL) as (a & -> & Na & Ha); [cbn [nlists]; unfold k_chunks; lia|].
  destruct (iter_from_ok N sub f own (LPart true) 0 HL) as (b & -> & Nb & Hb); [cbn [nlists]; unfold k_chunks; lia|].
  destruct (iter_from_ok N sub f own (LReg true) 0 HL) as (d & -> & Nd & Hd); [cbn [nlists]; unfold k_chunks; lia|].
  destruct (iter_from_ok N sub f own (LReg false) 0 HL) as (e & -> & Ne & He); [cbn [nlists]; unfold k_chunks; lia|].
  destruct (iter_from_ok N sub f own (LRel false) 0 HL) as (g & -> & Ng & Hg); [cbn [nlists]; unfold k_chunks; lia|].
  destruct (iter_from_ok N sub f own (LRel true) 0 HL) as (h & -> & Nh & Hh); [cbn [nlists]; unfold k_chunks; lia|].
  rewrite !obind_some. eexists. split; [reflexivity|].
  assert (Dis : forall k k' l l', k <> k' -> (forall x, In x l <-> In x own /\ kind N sub (fl_tr f x) = k /\ 0 <= pidx N (fl_tr f x)) ->
                 (forall x, In x l' <-> In x own /\ kind N sub (fl_tr f x) = k' /\ 0 <= pidx N (fl_tr f x)) -> forall x, In x l -> In x l' -> False).
  { intros k k' l l' Hk H H' x H1 H2. apply H in H1. apply H' in H2. destruct H1 as (_ & E1 & _), H2 as (_ & E2 & _). congruence. }
  split.
  - repeat (apply SpanProofs2.NoDup_app_intro; [assumption| |intros x Hx Hy; repeat (apply in_app_iff in Hy; destruct Hy as [Hy|Hy]);
      match goal with H1 : forall x, In x ?l <-> _, H2 : forall x, In x ?l' <-> _, I1 : In x ?l, I2 : In x ?l' |- _ => tryif constr_eq l l' then fail else refine (Dis _ _ _ _ _ H1 H2 x I1 I2); discriminate end]).
    assumption.
  - intros x. rewrite !in_app_iff, Ha, Hb, Hd, He, Hg, Hh. split.
    + intros H. split; [tauto|]. destruct (pt_donated (fl_tr f x)) eqn:Ed; [|reflexivity]. exfalso. unfold kind in H. rewrite Ed in H. intuition discriminate.
    + intros (Hx & Ed). pose proof (Rg x Hx) as Hr. destruct (kind N sub (fl_tr f x)) as [[]| |[]|[]] eqn:Ek; try tauto; try (intuition lia).
      exfalso. unfold kind in Ek. rewrite Ed in Ek. repeat match type of Ek with (if ?b then _ else _) = _ => destruct b end; discriminate.
Qed.

Lemma visited_unbacked_ok N sub sub' f own lv : 1 < N -> fl_ok N sub f own lv ->
  exists l, visited_unbacked N sub' f = Some l /\ NoDup l /\ forall x, In x l <-> In x own /\ (sub' = true \/ forall d, kind N sub (fl_tr f x) <> LRel d).
Proof.
  intros HN Ok. pose proof (fo_lists _ _ _ _ _ Ok) as HL. pose proof (lk_range _ _ _ _ _ _ _ HL) as Rg. unfold visited_unbacked.
  destruct (iter_from_ok N sub f own (LPart false) 0 HL) as (a & -> & Na & Ha); [cbn [nlists]; unfold k_chunks; lia|].
  destruct (iter_from_ok N sub f own (LPart true) 0 HL) as (b & -> & Nb & Hb); [cbn [nlists]; unfold k_chunks; lia|].
  destruct (iter_from_ok N sub f own LDon 0 HL) as (c & -> & Nc & Hc); [cbn [nlists]; unfold k_chunks; lia|].
  destruct (iter_from_ok N sub f own (LReg true) 0 HL) as (d & -> & Nd & Hd); [cbn [nlists]; unfold k_chunks; lia|].
  destruct (iter_from_ok N sub f own (LReg false) 0 HL) as (e & -> & Ne & He); [cbn [nlists]; unfold k_chunks; lia|].
  destruct (iter_from_ok N sub f own (LRel false) 0 HL) as (g & -> & Ng & Hg); [cbn [nlists]; unfold k_chunks; lia|].
  destruct (iter_from_ok N sub f own (LRel true) 0 HL) as (h & -> & Nh & Hh); [cbn [nlists]; unfold k_chunks; lia|].
  rewrite !obind_some.
  assert (Dis : forall k k' l l', k <> k' -> (forall x, In x l <-> In x own /\ kind N sub (fl_tr f x) = k /\ 0 <= pidx N (fl_tr f x)) ->
                 (forall x, In x l' <-> In x own /\ kind N sub (fl_tr f x) = k' /\ 0 <= pidx N (fl_tr f x)) -> forall x, In x l -> In x l' -> False).
  { intros k k' l l' Hk H H' x H1 H2. apply H in H1. apply H' in H2. destruct H1 as (_ & E1 & _), H2 as (_ & E2 & _). congruence. }
  destruct sub'; (eexists; split; [reflexivity|]; split;
    [repeat (apply SpanProofs2.NoDup_app_intro; [assumption| |intros x Hx Hy; repeat (apply in_app_iff in Hy; destruct Hy as [Hy|Hy]);
      match goal with H1 : forall x, In x ?l <-> _, H2 : forall x, In x ?l' <-> _, I1 : In x ?l, I2 : In x ?l' |- _ => tryif constr_eq l l' then fail else refine (Dis _ _ _ _ _ H1 H2 x I1 I2); discriminate end]);
     assumption|]).
  - intros x. rewrite !in_app_iff, Ha, Hb, Hc, Hd, He, Hg, Hh. split; [tauto|]. intros (Hx & _). pose proof (Rg x Hx) as Hr. destruct (kind N sub (fl_tr f x)) as [[]| |[]|[]]; intuition lia.
  - intros x. rewrite !in_app_iff, Ha, Hb, Hc, Hd, He. split.
    + intros H. split; [tauto|]. right. intros d' E. rewrite E in H. intuition discriminate.
    + intros (Hx & [H|H]); [discriminate|]. pose proof (Rg x Hx) as Hr. destruct (kind N sub (fl_tr f x)) as [[]| |[]|[]] eqn:Ek; try (intuition lia); exfalso; exact (H _ eq_refl).
Qed.

(** ** What the other threads leave alone *)

Lemma reach_keep N sub f own lv k : fl_reach N sub f own lv -> fl_reach N sub (set_keep f k) own lv.
Proof. intros H. apply (fr_flags N sub f own lv k (fl_collapsing f)) in H. destruct f. exact H. Qed.
Lemma reach_coll N sub f own lv k : fl_reach N sub f own lv -> fl_reach N sub (set_collapsing f k) own lv.
Proof. intros H. apply (fr_flags N sub f own lv (fl_keep f) k) in H. destruct f. exact H. Qed.

Lemma others_rcount N sub f f' own lv lv' x : 0 < N -> fl_ok N sub f own lv -> fl_ok N sub f' own lv' -> In x own ->
  (forall y, y <> x -> fl_tr f' y = fl_tr f y) -> fl_unmapped f' <= fl_unmapped f -> pt_rcount (fl_tr f' x) <= pt_rcount (fl_tr f x).
Proof.
  intros HN Ok Ok' Hx Ht Hu. rewrite (fo_unmapped _ _ _ _ _ Ok), (fo_unmapped _ _ _ _ _ Ok') in Hu.
  rewrite (tsum_take pt_rcount (fl_tr f) x own Hx), (tsum_take pt_rcount (fl_tr f') x own Hx) in Hu.
  rewrite (tsum_ext pt_rcount (fl_tr f') (fl_tr f)) in Hu; [lia|].
  intros y Hy. apply (rem1_In_iff x y own (fo_own _ _ _ _ _ Ok)) in Hy. rewrite Ht by tauto. reflexivity.
Qed.

Lemma put_rcount N sub f x i n o os f' r : fl_put N sub f x i n o os = Some (f', r) -> pt_rcount (fl_tr f' x) = pt_rcount (fl_tr f x).
Proof.
  unfold fl_put. destruct (fl_remove_fields N sub f x) as (G1 & _). set (fr := fl_remove N sub f x) in *. clearbody fr. rewrite G1.
  destruct (pt_put N (fl_tr f x) i n o) as [t|] eqn:E; [|discriminate]. rewrite obind_some.
  assert (Et : pt_rcount t = pt_rcount (fl_tr f x)).
  { unfold pt_put in E. destruct (unmark _ _ _ _); [|discriminate]. rewrite obind_some in E. injection E as <-. reflexivity. }
  assert (Add : forall g, pt_rcount (fl_tr g x) = pt_rcount t -> pt_rcount (fl_tr (fl_add N sub g x) x) = pt_rcount t).
  { intros g Hg. destruct (Z.eq_dec (pt_longest (fl_tr g x)) N) as [El|El].
    - unfold fl_add. rewrite El, Z.eqb_refl. exact Hg.
    - destruct (fl_add_fields N sub g x El) as (A & _). rewrite A, upd_same. exact Hg. }
  assert (H0 : forall g, fl_tr g = fl_tr (put_tracker fr x t) -> pt_rcount (fl_tr g x) = pt_rcount t) by (intros g ->; cbn; rewrite upd_same; reflexivity).
  rewrite <- Et. destruct (pt_longest t =? N).
  - assert (H1 : forall g : filler, pt_rcount (fl_tr g x) = pt_rcount t ->
      pt_rcount (fl_tr (if pt_was_released t then clear_was_released g x t else g) x) = pt_rcount t).
    { intros g Hg. destruct (pt_was_released t); [|assumption]. cbn. rewrite upd_same. reflexivity. }
    match goal with |- context [if pt_was_released t then clear_was_released ?g x t else ?g] => set (g2 := g) end.
    assert (H2 : pt_rcount (fl_tr g2 x) = pt_rcount t).
    { apply H0. unfold g2, unback_rest. destruct (pt_released t); [|reflexivity]. destruct (_ && _); reflexivity. }
    specialize (H1 g2 H2). set (g3 := if pt_was_released t then _ else _) in *. clearbody g3. destruct (fl_keep g3 x =? 0); intros Q; injection Q as <- <-; auto.
  - intros Q. injection Q as <- <-. apply Add. apply H0. reflexivity.
Qed.
