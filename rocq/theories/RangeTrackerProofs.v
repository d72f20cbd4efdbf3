(** Lemmas about RangeTracker. *)
From Verif Require Import Base Bitmap BitmapProofs.

(** The maximal free ranges of [b] at or after [idx], in order. *)
Fixpoint ranges_ok (N : Z) (b : words) (idx : Z) (rs : list (Z * Z)) : Prop :=
  match rs with
  | [] => forall j, idx <= j < N -> bit b j = true
  | (i, len) :: rs =>
    idx <= i /\ 0 < len /\ i + len <= N /\
    (forall j, idx <= j < i -> bit b j = true) /\
    (forall j, i <= j < i + len -> bit b j = false) /\
    (i + len < N -> bit b (i + len) = true) /\
    ranges_ok N b (i + len) rs
  end.

Definition fold_ranges {A} (f : A -> Z -> Z -> A) (rs : list (Z * Z)) (a : A) : A :=
  fold_left (fun a r => f a (fst r) (snd r)) rs a.

Lemma range_loop_spec {A} (f : A -> Z -> Z -> A) N b : wf N b ->
  forall fuel idx acc, 0 <= idx -> N - idx < Z.of_nat fuel -> (0 < fuel)%nat ->
  exists rs, ranges_ok N b idx rs /\ range_loop f fuel N b idx acc = Some (fold_ranges f rs acc).
Proof.
  intros Hwf. induction fuel as [|fuel IH]; intros idx acc Hi Hf Hf0; [lia|].
  cbn [range_loop].
  destruct (next_free_range_spec N b idx Hwf Hi) as [(-> & H)|(i & len & -> & A1 & A2 & A3 & A4 & A5 & A6)].
  - exists []. split; [exact H|reflexivity].
  - cbn [obind]. destruct (IH (i + len) (f acc i len)) as (rs & R1 & R2); [lia|lia|lia|].
    exists ((i, len) :: rs). split; [|exact R2].
    cbn [ranges_ok]. auto 10.
Qed.

Lemma ranges_in N b idx rs i len : ranges_ok N b idx rs -> In (i, len) rs ->
  idx <= i /\ 0 < len /\ i + len <= N /\ (forall j, i <= j < i + len -> bit b j = false).
Proof.
  revert idx. induction rs as [|(i0, l0) rs IH]; intros idx H Hin; [contradiction|].
  cbn [ranges_ok] in H. destruct H as (A1 & A2 & A3 & A4 & A5 & A6 & A7).
  destruct Hin as [E|Hin].
  - injection E as -> ->. auto.
  - destruct (IH (i0 + l0) A7 Hin) as (B1 & B2 & B3 & B4). split; [lia|auto].
Qed.

(** Every free run lies inside one of the ranges. *)
Lemma ranges_cover N b idx rs a l : ranges_ok N b idx rs ->
  idx <= a -> 0 < l -> a + l <= N -> (forall j, a <= j < a + l -> bit b j = false) ->
  exists i len, In (i, len) rs /\ i <= a /\ a + l <= i + len.
Proof.
  revert idx. induction rs as [|(i0, l0) rs IH]; intros idx H Ha Hl HN Hfree.
  - cbn in H. specialize (H a ltac:(lia)). rewrite Hfree in H by lia. discriminate.
  - cbn [ranges_ok] in H. destruct H as (A1 & A2 & A3 & A4 & A5 & A6 & A7).
    destruct (Z.lt_ge_cases a i0) as [Hlt|Hge].
    { specialize (A4 a ltac:(lia)). rewrite Hfree in A4 by lia. discriminate. }
    destruct (Z.lt_ge_cases a (i0 + l0)) as [Hin|Hout].
    + exists i0, l0. split; [left; reflexivity|]. split; [lia|].
      destruct (Z.le_gt_cases (a + l) (i0 + l0)); [assumption|].
      specialize (A6 ltac:(lia)). rewrite Hfree in A6 by lia. discriminate.
    + destruct (IH (i0 + l0) A7 Hout Hl HN Hfree) as (i & len & B1 & B2 & B3).
      exists i, len. split; [right; assumption|]. lia.
Qed.

(** Two different ranges in the list are separated. *)
Lemma ranges_disjoint N b rs1 rs2 : forall idx i len,
  ranges_ok N b idx (rs1 ++ (i, len) :: rs2) ->
  forall i' len', In (i', len') (rs1 ++ rs2) -> i' + len' <= i \/ i + len <= i'.
Proof.
  induction rs1 as [|(a, l) rs1 IH]; intros idx i len H i' len' Hin; cbn [app] in *.
  - cbn [ranges_ok] in H. destruct H as (A1 & A2 & A3 & A4 & A5 & A6 & A7). right.
    apply (ranges_in _ _ _ _ _ _ A7 Hin).
  - cbn [ranges_ok] in H. destruct H as (A1 & A2 & A3 & A4 & A5 & A6 & A7).
    destruct Hin as [E|Hin].
    + injection E as -> ->. left.
      apply (ranges_in _ _ _ _ i len A7). apply in_or_app. right. left. reflexivity.
    + apply (IH (a + l) i len A7 _ _ Hin).
Qed.

(** ** The longest free run *)

Definition free_run (N : Z) (b : words) (i l : Z) : Prop :=
  0 <= i /\ i + l <= N /\ forall j, i <= j < i + l -> bit b j = false.

Definition longest_is (N : Z) (b : words) (L : Z) : Prop :=
  0 <= L /\ (exists i, free_run N b i L) /\ (forall i l, free_run N b i l -> l <= L).

Definition lens (rs : list (Z * Z)) : list Z := map snd rs.

Lemma longest_of_ranges N b rs L : 0 <= N -> ranges_ok N b 0 rs ->
  0 <= L -> (L = 0 \/ In L (lens rs)) -> (forall x, In x (lens rs) -> x <= L) ->
  longest_is N b L.
Proof.
  intros HN Hok HL Hin Hmax. split; [assumption|]. split.
  - destruct Hin as [->|Hin].
    + exists 0. split; [lia|]. split; [lia|]. intros; lia.
    + apply in_map_iff in Hin. destruct Hin as ((i, len) & E & Hin). cbn in E. subst len.
      destruct (ranges_in _ _ _ _ _ _ Hok Hin) as (B1 & B2 & B3 & B4).
      exists i. split; [lia|]. split; [lia|assumption].
  - intros i l (A & B & C). destruct (Z.le_gt_cases l 0); [lia|].
    destruct (ranges_cover N b 0 rs i l Hok A ltac:(lia) B C) as (i' & len & Hin' & H1 & H2).
    specialize (Hmax len). assert (In len (lens rs)) by (apply in_map_iff; exists (i', len); auto).
    specialize (Hmax H0). lia.
Qed.

Lemma longest_unique N b L1 L2 : longest_is N b L1 -> longest_is N b L2 -> L1 = L2.
Proof.
  intros (_ & (i1 & H1) & M1) (_ & (i2 & H2) & M2).
  specialize (M1 _ _ H2). specialize (M2 _ _ H1). lia.
Qed.

(** ** FindAndMark's fold *)

Record fam_ok (n N : Z) (rs : list (Z * Z)) (a : fam) : Prop := {
  fo_pos : 0 <= f_second a <= f_longest a;
  fo_longest : forall x, In x (lens rs) -> x <= f_longest a;
  fo_longest_in : f_longest a = 0 \/ In (f_longest a) (lens rs);
  fo_second : forall r1 r r2, rs = r1 ++ r :: r2 -> snd r = f_longest a ->
     (forall x, In x (lens (r1 ++ r2)) -> x <= f_second a) /\
     (f_second a = 0 \/ In (f_second a) (lens (r1 ++ r2)));
  fo_best : (f_bindex a = N /\ f_blen a = 2 * N /\ forall x, In x (lens rs) -> x < n) \/
            (n <= f_blen a /\ In (f_bindex a, f_blen a) rs /\
             forall x, In x (lens rs) -> n <= x -> f_blen a <= x)
}.

Lemma lens_app r1 r2 : lens (r1 ++ r2) = lens r1 ++ lens r2.
Proof. apply map_app. Qed.

Lemma snoc_split {A} (l : list A) y r1 x r2 : l ++ [y] = r1 ++ x :: r2 ->
  (r2 = [] /\ x = y /\ r1 = l) \/ exists r2', r2 = r2' ++ [y] /\ l = r1 ++ x :: r2'.
Proof.
  intros H. destruct (exists_last (l := x :: r2)) as (q & z & E); [discriminate|].
  rewrite E in H. rewrite app_assoc in H. apply app_inj_tail in H. destruct H as (H1 & H2). subst z.
  destruct q as [|x' q].
  - cbn in E. injection E as -> ->. left. rewrite app_nil_r in H1. auto.
  - cbn in E. injection E as -> ->. right. exists q. auto.
Qed.

Lemma fam_fold_ok n N : 0 < n -> 0 <= N ->
  forall rs, (forall i l, In (i, l) rs -> 0 < l <= N /\ 0 <= i < N) ->
  fam_ok n N rs (fold_ranges (fam_body n) rs (Fam 0 0 N (2 * N))).
Proof.
  intros Hn HN rs. induction rs as [|y rs IH] using rev_ind; intros Hb.
  - constructor; cbn.
    + lia.
    + contradiction.
    + auto.
    + intros [|? ?]; discriminate.
    + left. split; [reflexivity|]. split; [reflexivity|]. contradiction.
  - assert (IH' := IH (fun i l H => Hb i l (in_or_app _ _ _ (or_introl H)))). clear IH.
    unfold fold_ranges in *. rewrite fold_left_app. cbn [fold_left].
    set (a := fold_left _ rs _) in *. clearbody a.
    destruct a as [L S bi bl]. destruct y as [yi yl]. cbn [fst snd].
    destruct IH' as [P1 P2 P3 P4 P5]. cbn [f_longest f_second f_bindex f_blen] in *.
    destruct (Hb yi yl) as (Hy1 & Hy2); [apply in_or_app; right; left; reflexivity|].
    unfold fam_body.
    assert (Hlens : forall x, In x (lens (rs ++ [(yi, yl)])) -> In x (lens rs) \/ x = yl).
    { intros x Hx. rewrite lens_app in Hx. apply in_app_or in Hx. destruct Hx as [Hx|[Hx|[]]]; auto. }
    assert (Hin : forall x, In x (lens rs) -> In x (lens (rs ++ [(yi, yl)]))).
    { intros x Hx. rewrite lens_app. apply in_or_app. auto. }
    assert (Hiny : In yl (lens (rs ++ [(yi, yl)]))).
    { rewrite lens_app. apply in_or_app. right. left. reflexivity. }
    assert (Hbest : forall L' S' bi' bl',
       (let '(bi', bl') := if (n <=? yl) && (yl <? bl) then (yi, yl) else (bi, bl) in
        Fam L' S' bi' bl') = Fam L' S' bi' bl' ->
       (bi' = N /\ bl' = 2 * N /\ (forall x, In x (lens (rs ++ [(yi, yl)])) -> x < n)) \/
       (n <= bl' /\ In (bi', bl') (rs ++ [(yi, yl)]) /\
        (forall x, In x (lens (rs ++ [(yi, yl)])) -> n <= x -> bl' <= x))).
    { intros L' S' bi' bl' E. destruct ((n <=? yl) && (yl <? bl)) eqn:Eb.
      - injection E as <- <-. right. split; [lia|]. split; [apply in_or_app; right; left; reflexivity|].
        intros x Hx Hnx. apply Hlens in Hx. destruct Hx as [Hx| ->]; [|lia].
        destruct P5 as [(-> & -> & P5)|(P5a & P5b & P5c)]; [specialize (P5 x Hx); lia|].
        specialize (P5c x Hx Hnx). lia.
      - injection E as <- <-. destruct P5 as [(-> & -> & P5)|(P5a & P5b & P5c)].
        + left. split; [reflexivity|]. split; [reflexivity|]. intros x Hx. apply Hlens in Hx.
          destruct Hx as [Hx| ->]; [apply P5; assumption|]. lia.
        + right. split; [assumption|]. split; [apply in_or_app; auto|].
          intros x Hx Hnx. apply Hlens in Hx. destruct Hx as [Hx| ->]; [apply P5c; assumption|]. lia. }
    destruct (if (n <=? yl) && (yl <? bl) then (yi, yl) else (bi, bl)) as [bi' bl'] eqn:Eb.
    destruct (Z.ltb_spec L yl) as [HL|HL].
    { (* new longest *)
      constructor; cbn [f_longest f_second f_bindex f_blen].
      - lia.
      - intros x Hx. apply Hlens in Hx. destruct Hx as [Hx| ->]; [specialize (P2 x Hx); lia|lia].
      - right. exact Hiny.
      - intros r1 r r2 E Er. apply snoc_split in E. destruct E as [(-> & -> & ->)|(r2' & -> & ->)].
        + rewrite app_nil_r. split; [exact P2|]. exact P3.
        + exfalso. assert (In (snd r) (lens (r1 ++ r :: r2'))).
          { apply in_map. apply in_or_app. right. left. reflexivity. }
          specialize (P2 _ H). lia.
      - apply (Hbest yl L). reflexivity. }
    destruct (Z.ltb_spec S yl) as [HS|HS].
    { constructor; cbn [f_longest f_second f_bindex f_blen].
      - lia.
      - intros x Hx. apply Hlens in Hx. destruct Hx as [Hx| ->]; [specialize (P2 x Hx); lia|lia].
      - destruct P3 as [P3|P3]; [left; assumption|right; auto].
      - intros r1 r r2 E Er. apply snoc_split in E. destruct E as [(-> & -> & ->)|(r2' & -> & Ers)].
        + rewrite app_nil_r. cbn in Er. subst yl. split; [exact P2|]. exact P3.
        + destruct (P4 r1 r r2' Ers Er) as (Q1 & Q2). rewrite app_assoc, lens_app. split.
          * intros x Hx. apply in_app_or in Hx. destruct Hx as [Hx|[<-|[]]]; [specialize (Q1 x Hx); lia|cbn; lia].
          * right. apply in_or_app. right. left. reflexivity.
      - apply (Hbest L yl). reflexivity. }
    { constructor; cbn [f_longest f_second f_bindex f_blen].
      - lia.
      - intros x Hx. apply Hlens in Hx. destruct Hx as [Hx| ->]; [specialize (P2 x Hx); lia|lia].
      - destruct P3 as [P3|P3]; [left; assumption|right; auto].
      - intros r1 r r2 E Er. apply snoc_split in E. destruct E as [(-> & -> & ->)|(r2' & -> & Ers)].
        + rewrite app_nil_r. cbn in Er. subst yl. split; [intros x Hx; specialize (P2 x Hx); lia|].
          assert (L = S) by lia. subst S. exact P3.
        + destruct (P4 r1 r r2' Ers Er) as (Q1 & Q2). rewrite app_assoc, lens_app. split.
          * intros x Hx. apply in_app_or in Hx. destruct Hx as [Hx|[<-|[]]]; [specialize (Q1 x Hx); lia|cbn; lia].
          * destruct Q2 as [Q2|Q2]; [left; assumption|right; apply in_or_app; auto].
      - apply (Hbest L S). reflexivity. }
Qed.

(** ** Tracker invariant *)

Record rt_ok (N : Z) (t : tracker) : Prop := {
  ro_wf : wf N (rt_bits t);
  ro_longest : longest_is N (rt_bits t) (rt_longest t);
  ro_used : rt_nused t = zcount (bit (rt_bits t)) 0 (Z.to_nat N)
}.

Lemma rt_init_ok N : 0 <= N -> rt_ok N (rt_init N).
Proof.
  intros HN. constructor; cbn.
  - apply clear_all_wf.
  - split; [assumption|]. split.
    + exists 0. split; [lia|]. split; [lia|]. intros; apply bit_clear_all.
    + intros i l (A & B & _). lia.
  - symmetry. apply zcount_none. intros; apply bit_clear_all.
Qed.

Lemma set_range_bits N b i n j : 0 <= i -> 0 < n -> i + n <= N ->
  bit (set_range N b i n) j = in_range i n j || bit b j.
Proof.
  intros. unfold set_range. rewrite set_range_value_spec by assumption.
  destruct (in_range i n j); reflexivity.
Qed.

Lemma clear_range_bits N b i n j : 0 <= i -> 0 < n -> i + n <= N ->
  bit (clear_range N b i n) j = negb (in_range i n j) && bit b j.
Proof.
  intros. unfold clear_range. rewrite set_range_value_spec by assumption.
  destruct (in_range i n j); reflexivity.
Qed.

Lemma used_after_set N b i n : 0 <= i -> 0 < n -> i + n <= N ->
  (forall j, i <= j < i + n -> bit b j = false) ->
  zcount (bit (set_range N b i n)) 0 (Z.to_nat N) = zcount (bit b) 0 (Z.to_nat N) + n.
Proof.
  intros Hi Hn HN Hfree.
  pose proof (zcount_change (bit (set_range N b i n)) (bit b) 0 N i n ltac:(lia) ltac:(lia) ltac:(lia)) as H.
  rewrite (zcount_all (bit (set_range N b i n)) (Z.to_nat n) i) in H.
  2:{ intros j Hj. rewrite set_range_bits by assumption. unfold in_range.
      replace ((i <=? j) && (j <? i + n)) with true by lia. reflexivity. }
  rewrite (zcount_none (bit b) (Z.to_nat n) i) in H by (intros; apply Hfree; lia).
  specialize (H ltac:(intros j Hj; rewrite set_range_bits by assumption; unfold in_range;
     replace ((i <=? j) && (j <? i + n)) with false by lia; reflexivity)). lia.
Qed.

Lemma used_after_clear N b i n : 0 <= i -> 0 < n -> i + n <= N ->
  (forall j, i <= j < i + n -> bit b j = true) ->
  zcount (bit (clear_range N b i n)) 0 (Z.to_nat N) = zcount (bit b) 0 (Z.to_nat N) - n.
Proof.
  intros Hi Hn HN Hset.
  pose proof (zcount_change (bit (clear_range N b i n)) (bit b) 0 N i n ltac:(lia) ltac:(lia) ltac:(lia)) as H.
  rewrite (zcount_none (bit (clear_range N b i n)) (Z.to_nat n) i) in H.
  2:{ intros j Hj. rewrite clear_range_bits by assumption. unfold in_range.
      replace ((i <=? j) && (j <? i + n)) with true by lia. reflexivity. }
  rewrite (zcount_all (bit b) (Z.to_nat n) i) in H by (intros; apply Hset; lia).
  specialize (H ltac:(intros j Hj; rewrite clear_range_bits by assumption; unfold in_range;
     replace ((i <=? j) && (j <? i + n)) with false by lia; reflexivity)). lia.
Qed.

Lemma ranges_bounds N b rs : ranges_ok N b 0 rs ->
  forall i l, In (i, l) rs -> 0 < l <= N /\ 0 <= i < N.
Proof. intros H i l Hin. destruct (ranges_in _ _ _ _ _ _ H Hin) as (A & B & C & _). lia. Qed.

(** FindAndMark succeeds exactly when the request is no longer than the longest
    free run, takes the prefix of a shortest sufficient maximal run, and keeps
    the counters exact. *)
Lemma find_and_mark_spec N t n : 0 <= N -> rt_ok N t -> 0 < n ->
  (n <= rt_longest t ->
   exists t' i, find_and_mark N t n = Some (t', i) /\ rt_ok N t' /\
     free_run N (rt_bits t) i n /\
     rt_bits t' = set_range N (rt_bits t) i n /\
     rt_nused t' = rt_nused t + n /\ rt_nallocs t' = rt_nallocs t + 1 /\
     (* best fit *)
     (exists len, n <= len /\ free_run N (rt_bits t) i len /\
        (0 < i -> bit (rt_bits t) (i - 1) = true) /\
        (i + len < N -> bit (rt_bits t) (i + len) = true) /\
        forall i' len', n <= len' -> free_run N (rt_bits t) i' len' ->
          (0 < i' -> bit (rt_bits t) (i' - 1) = true) ->
          (i' + len' < N -> bit (rt_bits t) (i' + len') = true) -> len <= len')) /\
  (rt_longest t < n -> find_and_mark N t n = None).
Proof.
  intros HN [Hwf Hlong Hused] Hn. set (b := rt_bits t) in *.
  unfold find_and_mark. fold b.
  destruct (range_loop_spec (fam_body n) N b Hwf (range_fuel N) 0 (Fam 0 0 N (2 * N)))
    as (rs & Hrs & ->); [lia|unfold range_fuel; lia|unfold range_fuel; lia|].
  cbn [obind].
  pose proof (fam_fold_ok n N Hn HN rs (ranges_bounds _ _ _ Hrs)) as Hfam.
  set (a := fold_ranges _ _ _) in *. clearbody a.
  destruct Hfam as [P1 P2 P3 P4 P5]. destruct a as [L S bi bl]. cbn [f_longest f_second f_bindex f_blen] in *.
  assert (HL : rt_longest t = L).
  { eapply longest_unique; [exact Hlong|]. apply (longest_of_ranges N b rs); try assumption. lia. }
  destruct P5 as [(-> & -> & P5)|(P5a & P5b & P5c)].
  - assert (L < n). { destruct P3 as [->|P3]; [lia|]. apply P5. assumption. }
    rewrite Z.ltb_irrefl. split; [lia|reflexivity].
  - destruct (ranges_in _ _ _ _ _ _ Hrs P5b) as (B1 & B2 & B3 & B4).
    assert (Hbl : bl <= L). { apply P2. apply in_map_iff. exists (bi, bl). auto. }
    split; [|lia]. intros _.
    replace (bi <? N) with true by lia.
    eexists. exists bi. split; [reflexivity|].
    assert (Hrun : free_run N b bi n) by (split; [lia|]; split; [lia|]; intros; apply B4; lia).
    (* maximality of ranges *)
    assert (Hmaxl : forall i l, In (i, l) rs -> (0 < i -> bit b (i - 1) = true) /\ (i + l < N -> bit b (i + l) = true)).
    { clear - Hrs. assert (G : forall rs idx, ranges_ok N b idx rs -> 0 <= idx ->
          (0 < idx -> idx < N -> bit b (idx - 1) = false -> bit b idx = true) ->
          (forall i l, In (i, l) rs -> (idx < i -> bit b (i - 1) = true) /\ (i + l < N -> bit b (i + l) = true)
               /\ (i = idx -> idx = 0 \/ bit b (idx - 1) = true))).
      { induction rs0 as [|(i0, l0) rs0 IH]; intros idx H H0 Hb i l Hin; [contradiction|].
        cbn [ranges_ok] in H. destruct H as (A1 & A2 & A3 & A4 & A5 & A6 & A7).
        destruct Hin as [E|Hin].
        - injection E as -> ->. split; [intros; apply A4; lia|]. split; [assumption|].
          intros ->. destruct (Z.eq_dec idx 0); [auto|]. right.
          destruct (bit b (idx - 1)) eqn:Eb; [reflexivity|].
          specialize (Hb ltac:(lia) ltac:(lia) eq_refl). rewrite A5 in Hb by lia. discriminate.
        - destruct (IH (i0 + l0) A7 ltac:(lia)) with (i := i) (l := l) as (C1 & C2 & C3).
          + intros; apply A6; lia.
          + assumption.
          + destruct (ranges_in _ _ _ _ _ _ A7 Hin) as (D1 & D2 & D3 & D4).
            assert (i <> i0 + l0). { intros ->. specialize (D4 (i0 + l0) ltac:(lia)).
              rewrite A6 in D4 by lia. discriminate. }
            split; [intros; apply C1; lia|]. split; [assumption|]. intros; lia. }
      intros i l Hin. destruct (G rs 0 Hrs ltac:(lia) ltac:(lia) i l Hin) as (C1 & C2 & _). auto. }
    split; [|split; [exact Hrun|]; split; [reflexivity|]; split; [reflexivity|]; split; [reflexivity|]].
    + constructor; cbn [rt_bits rt_longest rt_nused].
      * apply set_range_value_wf; try lia; assumption.
      * (* longest *)
        assert (Hbit : forall j, bit (set_range N b bi n) j = in_range bi n j || bit b j)
          by (intros; apply set_range_bits; lia).
        apply in_split in P5b. destruct P5b as (r1 & r2 & Ers).
        assert (Hdis := fun i' l' => ranges_disjoint N b r1 r2 0 bi bl ltac:(rewrite <- Ers; exact Hrs) i' l').
        assert (Hnew : forall i l, free_run N (set_range N b bi n) i l -> 0 < l ->
                  (bi + n <= i /\ i + l <= bi + bl) \/ (exists x, In x (lens (r1 ++ r2)) /\ l <= x)).
        { intros i l (F1 & F2 & F3) Hl.
          destruct (ranges_cover N b 0 rs i l Hrs F1 Hl F2) as (i' & l' & C1 & C2 & C3).
          { intros j Hj. specialize (F3 j Hj). rewrite Hbit in F3. apply orb_false_iff in F3. tauto. }
          rewrite Ers in C1. apply in_app_or in C1.
          assert (D : In (i', l') (r1 ++ r2) \/ (i', l') = (bi, bl)).
          { destruct C1 as [C1|[C1|C1]]; [left; apply in_or_app; auto|right; auto|left; apply in_or_app; auto]. }
          destruct D as [D|D].
          - right. exists l'. split; [apply in_map_iff; exists (i', l'); auto|lia].
          - injection D as -> ->. left. split; [|lia].
            destruct (Z.le_gt_cases (bi + n) i); [assumption|].
            specialize (F3 i ltac:(lia)). rewrite Hbit in F3. apply orb_false_iff in F3. destruct F3 as (F3 & _).
            unfold in_range in F3. lia. }
        assert (Hkeep : forall i l, In (i, l) (r1 ++ r2) -> free_run N (set_range N b bi n) i l).
        { intros i l Hin. assert (Hin' : In (i, l) rs).
          { rewrite Ers. apply in_app_or in Hin. apply in_or_app. destruct Hin; [auto|right; right; auto]. }
          destruct (ranges_in _ _ _ _ _ _ Hrs Hin') as (D1 & D2 & D3 & D4).
          split; [lia|]. split; [lia|]. intros j Hj. rewrite Hbit, D4 by assumption.
          specialize (Hdis i l Hin). unfold in_range. lia. }
        assert (Hrest : free_run N (set_range N b bi n) (bi + n) (bl - n)).
        { split; [lia|]. split; [lia|]. intros j Hj. rewrite Hbit, B4 by lia. unfold in_range. lia. }
        destruct (Z.eqb_spec bl L) as [EL|NL].
        -- destruct (P4 r1 (bi, bl) r2 Ers EL) as (Q1 & Q2).
           set (l' := if L - n <? S then S else L - n).
           assert (Hl' : l' = Z.max (L - n) S) by (subst l'; destruct (Z.ltb_spec (L - n) S); lia).
           rewrite Hl'. split; [lia|]. split.
           ++ destruct (Z.max_spec (L - n) S) as [(Hm & ->)|(Hm & ->)].
              ** destruct Q2 as [->|Q2]; [lia|].
                 apply in_map_iff in Q2. destruct Q2 as ((qi, ql) & Eq & Hq). cbn in Eq. subst ql.
                 exists qi. apply Hkeep. assumption.
              ** exists (bi + n). rewrite <- EL. exact Hrest.
           ++ intros i l Hr. destruct (Z.le_gt_cases l 0); [lia|].
              destruct (Hnew i l Hr ltac:(lia)) as [(E1 & E2)|(x & Hx & Hlx)]; [lia|].
              specialize (Q1 x Hx). lia.
        -- split; [lia|]. split.
           ++ destruct P3 as [->|P3]; [lia|].
              apply in_map_iff in P3. destruct P3 as ((qi, ql) & Eq & Hq). cbn in Eq. subst ql.
              exists qi. apply Hkeep. rewrite Ers in Hq. apply in_app_or in Hq. apply in_or_app.
              destruct Hq as [Hq|[Hq|Hq]]; [auto| |auto]. injection Hq as <- <-. contradiction.
           ++ intros i l Hr. destruct (Z.le_gt_cases l 0); [lia|].
              destruct (Hnew i l Hr ltac:(lia)) as [(E1 & E2)|(x & Hx & Hlx)]; [lia|].
              assert (In x (lens rs)).
              { rewrite Ers. rewrite lens_app in *. cbn. apply in_app_or in Hx. apply in_or_app. destruct Hx; [auto|right; right; auto]. }
              specialize (P2 x H0). lia.
      * rewrite Hused. symmetry. apply used_after_set; first [lia | apply Hrun].
    + exists bl. destruct (Hmaxl bi bl P5b) as (M1 & M2).
      split; [assumption|]. split; [split; [lia|]; split; [lia|assumption]|].
      split; [assumption|]. split; [assumption|].
      intros i' len' Hn' (F1 & F2 & F3) G1 G2.
      destruct (ranges_cover N b 0 rs i' len' Hrs F1 ltac:(lia) F2 F3) as (i2 & l2 & C1 & C2 & C3).
      destruct (ranges_in _ _ _ _ _ _ Hrs C1) as (D1 & D2 & D3 & D4).
      assert (i2 = i').
      { destruct (Z.eq_dec i2 i'); [assumption|]. rewrite D4 in G1 by lia. specialize (G1 ltac:(lia)). discriminate. }
      assert (len' = l2).
      { destruct (Z.eq_dec (i' + len') (i2 + l2)); [lia|]. rewrite D4 in G2 by lia. specialize (G2 ltac:(lia)). discriminate. }
      subst. apply P5c; [|assumption]. apply in_map_iff. exists (i', l2). auto.
Qed.

Lemma max_fold_spec rs : forall acc, 0 <= acc ->
  let L := fold_ranges (fun l _ len => if l <? len then len else l) rs acc in
  acc <= L /\ (forall x, In x (lens rs) -> x <= L) /\ (L = acc \/ In L (lens rs)).
Proof.
  induction rs as [|(i, l) rs IH]; intros acc Ha; cbn.
  - split; [lia|]. split; [contradiction|auto].
  - destruct (Z.ltb_spec acc l) as [H|H].
    + destruct (IH l ltac:(lia)) as (A & B & C). cbv zeta in *. unfold fold_ranges in *. cbn [fst snd] in *.
      split; [lia|]. split; [intros x [<-|Hx]; [lia|auto]|]. destruct C as [C|C]; auto.
    + destruct (IH acc Ha) as (A & B & C). cbv zeta in *. unfold fold_ranges in *. cbn [fst snd] in *.
      split; [lia|]. split; [intros x [<-|Hx]; [lia|auto]|]. destruct C as [C|C]; auto.
Qed.

Lemma mark_spec N t i n : 0 <= N -> rt_ok N t -> 0 < n -> free_run N (rt_bits t) i n ->
  exists t', mark N t i n = Some t' /\ rt_ok N t' /\
    rt_bits t' = set_range N (rt_bits t) i n /\
    rt_nused t' = rt_nused t + n /\ rt_nallocs t' = rt_nallocs t + 1.
Proof.
  intros HN [Hwf Hlong Hused] Hn (F1 & F2 & F3). unfold mark.
  assert (Hwf' : wf N (set_range N (rt_bits t) i n)) by (apply set_range_value_wf; try lia; assumption).
  destruct (range_loop_spec (fun l _ len => if l <? len then len else l) N _ Hwf' (range_fuel N) 0 0)
    as (rs & Hrs & ->); [lia|unfold range_fuel; lia|unfold range_fuel; lia|].
  cbn [obind]. eexists. split; [reflexivity|].
  destruct (max_fold_spec rs 0 ltac:(lia)) as (A & B & C). cbv zeta in *.
  split; [|auto]. constructor; cbn [rt_bits rt_longest rt_nused].
  - assumption.
  - apply (longest_of_ranges N _ rs); assumption.
  - rewrite Hused. symmetry. apply used_after_set; assumption.
Qed.

Lemma unmark_spec N t i n : 0 <= N -> rt_ok N t -> 0 < n -> 0 <= i -> i + n <= N ->
  (forall j, i <= j < i + n -> bit (rt_bits t) j = true) ->
  exists t', unmark N t i n = Some t' /\ rt_ok N t' /\
    rt_bits t' = clear_range N (rt_bits t) i n /\
    rt_nused t' = rt_nused t - n /\ rt_nallocs t' = rt_nallocs t - 1.
Proof.
  intros HN [Hwf Hlong Hused] Hn F1 F2 F3. unfold unmark, find_set, find_set_backwards.
  set (b' := clear_range N (rt_bits t) i n).
  assert (Hwf' : wf N b') by (apply set_range_value_wf; try lia; assumption).
  assert (Hbit : forall j, bit b' j = negb (in_range i n j) && bit (rt_bits t) j)
    by (intros; apply clear_range_bits; assumption).
  destruct (find_value_spec N true b' (i + n - 1) Hwf' ltac:(lia)) as (lim & -> & (A1 & A2 & A3)).
  pose proof (find_value_backwards_spec N true b' i Hwf' ltac:(lia)) as (B1 & B2 & B3).
  set (back := find_value_backwards true b' i) in *. clearbody back. unfold gbit in *.
  cbn [obind]. eexists. split; [reflexivity|]. split; [|auto].
  assert (Hfree : forall j, i <= j < i + n -> bit b' j = false).
  { intros j Hj. rewrite Hbit. unfold in_range. replace ((i <=? j) && (j <? i + n)) with true by lia. reflexivity. }
  assert (Hlim : i + n <= lim).
  { destruct (Z.le_gt_cases (i + n) lim); [assumption|].
    assert (lim = i + n - 1) by lia. specialize (A3 ltac:(lia)). rewrite Hfree in A3 by lia. discriminate. }
  assert (Hback : back < i).
  { destruct (Z.lt_ge_cases back i); [assumption|].
    assert (back = i) by lia. specialize (B3 ltac:(lia)). rewrite Hfree in B3 by lia. discriminate. }
  assert (Hrun : free_run N b' (back + 1) (lim - (back + 1))).
  { split; [lia|]. split; [lia|]. intros j Hj.
    destruct (Z.le_gt_cases j i); [apply B2; lia|].
    destruct (Z.lt_ge_cases j (i + n)); [apply Hfree; lia|apply A2; lia]. }
  destruct Hlong as (L0 & (il & Lr) & Lmax).
  constructor; cbn [rt_bits rt_longest rt_nused].
  - assumption.
  - set (n' := lim - (back + 1)) in *.
    assert (Hmax : (if rt_longest t <? n' then n' else rt_longest t) = Z.max (rt_longest t) n')
      by (destruct (Z.ltb_spec (rt_longest t) n'); lia).
    rewrite Hmax. split; [lia|]. split.
    + destruct (Z.max_spec (rt_longest t) n') as [(_ & ->)|(_ & ->)].
      * exists (back + 1). exact Hrun.
      * destruct Lr as (C1 & C2 & C3). exists il. split; [lia|]. split; [lia|].
        intros j Hj. rewrite Hbit, C3 by assumption. apply andb_false_r.
    + intros a l (C1 & C2 & C3).
      destruct (Z.le_gt_cases l 0); [lia|].
      destruct (Z.le_gt_cases (a + l) i) as [Hle|Hgt].
      * assert (l <= rt_longest t); [|lia]. apply (Lmax a). split; [lia|]. split; [lia|].
        intros j Hj. specialize (C3 j Hj). rewrite Hbit in C3. unfold in_range in C3.
        replace ((i <=? j) && (j <? i + n)) with false in C3 by lia. exact C3.
      * destruct (Z.le_gt_cases (i + n) a) as [Hge|Hlt].
        -- assert (l <= rt_longest t); [|lia]. apply (Lmax a). split; [lia|]. split; [lia|].
           intros j Hj. specialize (C3 j Hj). rewrite Hbit in C3. unfold in_range in C3.
           replace ((i <=? j) && (j <? i + n)) with false in C3 by lia. exact C3.
        -- (* overlaps the freed range: inside [back+1, lim) *)
           assert (back < a).
           { destruct (Z.lt_ge_cases back a); [assumption|]. specialize (C3 back ltac:(lia)).
             rewrite B3 in C3 by lia. discriminate. }
           assert (a + l <= lim).
           { destruct (Z.le_gt_cases (a + l) lim); [assumption|]. specialize (C3 lim ltac:(lia)).
             rewrite A3 in C3 by lia. discriminate. }
           subst n'. lia.
  - rewrite Hused. symmetry. apply used_after_clear; assumption.
Qed.
