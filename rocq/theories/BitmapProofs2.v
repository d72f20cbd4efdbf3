(** More lemmas about Bitmap<N>: lowest-bit operations, bitwise operators,
    copies and scaling. *)
From Coq Require Import Sorted.
From Verif Require Import Base Bitmap BitmapProofs.

(** ** Clearing the lowest set bit *)

Lemma land_pred w k : 0 <= k -> Z.testbit w k = true ->
  (forall i, 0 <= i < k -> Z.testbit w i = false) ->
  forall j, Z.testbit (Z.land w (w - 1)) j = Z.testbit w j && negb (j =? k).
Proof.
  intros Hk Hbit Hlow j. rewrite Z.land_spec.
  destruct (Z.lt_ge_cases j 0) as [Hj|Hj]. { rewrite !Z.testbit_neg_r by lia. reflexivity. }
  assert (Hm : w mod 2 ^ k = 0).
  { apply Z.bits_inj_0. intros n. destruct (Z.lt_ge_cases n 0); [apply Z.testbit_neg_r; lia|].
    destruct (Z.lt_ge_cases n k); [rewrite Z.mod_pow2_bits_low by lia; apply Hlow; lia|].
    apply Z.mod_pow2_bits_high. lia. }
  pose proof (Z.pow_pos_nonneg 2 k ltac:(lia) Hk) as Hp.
  assert (Hp1 : 2 ^ (k + 1) = 2 * 2 ^ k) by (rewrite Z.pow_add_r; lia).
  assert (Hq : Z.odd (w / 2 ^ k) = true).
  { rewrite <- Z.bit0_odd, Z.div_pow2_bits by lia. now replace (0 + k) with k by lia. }
  apply Z.odd_spec in Hq. destruct Hq as (m & Hq).
  assert (Hw : w = 2 ^ (k + 1) * m + 2 ^ k).
  { pose proof (Z.div_mod w (2 ^ k) ltac:(lia)) as E. rewrite Hm, Hq in E. rewrite Hp1. lia. }
  assert (Hw1 : w - 1 = 2 ^ (k + 1) * m + (2 ^ k - 1)) by lia.
  destruct (Z.lt_trichotomy j k) as [H|[->|H]].
  - rewrite Hlow by lia. reflexivity.
  - rewrite Z.eqb_refl. rewrite <- (Z.mod_pow2_bits_low (w - 1) (k + 1) k) by lia.
    
    replace ((w - 1) mod 2 ^ (k + 1)) with (2 ^ k - 1) by (apply Z.mod_unique_pos with m; lia).
    replace (2 ^ k - 1) with (Z.ones k) by (rewrite Z.ones_equiv; lia).
    rewrite Z.ones_spec_high by lia. cbn [negb]. now rewrite !andb_false_r.
  - replace (negb (j =? k)) with true by lia. rewrite andb_true_r.
    enough (E : Z.testbit (w - 1) j = Z.testbit w j) by (rewrite E; apply andb_diag).
    replace j with (j - (k + 1) + (k + 1)) by lia.
    rewrite <- !Z.div_pow2_bits by lia. f_equal.
    transitivity m.
    + symmetry. apply Z.div_unique_pos with (2 ^ k - 1); lia.
    + apply Z.div_unique_pos with (2 ^ k); lia.
Qed.

Lemma land_pred_range w : 0 <= w < 2^64 -> 0 <= Z.land w (w - 1) < 2^64.
Proof. apply land_range. Qed.

Lemma clear_lowest_loop_spec N b fuel : forall i,
  (forall k, 0 <= k < k_words N -> 0 <= b k < 2 ^ 64) ->
  0 <= i -> i + Z.of_nat fuel <= k_words N ->
  let b' := clear_lowest_loop fuel b i in
  (forall k, 0 <= k < k_words N -> 0 <= b' k < 2 ^ 64) /\
  exists r, first_from (bit b) (64 * i) (64 * (i + Z.of_nat fuel)) r /\
  forall j, bit b' j = bit b j && negb ((j =? r) && (r <? 64 * (i + Z.of_nat fuel))).
Proof.
  induction fuel as [|fuel IH]; intros i Hw Hi HN; cbn [clear_lowest_loop]; cbv zeta.
  - split; [assumption|]. exists (64 * i). split; [split; [lia|]; split; intros; lia|].
    intros j. replace (64 * i <? 64 * (i + Z.of_nat 0)) with false by lia.
    rewrite andb_false_r. now rewrite andb_true_r.
  - destruct (Z.eqb_spec (b i) 0) as [E|E]; cbn [negb].
    + destruct (IH (i + 1) Hw ltac:(lia) ltac:(lia)) as (R & r & (A1 & A2 & A3) & A4).
      split; [assumption|]. exists r. split.
      * split; [lia|]. split; [|intros; apply A3; lia]. intros j Hj.
        destruct (Z.lt_ge_cases j (64 * (i + 1))); [|apply A2; lia].
        replace j with (64 * i + (j - 64 * i)) by lia. rewrite bit_at by lia. rewrite E. apply Z.bits_0.
      * intros j. rewrite A4. do 4 f_equal; lia.
    + assert (Hwi := Hw i ltac:(lia)).
      destruct (countr_zero_spec (b i) Hwi E) as (C1 & C2 & C3). set (k := countr_zero (b i)) in *.
      split.
      * intros k' Hk'. unfold upd. destruct (Z.eqb_spec k' i); [apply land_range; assumption|auto].
      * exists (64 * i + k). split.
        -- split; [lia|]. split.
           ++ intros j Hj. replace j with (64 * i + (j - 64 * i)) by lia. rewrite bit_at by lia. apply C3. lia.
           ++ intros _. rewrite bit_at by lia. assumption.
        -- intros j. replace (64 * i + k <? 64 * (i + Z.of_nat (S fuel))) with true by lia.
           rewrite andb_true_r, bit_upd. destruct (div_mod_64 j) as (Hj & Hjm).
           destruct (Z.eqb_spec (j / 64) i) as [Hji|Hji].
           ++ rewrite (land_pred _ k) by (assumption || lia). unfold bit. rewrite Hji. do 2 f_equal. lia.
           ++ replace (j =? 64 * i + k) with false by lia. now rewrite andb_true_r.
Qed.

Lemma clear_lowest_spec N b : 0 <= N -> wf N b ->
  wf N (clear_lowest_bit N b) /\
  exists r, first_from (bit b) 0 N r /\
  forall j, bit (clear_lowest_bit N b) j = bit b j && negb ((j =? r) && (r <? N)).
Proof.
  intros HN (H1 & H2). pose proof (k_words_bounds N HN) as Hk. unfold clear_lowest_bit.
  destruct (clear_lowest_loop_spec N b (Z.to_nat (k_words N)) 0 H1) as (R & r & (A1 & A2 & A3) & A4); [lia|lia|].
  set (b' := clear_lowest_loop _ _ _) in *. clearbody b'.
  split.
  - split; [assumption|]. intros j Hj. rewrite A4, H2 by assumption. reflexivity.
  - replace (64 * (0 + Z.of_nat (Z.to_nat (k_words N)))) with (64 * k_words N) in * by lia.
    destruct (Z.lt_ge_cases r N) as [Hr|Hr].
    + exists r. split; [split; [lia|]; split; [intros; apply A2; lia|intros; apply A3; lia]|].
      intros j. rewrite A4. do 3 f_equal. lia.
    + exists N. split; [split; [lia|]; split; [intros; apply A2; lia|intros; lia]|].
      intros j. rewrite A4. rewrite Z.ltb_irrefl, andb_false_r.
      destruct (Z.ltb_spec r (64 * k_words N)) as [Hlt|]; [|now rewrite andb_false_r].
      specialize (A3 Hlt). rewrite H2 in A3 by lia. discriminate.
Qed.

(** ** PopBatch *)

Lemma zcount_remove P r i n : i <= r < i + Z.of_nat n -> P r = true ->
  zcount (fun j => P j && negb (j =? r)) i n = zcount P i n - 1.
Proof.
  revert i. induction n as [|n IH]; intros i Hr HP; [lia|]. cbn [zcount].
  destruct (Z.eqb_spec i r) as [->|Hne].
  - rewrite HP. cbn [negb andb]. rewrite (zcount_ext _ P); [lia|].
    intros j Hj. replace (j =? r) with false by lia. now rewrite andb_true_r.
  - rewrite IH by (assumption || lia). cbn [negb]. rewrite andb_true_r. lia.
Qed.

Lemma popcount_zero w : 0 <= w < 2^64 -> popcount w = 0 <-> w = 0.
Proof.
  intros Hw. unfold popcount. split.
  - intros H. apply word_zero; [assumption|]. intros j Hj.
    apply (zcount_zero_inv _ _ _ H). lia.
  - intros ->. apply zcount_none. intros; apply Z.bits_0.
Qed.

Definition zmem (x : Z) (l : list Z) : bool := existsb (Z.eqb x) l.
Lemma zmem_In x l : zmem x l = true <-> In x l.
Proof.
  unfold zmem. rewrite existsb_exists. split.
  - intros (y & Hy & E). apply Z.eqb_eq in E. now subst.
  - intros H. exists x. split; [assumption|apply Z.eqb_refl].
Qed.
Lemma zmem_app x l1 l2 : zmem x (l1 ++ l2) = zmem x l1 || zmem x l2.
Proof. apply existsb_app. Qed.

Lemma pop_word_spec base : forall fuel w limit l w',
  0 <= w < 2^64 -> popcount w <= Z.of_nat fuel ->
  pop_word fuel base w limit = (l, w') ->
  0 <= w' < 2^64 /\
  Z.of_nat (length l) = Z.min (Z.max 0 limit) (popcount w) /\
  (forall o, 0 <= o < 64 -> Z.testbit w' o = Z.testbit w o && negb (zmem (base + o) l)) /\
  (forall x, In x l -> 0 <= x - base < 64 /\ Z.testbit w (x - base) = true) /\
  StronglySorted Z.lt l /\
  (forall x o, In x l -> 0 <= o < 64 -> Z.testbit w' o = true -> x < base + o) /\
  (Z.of_nat (length l) < limit -> w' = 0).
Proof.
  assert (Base : forall w limit, 0 <= w < 2^64 -> (w = 0 \/ limit <= 0) ->
    0 <= w < 2^64 /\
    Z.of_nat (length (@nil Z)) = Z.min (Z.max 0 limit) (popcount w) /\
    (forall o, 0 <= o < 64 -> Z.testbit w o = Z.testbit w o && negb (zmem (base + o) [])) /\
    (forall x, In x [] -> 0 <= x - base < 64 /\ Z.testbit w (x - base) = true) /\
    StronglySorted Z.lt [] /\
    (forall x o, In x [] -> 0 <= o < 64 -> Z.testbit w o = true -> x < base + o) /\
    (Z.of_nat (length (@nil Z)) < limit -> w = 0)).
  { intros w limit Hw H. split; [assumption|]. split.
    - cbn [length]. pose proof (zcount_bound (Z.testbit w) 64 0). fold (popcount w) in *.
      destruct H as [->|H]; [|lia]. replace (popcount 0) with 0; [lia|].
      symmetry. apply popcount_zero; [lia|reflexivity].
    - split; [intros; cbn; now rewrite andb_true_r|]. split; [contradiction|].
      split; [constructor|]. split; [contradiction|]. cbn. intros. destruct H; [assumption|lia]. }
  induction fuel as [|fuel IH]; intros w limit l w' Hw Hpc E; cbn [pop_word] in E.
  - injection E as <- <-. apply Base; [assumption|]. left. apply popcount_zero; [assumption|].
    pose proof (zcount_bound (Z.testbit w) 64 0). fold (popcount w) in *. lia.
  - destruct (Z.eqb_spec w 0) as [E0|E0]; cbn [negb andb] in E.
    { injection E as <- <-. apply Base; auto. }
    destruct (Z.ltb_spec 0 limit) as [Hl|Hl]; cbn [andb] in E.
    2:{ injection E as <- <-. apply Base; auto. }
    destruct (countr_zero_spec w Hw E0) as (C1 & C2 & C3). set (k := countr_zero w) in *. clearbody k.
    destruct (pop_word fuel base (Z.land w (w - 1)) (limit - 1)) as [l1 w1] eqn:E1.
    injection E as <- <-.
    assert (Hland := land_pred w k ltac:(lia) C2 C3).
    assert (Hpop : popcount (Z.land w (w - 1)) = popcount w - 1).
    { unfold popcount. rewrite <- (zcount_remove (Z.testbit w) k 0 64) by (assumption || lia).
      apply zcount_ext. intros; apply Hland. }
    destruct (IH (Z.land w (w - 1)) (limit - 1) l1 w1 (land_range _ _ Hw) ltac:(lia) E1) as (A1 & A2 & A3 & A4 & A5 & A6 & A7).
    assert (Hgt : forall x, In x l1 -> base + k < x).
    { intros x Hx. destruct (A4 x Hx) as (B1 & B2). rewrite Hland in B2.
      apply andb_true_iff in B2. destruct B2 as (B2 & B3).
      destruct (Z.lt_ge_cases (base + k) x); [assumption|].
      rewrite C3 in B2 by lia. discriminate. }
    split; [assumption|]. split; [cbn [length]; lia|]. split; [|split; [|split; [|split]]].
    + intros o Ho. rewrite A3, Hland by assumption. unfold zmem. cbn [existsb].
      replace (base + o =? base + k) with (o =? k) by lia. rewrite negb_orb. now rewrite andb_assoc.
    + intros x [<-|Hx].
      * replace (base + k - base) with k by lia. auto.
      * destruct (A4 x Hx) as (B1 & B2). split; [assumption|]. rewrite Hland in B2.
        apply andb_true_iff in B2. tauto.
    + constructor; [assumption|]. apply Forall_forall. auto.
    + intros x o [<-|Hx] Ho Hbit; [|eauto].
      rewrite A3, Hland in Hbit by assumption.
      destruct (Z.lt_trichotomy o k) as [H|[->|H]]; [|exfalso|lia].
      * rewrite C3 in Hbit by lia. discriminate.
      * rewrite Z.eqb_refl in Hbit. cbn in Hbit. rewrite andb_false_r in Hbit. discriminate.
    + cbn [length]. intros Hlt. apply A7. lia.
Qed.

Lemma ssorted_app l1 l2 : StronglySorted Z.lt l1 -> StronglySorted Z.lt l2 ->
  (forall x y, In x l1 -> In y l2 -> x < y) -> StronglySorted Z.lt (l1 ++ l2).
Proof.
  intros H1 H2 H. induction H1 as [|a l1 Hs IH Ha]; cbn [app]; [assumption|].
  constructor.
  - apply IH. intros; apply H; [right|]; assumption.
  - apply Forall_forall. intros x Hx. apply in_app_or in Hx. destruct Hx as [Hx|Hx].
    + rewrite Forall_forall in Ha. auto.
    + apply H; [left; reflexivity|assumption].
Qed.

Lemma pop_batch_loop_spec N : forall fuel b i limit l b',
  (forall k, 0 <= k < k_words N -> 0 <= b k < 2 ^ 64) ->
  0 <= i -> i + Z.of_nat fuel <= k_words N ->
  pop_batch_loop fuel b i limit = (l, b') ->
  (forall k, 0 <= k < k_words N -> 0 <= b' k < 2 ^ 64) /\
  Z.of_nat (length l) = Z.min (Z.max 0 limit) (zcount (bit b) (64 * i) (64 * fuel)) /\
  (forall j, bit b' j = bit b j && negb (zmem j l)) /\
  (forall x, In x l -> 64 * i <= x < 64 * (i + Z.of_nat fuel) /\ bit b x = true) /\
  StronglySorted Z.lt l /\
  (forall x j, In x l -> 64 * i <= j < 64 * (i + Z.of_nat fuel) -> bit b' j = true -> x < j).
Proof.
  induction fuel as [|fuel IH]; intros b i limit l b' Hw Hi HN E; cbn [pop_batch_loop] in E.
  - injection E as <- <-. split; [assumption|]. split; [cbn; lia|].
    split; [intros; cbn; now rewrite andb_true_r|]. split; [contradiction|]. split; [constructor|contradiction].
  - destruct (Z.leb_spec limit 0) as [Hl|Hl].
    { injection E as <- <-. split; [assumption|].
      pose proof (zcount_bound (bit b) (64 * S fuel) (64 * i)).
      split; [cbn [length]; lia|].
      split; [intros; cbn; now rewrite andb_true_r|]. split; [contradiction|]. split; [constructor|contradiction]. }
    destruct (pop_word 64 (i * word_size) (b i) limit) as [l1 w1] eqn:E1.
    destruct (pop_batch_loop fuel (upd b i w1) (i + 1) (limit - Z.of_nat (length l1))) as [l2 b2] eqn:E2.
    injection E as <- <-. unfold word_size in E1.
    pose proof (zcount_bound (Z.testbit (b i)) 64 0) as Hpc. fold (popcount (b i)) in Hpc.
    destruct (pop_word_spec (i * 64) 64 (b i) limit l1 w1 (Hw i ltac:(lia)) ltac:(lia) E1)
      as (A1 & A2 & A3 & A4 & A5 & A6 & A7).
    assert (Hw' : forall k, 0 <= k < k_words N -> 0 <= upd b i w1 k < 2 ^ 64)
      by (intros; apply (upd_word_wf N); assumption).
    destruct (IH (upd b i w1) (i + 1) (limit - Z.of_nat (length l1)) l2 b2 Hw' ltac:(lia) ltac:(lia) E2) as (B1 & B2 & B3 & B4 & B5 & B6).
    assert (Hsame : forall j, j < 64 * i \/ 64 * (i + 1) <= j -> bit (upd b i w1) j = bit b j).
    { intros j Hj. rewrite bit_upd. destruct (div_mod_64 j). replace (j / 64 =? i) with false by lia. reflexivity. }
    assert (Hin : forall j, 64 * i <= j < 64 * (i + 1) ->
               bit (upd b i w1) j = bit b j && negb (zmem j l1)).
    { intros j Hj. replace j with (64 * i + (j - 64 * i)) by lia. rewrite !bit_at by lia.
      unfold upd. rewrite Z.eqb_refl, A3 by lia. do 3 f_equal. lia. }
    assert (Hl1 : forall x, In x l1 -> 64 * i <= x < 64 * (i + 1) /\ bit b x = true).
    { intros x Hx. destruct (A4 x Hx) as (C1 & C2). split; [lia|].
      replace x with (64 * i + (x - i * 64)) by lia. rewrite bit_at by lia. assumption. }
    assert (Hbits : forall j, bit (upd b i w1) j = bit b j && negb (zmem j l1)).
    { intros j. destruct (Z.lt_ge_cases j (64 * i)) as [H1|H1]; [|destruct (Z.lt_ge_cases j (64 * (i + 1))) as [H2|H2]].
      - rewrite Hsame by lia. destruct (zmem j l1) eqn:Ez; [|now rewrite andb_true_r].
        apply zmem_In in Ez. destruct (Hl1 j Ez). lia.
      - apply Hin. lia.
      - rewrite Hsame by lia. destruct (zmem j l1) eqn:Ez; [|now rewrite andb_true_r].
        apply zmem_In in Ez. destruct (Hl1 j Ez). lia. }
    assert (Hl2 : forall x, In x l2 -> 64 * (i + 1) <= x < 64 * (i + Z.of_nat (S fuel)) /\ bit b x = true).
    { intros x Hx. destruct (B4 x Hx) as (C1 & C2). rewrite Hsame in C2 by lia. split; [lia|assumption]. }
    split; [assumption|]. split; [|split; [|split; [|split]]].
    + rewrite app_length, Nat2Z.inj_add, B2.
      replace (64 * S fuel)%nat with (64 + 64 * fuel)%nat by lia. rewrite zcount_app.
      assert (Ez : zcount (bit (upd b i w1)) (64 * (i + 1)) (64 * fuel) =
              zcount (bit b) (64 * i + Z.of_nat 64) (64 * fuel)).
      { replace (64 * i + Z.of_nat 64) with (64 * (i + 1)) by lia.
        apply zcount_ext. intros; apply Hsame; lia. }
      rewrite Ez.
      assert (Ep : zcount (bit b) (64 * i) 64 = popcount (b i)).
      { unfold popcount. replace (64 * i) with (0 + 64 * i) by lia. rewrite <- zcount_shift.
        apply zcount_ext. intros j Hj. replace (j + 64 * i) with (64 * i + j) by lia. apply bit_at. lia. }
      rewrite Ep. pose proof (zcount_bound (bit b) (64 * fuel) (64 * i + Z.of_nat 64)).
      clear - A2 Hl Hpc H. lia.
    + intros j. rewrite B3, Hbits, zmem_app, negb_orb. now rewrite andb_assoc.
    + intros x Hx. apply in_app_or in Hx. destruct Hx as [Hx|Hx].
      * destruct (Hl1 x Hx). split; [lia|assumption].
      * destruct (Hl2 x Hx). split; [lia|assumption].
    + apply ssorted_app; [assumption|assumption|]. intros x y Hx Hy.
      destruct (Hl1 x Hx), (Hl2 y Hy). lia.
    + intros x j Hx Hj Hbit. apply in_app_or in Hx.
      destruct (Z.lt_ge_cases j (64 * (i + 1))) as [Hj1|Hj1].
      * destruct Hx as [Hx|Hx].
        -- rewrite B3 in Hbit. apply andb_true_iff in Hbit. destruct Hbit as (Hbit & _).
           replace j with (64 * i + (j - 64 * i)) in Hbit by lia. rewrite bit_at in Hbit by lia.
           unfold upd in Hbit. rewrite Z.eqb_refl in Hbit.
           specialize (A6 x (j - 64 * i) Hx ltac:(lia) Hbit). lia.
        -- (* popped from a later word: this word is empty *)
           exfalso.
           assert (0 < Z.of_nat (length l2)) by (destruct l2; [contradiction|cbn [length]; lia]).
           rewrite B3 in Hbit. apply andb_true_iff in Hbit. destruct Hbit as (Hbit & _).
           replace j with (64 * i + (j - 64 * i)) in Hbit by lia. rewrite bit_at in Hbit by lia.
           unfold upd in Hbit. rewrite Z.eqb_refl, A7, Z.bits_0 in Hbit by lia. discriminate.
      * destruct Hx as [Hx|Hx]; [destruct (Hl1 x Hx); lia|]. apply (B6 x j Hx); [lia|assumption].
Qed.

Lemma pop_batch_spec N b limit l b' : 0 <= N -> wf N b -> pop_batch N b limit = (l, b') ->
  wf N b' /\ Z.of_nat (length l) = Z.min (Z.max 0 limit) (zcount (bit b) 0 (Z.to_nat N)) /\
  (forall j, bit b' j = bit b j && negb (zmem j l)) /\
  (forall x, In x l -> 0 <= x < N /\ bit b x = true) /\
  StronglySorted Z.lt l /\
  (forall x j, In x l -> 0 <= j < N -> bit b' j = true -> x < j).
Proof.
  intros HN (H1 & H2) E. pose proof (k_words_bounds N HN) as Hk. unfold pop_batch in E.
  destruct (pop_batch_loop_spec N (Z.to_nat (k_words N)) b 0 limit l b' H1 ltac:(lia) ltac:(lia) E) as (A1 & A2 & A3 & A4 & A5 & A6).
  assert (Hin : forall x, In x l -> 0 <= x < N /\ bit b x = true).
  { intros x Hx. destruct (A4 x Hx) as (B1 & B2). split; [|assumption].
    destruct (Z.lt_ge_cases x N); [lia|]. rewrite H2 in B2 by lia. discriminate. }
  split.
  { split; [assumption|]. intros j Hj. rewrite A3, H2 by assumption. reflexivity. }
  split; [|split; [assumption|split; [assumption|split; [assumption|]]]].
  - rewrite A2. f_equal. replace (64 * 0) with 0 by lia.
    replace (64 * Z.to_nat (k_words N))%nat with (Z.to_nat N + Z.to_nat (64 * k_words N - N))%nat by lia.
    rewrite zcount_app, (zcount_none _ (Z.to_nat (64 * k_words N - N))); [lia|].
    intros j Hj. apply H2. lia.
  - intros x j Hx Hj Hbit. apply (A6 x j Hx); [lia|assumption].
Qed.

(** ** Bitwise operators *)

Lemma bm_and_spec a b j : bit (bm_and a b) j = bit a j && bit b j.
Proof. unfold bit, bm_and. apply Z.land_spec. Qed.
Lemma bm_or_spec a b j : bit (bm_or a b) j = bit a j || bit b j.
Proof. unfold bit, bm_or. apply Z.lor_spec. Qed.
Lemma bm_xor_spec a b j : bit (bm_xor a b) j = xorb (bit a j) (bit b j).
Proof. unfold bit, bm_xor. apply Z.lxor_spec. Qed.

Lemma bm_and_wf N a b : wf N a -> wf N b -> wf N (bm_and a b).
Proof.
  intros (A1 & A2) (B1 & B2). split.
  - intros k Hk. apply land_range. auto.
  - intros j Hj. rewrite bm_and_spec, A2 by assumption. reflexivity.
Qed.
Lemma bm_or_wf N a b : wf N a -> wf N b -> wf N (bm_or a b).
Proof.
  intros (A1 & A2) (B1 & B2). split.
  - intros k Hk. apply lor_range; auto.
  - intros j Hj. rewrite bm_or_spec, A2, B2 by assumption. reflexivity.
Qed.
Lemma bm_xor_wf N a b : wf N a -> wf N b -> wf N (bm_xor a b).
Proof.
  intros (A1 & A2) (B1 & B2). split.
  - intros k Hk. unfold bm_xor. specialize (A1 k Hk). specialize (B1 k Hk).
    apply word_bound; [apply Z.lxor_nonneg; lia|].
    intros j Hj. rewrite Z.lxor_spec, !word_high by lia. reflexivity.
  - intros j Hj. rewrite bm_xor_spec, A2, B2 by assumption. reflexivity.
Qed.

Lemma not_word w o : 0 <= o < 64 -> Z.testbit (Z.ldiff all_ones w) o = negb (Z.testbit w o).
Proof.
  intros H. rewrite Z.ldiff_spec. unfold all_ones. rewrite ones_spec by lia.
  replace ((0 <=? o) && (o <? 64)) with true by lia. reflexivity.
Qed.

Lemma dead_mask N o : 0 < N -> 0 < dead_bits N -> 0 <= o < 64 ->
  Z.testbit (Z.shiftr all_ones (dead_bits N)) o = (o <? 64 - dead_bits N).
Proof.
  intros HN Hd Ho. pose proof (k_words_bounds N ltac:(lia)). unfold dead_bits, word_size in *.
  rewrite Z.shiftr_spec by lia. unfold all_ones. rewrite ones_spec by lia. lia.
Qed.

Lemma bm_not_spec N b j : 0 <= j < 64 * k_words N -> 0 < N ->
  bit (bm_not N b) j = (j <? N) && negb (bit b j).
Proof.
  intros Hj HN. pose proof (k_words_bounds N ltac:(lia)) as Hk.
  destruct (div_mod_64 j) as (Ej & Hm). unfold bit at 1, bm_not.
  destruct (Z.eqb_spec (j / 64) (k_words N - 1)) as [Ew|Ew]; cbn [andb].
  - destruct (Z.ltb_spec 0 (dead_bits N)) as [Hd|Hd].
    + rewrite Z.land_spec, not_word, dead_mask by (assumption || lia).
      rewrite andb_comm. f_equal. unfold dead_bits, word_size. lia.
    + rewrite not_word by assumption. unfold dead_bits, word_size in Hd.
      replace (j <? N) with true by lia. reflexivity.
  - rewrite not_word by assumption. assert (j / 64 < k_words N) by lia.
    replace (j <? N) with true by lia. reflexivity.
Qed.

Lemma bm_not_wf N b : 0 < N -> wf N b -> wf N (bm_not N b).
Proof.
  intros HN (H1 & H2). split.
  - intros k Hk. unfold bm_not. destruct ((k =? k_words N - 1) && (0 <? dead_bits N));
      [apply land_range|]; apply ldiff_range; vm_compute; split; congruence.
  - intros j Hj. rewrite bm_not_spec by lia. replace (j <? N) with false by lia. reflexivity.
Qed.

(** ** Copying *)

Lemma extract_bits_spec b s k o :
  0 <= s -> 0 < k <= 64 ->
  0 <= b (s / 64) < 2^64 -> (64 < s mod 64 + k -> 0 <= b (s / 64 + 1) < 2^64) -> 0 <= o ->
  Z.testbit (extract_bits b s k) o = (o <? k) && bit b (s + o).
Proof.
  intros Hs Hk Hw1 Hw2 Ho. unfold extract_bits, word_size.
  destruct (div_mod_64 s) as (Es & Hm). set (w := s / 64) in *. set (off := s mod 64) in *. clearbody w off.
  set (v1 := Z.shiftr (b w) off).
  set (v2 := if 64 <? off + k then _ else v1).
  assert (Hv2 : forall o, 0 <= o < k -> Z.testbit v2 o = bit b (s + o)).
  { clear o Ho. intros o Ho. subst v2 v1.
    assert (H1 : Z.testbit (Z.shiftr (b w) off) o = (off + o <? 64) && bit b (s + o)).
    { rewrite Z.shiftr_spec by lia. destruct (Z.ltb_spec (off + o) 64) as [Hl|Hl]; cbn [andb].
      - replace (s + o) with (64 * w + (off + o)) by lia. rewrite bit_at by lia. f_equal. lia.
      - apply word_high; lia. }
    destruct (Z.ltb_spec 64 (off + k)) as [Hc|Hc].
    - rewrite Z.lor_spec, H1. rewrite wrap64_low by lia. rewrite Z.shiftl_spec by lia.
      destruct (Z.ltb_spec (off + o) 64) as [Hl|Hl].
      + rewrite (Z.testbit_neg_r _ (o - (64 - off))) by lia. now rewrite orb_false_r.
      + cbn [andb orb]. replace (s + o) with (64 * (w + 1) + (o - (64 - off))) by lia.
        rewrite bit_at by lia. reflexivity.
    - rewrite H1. replace (off + o <? 64) with true by lia. reflexivity. }
  assert (Hv2r : k = 64 -> forall o, 64 <= o -> Z.testbit v2 o = false).
  { intros -> o' Ho'. subst v2 v1. assert (Z.testbit (Z.shiftr (b w) off) o' = false).
    { rewrite Z.shiftr_spec by lia. apply word_high; lia. }
    destruct (64 <? off + 64); [|assumption].
    rewrite Z.lor_spec, H. apply wrap64_high. lia. }
  clearbody v2.
  destruct (Z.ltb_spec k 64) as [Hc|Hc].
  - rewrite Z.land_spec. replace (Z.shiftl 1 k - 1) with (Z.ones k) by (rewrite Z.ones_equiv, Z.shiftl_1_l; lia).
    rewrite ones_spec by lia. destruct (Z.ltb_spec o k) as [Hl|Hl].
    + rewrite Hv2 by lia. replace (0 <=? o) with true by lia. cbn. apply andb_true_r.
    + rewrite andb_false_r, andb_false_r. reflexivity.
  - destruct (Z.ltb_spec o k) as [Hl|Hl]; [apply Hv2; lia|]. apply Hv2r; lia.
Qed.

Lemma write_bits_spec b d v k j :
  0 <= d -> 0 < k -> d mod 64 + k <= 64 ->
  bit (write_bits b d v k) j = if in_range d k j then Z.testbit v (j - d) else bit b j.
Proof.
  intros Hd Hk Hfit. unfold write_bits, word_size, in_range.
  destruct (div_mod_64 d) as (Ed & Hm). set (w := d / 64) in *. set (off := d mod 64) in *. clearbody w off.
  rewrite bit_upd. destruct (div_mod_64 j) as (Ej & Hjm).
  set (mask := if k =? 64 then _ else _).
  assert (Hmask : forall o, 0 <= o < 64 -> Z.testbit mask o = (off <=? o) && (o <? off + k)).
  { intros o Ho. subst mask. destruct (Z.eqb_spec k 64) as [->|].
    - unfold all_ones. rewrite ones_spec by lia. lia.
    - rewrite wrap64_low, Z.shiftl_spec by lia.
      replace (Z.shiftl 1 k - 1) with (Z.ones k) by (rewrite Z.ones_equiv, Z.shiftl_1_l; lia).
      rewrite ones_spec by lia. lia. }
  destruct (Z.eqb_spec (j / 64) w) as [Ew|Ew].
  - rewrite Z.lor_spec, Z.ldiff_spec, Z.land_spec, Hmask, wrap64_low, Z.shiftl_spec by lia.
    unfold bit. rewrite Ew. replace (j mod 64 - off) with (j - d) by lia.
    replace ((d <=? j) && (j <? d + k)) with ((off <=? j mod 64) && (j mod 64 <? off + k)) by lia.
    destruct ((off <=? j mod 64) && (j mod 64 <? off + k)); cbn [negb].
    + now rewrite andb_false_r, andb_true_r.
    + now rewrite andb_true_r, andb_false_r, orb_false_r.
  - replace ((d <=? j) && (j <? d + k)) with false by lia. reflexivity.
Qed.

Lemma copy_loop_spec Ns src : forall fuel dst d s n,
  (forall k, 0 <= k < k_words Ns -> 0 <= src k < 2 ^ 64) ->
  0 <= d -> 0 <= s -> s + n <= Ns -> n <= Z.of_nat fuel -> forall j,
  bit (copy_loop fuel dst d src s n) j = if in_range d n j then bit src (s + (j - d)) else bit dst j.
Proof.
  induction fuel as [|fuel IH]; intros dst d s n Hw Hd Hs Hn Hf j; cbn [copy_loop].
  - replace (in_range d n j) with false; [reflexivity|]. unfold in_range. lia.
  - destruct (Z.leb_spec n 0) as [Hn0|Hn0].
    { replace (in_range d n j) with false; [reflexivity|]. unfold in_range. lia. }
    unfold word_size. destruct (div_mod_64 d) as (Ed & Hm).
    set (k := Z.min n (64 - d mod 64)). assert (Hk : 0 < k <= 64 /\ k <= n /\ d mod 64 + k <= 64) by lia.
    clearbody k. rewrite IH; try assumption; try lia.
    rewrite write_bits_spec by lia.
    assert (Hdiv : forall q, 0 <= q < Ns -> 0 <= src (q / 64) < 2^64).
    { intros q Hq. apply Hw. apply words_bound. assumption. }
    destruct (in_range (d + k) (n - k) j) eqn:E1.
    + assert (in_range d n j = true) by (unfold in_range in *; lia). rewrite H. f_equal. lia.
    + destruct (in_range d k j) eqn:E2.
      * assert (in_range d n j = true) by (unfold in_range in *; lia). rewrite H.
        unfold in_range in *.
        rewrite extract_bits_spec; try lia.
        -- apply Hdiv. lia.
        -- intros Hc. replace (s / 64 + 1) with ((s + k - 1) / 64); [apply Hdiv; lia|].
           destruct (div_mod_64 s), (div_mod_64 (s + k - 1)). lia.
      * assert (in_range d n j = false) by (unfold in_range in *; lia). rewrite H. reflexivity.
Qed.

Lemma copy_bits_spec Ns src dst d s n j : wf Ns src ->
  0 <= d -> 0 <= s -> 0 <= n -> s + n <= Ns ->
  bit (copy_bits dst d src s n) j = if in_range d n j then bit src (s + (j - d)) else bit dst j.
Proof. intros (H1 & H2) Hd Hs Hn HN. unfold copy_bits. apply (copy_loop_spec Ns); assumption || lia. Qed.

(** ** Scale *)

Lemma scale_loop_spec N M src spd dps req src_len T : 
  0 < spd -> 0 < dps -> src_len = T * spd -> src_len <= N -> T * dps = M ->
  forall fuel t res, 0 <= t <= T -> T - t <= Z.of_nat fuel -> forall j,
  bit (scale_loop fuel N M src spd dps req (t * spd) (t * dps) src_len res) j =
  if (t * dps <=? j) && (j <? M) && (req <=? zcount (bit src) ((j / dps) * spd) (Z.to_nat spd))
  then true else bit res j.
Proof.
  intros Hspd Hdps Hlen HN HM. induction fuel as [|fuel IH]; intros t res Ht Hf j; cbn [scale_loop].
  - assert (t = T) by lia. subst t. rewrite HM. replace ((M <=? j) && (j <? M)) with false by lia. reflexivity.
  - destruct (Z.leb_spec src_len (t * spd)) as [Hd|Hd].
    + assert (t = T) by nia. subst t. rewrite HM. replace ((M <=? j) && (j <? M)) with false by lia. reflexivity.
    + assert (HtT : t < T) by nia.
      replace (t * spd + spd) with ((t + 1) * spd) by lia.
      replace (t * dps + dps) with ((t + 1) * dps) by lia.
      rewrite IH by lia.
      rewrite (count_bits_spec N); [|nia|lia|nia].
      assert (Hmul : (t + 1) * dps <= M) by nia.
      assert (Hr : bit (if req <=? zcount (bit src) (t * spd) (Z.to_nat spd)
                        then set_range M res (t * dps) dps else res) j =
                   if in_range (t * dps) dps j && (req <=? zcount (bit src) (t * spd) (Z.to_nat spd))
                   then true else bit res j).
      { destruct (req <=? zcount (bit src) (t * spd) (Z.to_nat spd)).
        - unfold set_range. rewrite set_range_value_spec by nia. rewrite andb_true_r. reflexivity.
        - rewrite andb_false_r. reflexivity. }
      rewrite Hr. destruct (in_range (t * dps) dps j) eqn:Ein; unfold in_range in Ein.
      * assert (Hj : j / dps = t) by (symmetry; apply Z.div_unique_pos with (j - t * dps); lia).
        rewrite Hj. replace ((t + 1) * dps <=? j) with false by lia.
        replace (t * dps <=? j) with true by lia. replace (j <? M) with true by lia. reflexivity.
      * replace ((t + 1) * dps <=? j) with (t * dps <=? j) by lia. reflexivity.
Qed.

Lemma write_bits_range N b d v k :
  (forall w, 0 <= w < k_words N -> 0 <= b w < 2 ^ 64) ->
  forall w, 0 <= w < k_words N -> 0 <= write_bits b d v k w < 2 ^ 64.
Proof.
  intros H w Hw. unfold write_bits, upd. destruct (Z.eqb_spec w (d / word_size)) as [->|]; [|auto].
  apply lor_range; [apply ldiff_range; auto|]. apply land_range, wrap64_range.
Qed.

Lemma copy_loop_range N src : forall fuel dst d s n,
  (forall w, 0 <= w < k_words N -> 0 <= dst w < 2 ^ 64) ->
  forall w, 0 <= w < k_words N -> 0 <= copy_loop fuel dst d src s n w < 2 ^ 64.
Proof.
  induction fuel as [|fuel IH]; intros dst d s n H w Hw; cbn [copy_loop]; [auto|].
  destruct (n <=? 0); [auto|]. apply IH; [|assumption]. intros. apply (write_bits_range N); assumption.
Qed.

Lemma copy_bits_wf Nd Ns src dst d s n : wf Ns src -> wf Nd dst ->
  0 <= d -> 0 <= s -> 0 <= n -> s + n <= Ns -> d + n <= Nd ->
  wf Nd (copy_bits dst d src s n).
Proof.
  intros Hs (D1 & D2) Hd Hs0 Hn Hsn Hdn. split.
  - intros w Hw. apply (copy_loop_range Nd); assumption.
  - intros j Hj. rewrite (copy_bits_spec Ns) by assumption. unfold in_range.
    replace ((d <=? j) && (j <? d + n)) with false by lia. auto.
Qed.

Lemma scale_loop_wf N M src spd dps req src_len T :
  0 < spd -> 0 < dps -> src_len = T * spd -> T * dps = M ->
  forall fuel t res, 0 <= t -> wf M res ->
  wf M (scale_loop fuel N M src spd dps req (t * spd) (t * dps) src_len res).
Proof.
  intros Hspd Hdps Hlen HM. induction fuel as [|fuel IH]; intros t res Ht Hwf; cbn [scale_loop]; [assumption|].
  destruct (Z.leb_spec src_len (t * spd)) as [Hd|Hd]; [assumption|].
  replace (t * spd + spd) with ((t + 1) * spd) by lia.
  replace (t * dps + dps) with ((t + 1) * dps) by lia.
  assert (t < T) by nia. assert ((t + 1) * dps <= M) by nia. apply IH; [lia|]. destruct (req <=? _); [|assumption].
  apply set_range_value_wf; [nia|assumption|lia|assumption].
Qed.

(** Both factors of Scale, when one length divides the other. *)
Lemma scale_factors M src_len : 0 < M -> 0 < src_len -> (src_len mod M = 0 \/ M mod src_len = 0) ->
  let spd := Z.max 1 (src_len / M) in let dps := Z.max 1 (M / src_len) in
  0 < spd /\ 0 < dps /\ exists T, 0 <= T <= src_len /\ src_len = T * spd /\ T * dps = M.
Proof.
  intros HM Hs Hdiv spd dps. split; [lia|]. split; [lia|].
  destruct (Z.le_gt_cases src_len M) as [Hle|Hgt].
  - exists src_len. assert (src_len / M <= 1) by (apply Z.div_le_upper_bound; lia).
    assert (E : M mod src_len = 0).
    { destruct Hdiv as [H0|H0]; [|assumption]. destruct (Z.eq_dec src_len M) as [->|]; [assumption|].
      rewrite Z.mod_small in H0 by lia. lia. }
    pose proof (Z.div_mod M src_len ltac:(lia)) as Q. rewrite E in Q.
    assert (0 < M / src_len) by (apply Z.div_str_pos; lia). subst spd dps.
    replace (Z.max 1 (src_len / M)) with 1 by lia. replace (Z.max 1 (M / src_len)) with (M / src_len) by lia. lia.
  - exists M. assert (M / src_len = 0) by (apply Z.div_small; lia).
    assert (E : src_len mod M = 0).
    { destruct Hdiv as [H0|H0]; [assumption|]. rewrite Z.mod_small in H0 by lia. lia. }
    pose proof (Z.div_mod src_len M ltac:(lia)) as Q. rewrite E in Q.
    assert (0 < src_len / M) by (apply Z.div_str_pos; lia). subst spd dps.
    replace (Z.max 1 (src_len / M)) with (src_len / M) by lia. rewrite H.
    replace (Z.max 1 0) with 1 by lia. lia.
Qed.

Lemma scale_spec N M src src_len all : 0 < M -> 0 < src_len <= N ->
  (src_len mod M = 0 \/ M mod src_len = 0) ->
  wf M (scale N M src src_len all) /\
  forall j, 0 <= j < M ->
  let spd := Z.max 1 (src_len / M) in let dps := Z.max 1 (M / src_len) in
  bit (scale N M src src_len all) j =
  ((if all then spd else 1) <=? zcount (bit src) ((j / dps) * spd) (Z.to_nat spd)).
Proof.
  intros HM Hs Hdiv. destruct (scale_factors M src_len HM ltac:(lia) Hdiv) as (A & B & T & HT & E1 & E2).
  unfold scale. set (spd := Z.max 1 (src_len / M)) in *. set (dps := Z.max 1 (M / src_len)) in *.
  clearbody spd dps. split.
  - apply (scale_loop_wf N M src spd dps _ src_len T A B E1 E2 _ 0); [lia|apply clear_all_wf].
  - intros j Hj. cbv zeta.
    pose proof (scale_loop_spec N M src spd dps (if all then spd else 1) src_len T A B E1 ltac:(lia) E2
             (Z.to_nat src_len) 0 clear_all ltac:(lia) ltac:(lia) j) as H.
    replace (0 * spd) with 0 in H by lia. replace (0 * dps) with 0 in H by lia. rewrite H.
    replace ((0 <=? j) && (j <? M)) with true by lia. cbn [andb].
    rewrite bit_clear_all. destruct (_ <=? zcount _ _ _); reflexivity.
Qed.
