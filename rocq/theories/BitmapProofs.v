(** Lemmas about the bitmap primitives. *)
From Verif Require Import Base Bitmap.

Definition wf (N : Z) (b : words) : Prop :=
  (forall k, 0 <= k < k_words N -> 0 <= b k < 2 ^ 64) /\
  (forall i, N <= i < 64 * k_words N -> bit b i = false).

Lemma word_high w j : 0 <= w < 2 ^ 64 -> 64 <= j -> Z.testbit w j = false.
Proof.
  intros Hw Hj. destruct (Z.eq_dec w 0) as [->|]; [apply Z.bits_0|].
  apply Z.bits_above_log2; [lia|].
  assert (Z.log2 w < 64) by (apply Z.log2_lt_pow2; lia). lia.
Qed.

Lemma word_bound w : 0 <= w -> (forall j, 64 <= j -> Z.testbit w j = false) -> 0 <= w < 2 ^ 64.
Proof.
  intros H0 H. split; [assumption|].
  assert (E : w = w mod 2 ^ 64).
  { apply Z.bits_inj'. intros n Hn. destruct (Z.lt_ge_cases n 64) as [Hl|Hl].
    - rewrite Z.mod_pow2_bits_low by lia. reflexivity.
    - rewrite Z.mod_pow2_bits_high by lia. apply H. lia. }
  rewrite E. apply Z.mod_pos_bound. lia.
Qed.

Lemma wrap64_low w j : j < 64 -> Z.testbit (wrap64 w) j = Z.testbit w j.
Proof. intros H. unfold wrap64, two64. apply Z.mod_pow2_bits_low. lia. Qed.

Lemma wrap64_high w j : 64 <= j -> Z.testbit (wrap64 w) j = false.
Proof. intros H. unfold wrap64, two64. apply Z.mod_pow2_bits_high. lia. Qed.

Lemma wrap64_range w : 0 <= wrap64 w < 2 ^ 64.
Proof. unfold wrap64, two64. apply Z.mod_pos_bound. lia. Qed.

Lemma ones_spec n j : 0 <= n -> Z.testbit (Z.ones n) j = (0 <=? j) && (j <? n).
Proof.
  intros Hn. destruct (Z.lt_ge_cases j 0) as [Hj|Hj].
  - rewrite Z.testbit_neg_r by lia. lia.
  - rewrite Z.testbit_ones_nonneg by lia. lia.
Qed.

Lemma word_mask_spec from to j :
  0 <= from -> from <= to <= 64 ->
  Z.testbit (word_mask from to) j = (from <=? j) && (j <? to).
Proof.
  intros H1 H2. unfold word_mask, all_ones, word_size.
  destruct (Z.lt_ge_cases j 0) as [Hj|Hj].
  { rewrite Z.testbit_neg_r by lia. lia. }
  destruct (Z.lt_ge_cases j 64) as [Hj'|Hj'].
  - rewrite wrap64_low by lia. rewrite Z.shiftl_spec by lia.
    destruct (Z.lt_ge_cases (j - from) 0) as [Hd|Hd].
    { rewrite Z.testbit_neg_r by lia. lia. }
    rewrite Z.shiftr_spec by lia. rewrite ones_spec by lia. lia.
  - rewrite wrap64_high by lia. lia.
Qed.

Lemma word_mask_range from to : 0 <= word_mask from to < 2 ^ 64.
Proof. apply wrap64_range. Qed.

Lemma one_shift_spec o j : 0 <= o -> Z.testbit (Z.shiftl 1 o) j = (j =? o).
Proof.
  intros H. destruct (Z.lt_ge_cases j 0) as [Hj|Hj].
  { rewrite Z.testbit_neg_r by lia. lia. }
  rewrite Z.shiftl_spec by lia. destruct (Z.eqb_spec j o) as [->|Hne].
  - replace (o - o) with 0 by lia. reflexivity.
  - destruct (Z.lt_ge_cases (j - o) 0). { apply Z.testbit_neg_r. lia. }
    replace 1 with (2 ^ 0) by reflexivity. rewrite Z.pow2_bits_eqb by lia. lia.
Qed.

Lemma div_mod_64 i : i = 64 * (i / 64) + i mod 64 /\ 0 <= i mod 64 < 64.
Proof. pose proof (Z.div_mod i 64). pose proof (Z.mod_pos_bound i 64). lia. Qed.

Lemma bit_at b w o : 0 <= o < 64 -> bit b (64 * w + o) = Z.testbit (b w) o.
Proof.
  intros H. unfold bit.
  replace ((64 * w + o) / 64) with w by (rewrite Z.mul_comm, Z.div_add_l, Z.div_small by lia; lia).
  replace ((64 * w + o) mod 64) with o by (rewrite Z.add_comm, Z.mul_comm, Z.mod_add, Z.mod_small by lia; lia).
  reflexivity.
Qed.

Lemma words_bound N i : 0 <= i < N -> 0 <= i / 64 < k_words N.
Proof.
  intros H. unfold k_words, word_size. split; [apply Z.div_pos; lia|].
  destruct (div_mod_64 i). destruct (div_mod_64 (N + 64 - 1)). lia.
Qed.

Lemma k_words_bounds N : 0 <= N -> N <= 64 * k_words N < N + 64.
Proof.
  intros H. unfold k_words, word_size. destruct (div_mod_64 (N + 64 - 1)). lia.
Qed.

(** ** Single bits *)

Lemma land_shift_nonzero w o : 0 <= o ->
  negb (Z.land w (Z.shiftl 1 o) =? 0) = Z.testbit w o.
Proof.
  intros Ho. destruct (Z.testbit w o) eqn:E.
  - destruct (Z.eqb_spec (Z.land w (Z.shiftl 1 o)) 0) as [H|]; [|reflexivity].
    exfalso. assert (T : Z.testbit (Z.land w (Z.shiftl 1 o)) o = true).
    { rewrite Z.land_spec, E, one_shift_spec, Z.eqb_refl by lia. reflexivity. }
    rewrite H, Z.bits_0 in T. discriminate.
  - replace (Z.land w (Z.shiftl 1 o)) with 0; [reflexivity|].
    symmetry. apply Z.bits_inj_0. intros n. rewrite Z.land_spec, one_shift_spec by lia.
    destruct (Z.eqb_spec n o) as [->|]; [rewrite E; reflexivity|apply andb_false_r].
Qed.

Lemma get_bit_spec b i : get_bit b i = bit b i.
Proof.
  unfold get_bit, bit, word_size. apply land_shift_nonzero. destruct (div_mod_64 i). lia.
Qed.

Lemma bit_upd b w v i : bit (upd b w v) i = if i / 64 =? w then Z.testbit v (i mod 64) else bit b i.
Proof. unfold bit, upd. destruct (i / 64 =? w); reflexivity. Qed.

Lemma same_word_mod i j : i / 64 = j / 64 -> (i mod 64 =? j mod 64) = (i =? j).
Proof. intros H. destruct (div_mod_64 i), (div_mod_64 j). lia. Qed.

Lemma set_bit_spec b i b' old : set_bit b i = (b', old) ->
  old = bit b i /\ forall j, bit b' j = (j =? i) || bit b j.
Proof.
  unfold set_bit, word_size. intros E. injection E as <- <-. destruct (div_mod_64 i) as [_ Hi].
  split; [apply land_shift_nonzero; lia|]. intros j. rewrite bit_upd.
  destruct (Z.eqb_spec (j / 64) (i / 64)) as [Hw|Hw].
  - rewrite Z.lor_spec, one_shift_spec by lia. rewrite same_word_mod by assumption.
    unfold bit. rewrite Hw. apply orb_comm.
  - replace (j =? i) with false; [reflexivity|]. symmetry. apply Z.eqb_neq. congruence.
Qed.

Lemma clear_bit_spec b i b' old : clear_bit b i = (b', old) ->
  old = bit b i /\ forall j, bit b' j = negb (j =? i) && bit b j.
Proof.
  unfold clear_bit, word_size. intros E. injection E as <- <-. destruct (div_mod_64 i) as [_ Hi].
  split; [apply land_shift_nonzero; lia|]. intros j. rewrite bit_upd.
  destruct (Z.eqb_spec (j / 64) (i / 64)) as [Hw|Hw].
  - rewrite Z.ldiff_spec, one_shift_spec by lia. rewrite same_word_mod by assumption.
    unfold bit. rewrite Hw. apply andb_comm.
  - replace (j =? i) with false; [reflexivity|]. symmetry. apply Z.eqb_neq. congruence.
Qed.

Lemma lor_range a b : 0 <= a < 2^64 -> 0 <= b < 2^64 -> 0 <= Z.lor a b < 2^64.
Proof.
  intros Ha Hb. apply word_bound; [apply Z.lor_nonneg; lia|].
  intros j Hj. rewrite Z.lor_spec, !word_high by lia. reflexivity.
Qed.

Lemma ldiff_range a b : 0 <= a < 2^64 -> 0 <= Z.ldiff a b < 2^64.
Proof.
  intros Ha. apply word_bound; [apply Z.ldiff_nonneg; lia|].
  intros j Hj. rewrite Z.ldiff_spec, word_high by lia. reflexivity.
Qed.

Lemma land_range a b : 0 <= a < 2^64 -> 0 <= Z.land a b < 2^64.
Proof.
  intros Ha. apply word_bound; [apply Z.land_nonneg; lia|].
  intros j Hj. rewrite Z.land_spec, word_high by lia. reflexivity.
Qed.

Lemma shift1_range o : 0 <= o < 64 -> 0 <= Z.shiftl 1 o < 2^64.
Proof.
  intros H. rewrite Z.shiftl_1_l. split; [apply Z.pow_nonneg; lia|apply Z.pow_lt_mono_r; lia].
Qed.

Lemma upd_word_wf N b w v :
  (forall k, 0 <= k < k_words N -> 0 <= b k < 2 ^ 64) -> 0 <= v < 2^64 ->
  (forall k, 0 <= k < k_words N -> 0 <= upd b w v k < 2 ^ 64).
Proof. intros H Hv k Hk. unfold upd. destruct (k =? w); auto. Qed.

Lemma set_bit_wf N b i : 0 <= i < N -> wf N b -> wf N (fst (set_bit b i)).
Proof.
  intros Hi (H1 & H2). destruct (set_bit b i) as [b' old] eqn:E. cbn [fst].
  pose proof (set_bit_spec _ _ _ _ E) as (_ & Hs). split.
  - unfold set_bit in E. injection E as <- <-. apply upd_word_wf; [assumption|].
    destruct (div_mod_64 i). unfold word_size. apply lor_range; [apply H1; apply words_bound; assumption|].
    apply shift1_range. lia.
  - intros j Hj. rewrite Hs, H2 by assumption. replace (j =? i) with false by lia. reflexivity.
Qed.

Lemma clear_bit_wf N b i : 0 <= i < N -> wf N b -> wf N (fst (clear_bit b i)).
Proof.
  intros Hi (H1 & H2). destruct (clear_bit b i) as [b' old] eqn:E. cbn [fst].
  pose proof (clear_bit_spec _ _ _ _ E) as (_ & Hs). split.
  - unfold clear_bit in E. injection E as <- <-. apply upd_word_wf; [assumption|].
    apply ldiff_range. apply H1. apply words_bound. assumption.
  - intros j Hj. rewrite Hs, H2 by assumption. apply andb_false_r.
Qed.

(** ** Ranges *)

Definition in_range (i n j : Z) : bool := (i <=? j) && (j <? i + n).

Lemma set_word_bits_spec value b w from to j :
  0 <= from -> from <= to <= 64 ->
  bit (set_word_bits value b w from to) j =
  if in_range (64 * w + from) (to - from) j then value else bit b j.
Proof.
  intros H1 H2. unfold set_word_bits. rewrite bit_upd. destruct (div_mod_64 j) as [Hj Hm].
  unfold in_range.
  destruct (Z.eqb_spec (j / 64) w) as [Hw|Hw].
  - assert (E : (64 * w + from <=? j) && (j <? 64 * w + from + (to - from)) =
                (from <=? j mod 64) && (j mod 64 <? to)) by lia.
    rewrite E. unfold bit. rewrite Hw. destruct value.
    + rewrite Z.lor_spec, word_mask_spec by lia.
      destruct ((from <=? j mod 64) && (j mod 64 <? to)); [apply orb_true_r|apply orb_false_r].
    + rewrite Z.ldiff_spec, word_mask_spec by lia.
      destruct ((from <=? j mod 64) && (j mod 64 <? to)); [apply andb_false_r|apply andb_true_r].
  - replace ((64 * w + from <=? j) && (j <? 64 * w + from + (to - from))) with false; [reflexivity|].
    symmetry. apply not_true_iff_false. intros E. apply Hw.
    assert (64 * w <= j < 64 * w + 64) by lia. lia.
Qed.

Lemma set_range_loop_spec value fuel : forall b w n j,
  n <= 64 * Z.of_nat fuel ->
  bit (set_range_loop fuel value b w n) j =
  if in_range (64 * (w + 1)) n j then value else bit b j.
Proof.
  induction fuel as [|fuel IH]; intros b w n j Hn.
  - cbn. replace (in_range (64 * (w + 1)) n j) with false; [reflexivity|]. unfold in_range. lia.
  - cbn [set_range_loop]. destruct (Z.leb_spec n 0) as [H0|H0].
    { replace (in_range (64 * (w + 1)) n j) with false; [reflexivity|]. unfold in_range. lia. }
    unfold word_size. set (k := if 64 <? n then 64 else n).
    assert (Hk : 0 < k <= 64 /\ k <= n /\ (k < n -> k = 64)) by (subst k; destruct (Z.ltb_spec 64 n); lia).
    clearbody k. rewrite IH by lia. rewrite set_word_bits_spec by lia. unfold in_range.
    destruct ((64 * (w + 1 + 1) <=? j) && (j <? 64 * (w + 1 + 1) + (n - k))) eqn:E1.
    + replace ((64 * (w + 1) <=? j) && (j <? 64 * (w + 1) + n)) with true; [reflexivity|].
      symmetry. lia.
    + destruct ((64 * (w + 1) + 0 <=? j) && (j <? 64 * (w + 1) + 0 + (k - 0))) eqn:E2.
      * replace ((64 * (w + 1) <=? j) && (j <? 64 * (w + 1) + n)) with true; [reflexivity|]. lia.
      * replace ((64 * (w + 1) <=? j) && (j <? 64 * (w + 1) + n)) with false; [reflexivity|]. lia.
Qed.

Lemma set_range_value_spec N value b index n j :
  0 <= index -> 0 < n -> index + n <= N ->
  bit (set_range_value N value b index n) j =
  if in_range index n j then value else bit b j.
Proof.
  intros Hi Hn HN. unfold set_range_value, word_size.
  destruct (div_mod_64 index) as [Ei Hm].
  set (off := index mod 64) in *. set (w := index / 64) in *.
  set (k := if 64 <? off + n then 64 else off + n).
  assert (Hk : off < k <= 64 /\ k - off <= n /\ (k - off < n -> k = 64))
    by (subst k; destruct (Z.ltb_spec 64 (off + n)); lia).
  clearbody k off w.
  rewrite set_range_loop_spec.
  2:{ pose proof (k_words_bounds N). lia. }
  rewrite set_word_bits_spec by lia. unfold in_range.
  destruct ((64 * (w + 1) <=? j) && (j <? 64 * (w + 1) + (n - (k - off)))) eqn:E1.
  - replace ((index <=? j) && (j <? index + n)) with true; [reflexivity|]. lia.
  - destruct ((64 * w + off <=? j) && (j <? 64 * w + off + (k - off))) eqn:E2.
    + replace ((index <=? j) && (j <? index + n)) with true; [reflexivity|]. lia.
    + replace ((index <=? j) && (j <? index + n)) with false; [reflexivity|]. lia.
Qed.

Lemma set_word_bits_range N value b w from to :
  (forall k, 0 <= k < k_words N -> 0 <= b k < 2 ^ 64) ->
  forall k, 0 <= k < k_words N -> 0 <= set_word_bits value b w from to k < 2 ^ 64.
Proof.
  intros H k Hk. unfold set_word_bits, upd. destruct (Z.eqb_spec k w) as [->|]; [|auto].
  destruct value; [apply lor_range; auto; apply word_mask_range|apply ldiff_range; auto].
Qed.

Lemma set_range_loop_range N value fuel : forall b w n,
  (forall k, 0 <= k < k_words N -> 0 <= b k < 2 ^ 64) ->
  forall k, 0 <= k < k_words N -> 0 <= set_range_loop fuel value b w n k < 2 ^ 64.
Proof.
  induction fuel as [|fuel IH]; intros b w n H k Hk; cbn [set_range_loop]; [auto|].
  destruct (n <=? 0); [auto|]. apply IH; [|assumption]. intros. apply (set_word_bits_range N); assumption.
Qed.

Lemma set_range_value_wf N value b index n :
  0 <= index -> 0 < n -> index + n <= N -> wf N b -> wf N (set_range_value N value b index n).
Proof.
  intros Hi Hn HN (H1 & H2). split.
  - unfold set_range_value. intros k Hk. apply (set_range_loop_range N); [|assumption].
    intros k' Hk'. apply (set_word_bits_range N); assumption.
  - intros j Hj. rewrite set_range_value_spec by assumption. unfold in_range.
    replace ((index <=? j) && (j <? index + n)) with false by lia. apply H2. assumption.
Qed.

Lemma clear_all_wf N : wf N clear_all.
Proof. split; [intros; unfold clear_all; lia|]. intros. unfold bit, clear_all. apply Z.bits_0. Qed.

Lemma bit_clear_all i : bit clear_all i = false.
Proof. unfold bit, clear_all. apply Z.bits_0. Qed.

(** ** Counting *)

Lemma zcount_shift P i n d : zcount (fun j => P (j + d)) i n = zcount P (i + d) n.
Proof.
  revert i. induction n as [|n IH]; intros i; cbn [zcount]; [reflexivity|].
  rewrite IH. do 2 f_equal. lia.
Qed.

Lemma count_word_bits_spec b w from to :
  0 <= from -> from <= to <= 64 ->
  count_word_bits b w from to = zcount (bit b) (64 * w + from) (Z.to_nat (to - from)).
Proof.
  intros H1 H2. unfold count_word_bits, popcount.
  replace 64%nat with (Z.to_nat 64) by reflexivity.
  rewrite (zcount_split _ 0 64 from (to - from)) by lia.
  rewrite (zcount_none _ (Z.to_nat (from - 0))), (zcount_none _ (Z.to_nat (0 + 64 - (from + (to - from))))).
  - rewrite Z.add_0_l, Z.add_0_r.
    replace (64 * w + from) with (from + 64 * w) by lia.
    rewrite <- (zcount_shift (bit b)). apply zcount_ext.
    intros j Hj. rewrite Z.land_spec, word_mask_spec by lia.
    replace ((from <=? j) && (j <? to)) with true by lia. rewrite andb_true_r.
    replace (j + 64 * w) with (64 * w + j) by lia. rewrite bit_at by lia. reflexivity.
  - intros j Hj. rewrite Z.land_spec, word_mask_spec by lia.
    replace ((from <=? j) && (j <? to)) with false by lia. apply andb_false_r.
  - intros j Hj. rewrite Z.land_spec, word_mask_spec by lia.
    replace ((from <=? j) && (j <? to)) with false by lia. apply andb_false_r.
Qed.

Lemma count_loop_spec b fuel : forall w n count,
  n <= 64 * Z.of_nat fuel ->
  count_loop fuel b w n count = count + zcount (bit b) (64 * (w + 1)) (Z.to_nat n).
Proof.
  induction fuel as [|fuel IH]; intros w n count Hn; cbn [count_loop].
  - replace (Z.to_nat n) with O by lia. cbn. lia.
  - destruct (Z.leb_spec n 0) as [H0|H0].
    { replace (Z.to_nat n) with O by lia. cbn. lia. }
    unfold word_size. rewrite IH by lia. rewrite count_word_bits_spec by lia.
    replace (Z.to_nat n) with (Z.to_nat (Z.min n 64) + Z.to_nat (n - Z.min n 64))%nat by lia.
    rewrite zcount_app.
    replace (64 * (w + 1) + 0) with (64 * (w + 1)) by lia.
    replace (Z.min n 64 - 0) with (Z.min n 64) by lia.
    destruct (Z.le_gt_cases n 64).
    + replace (Z.to_nat (n - Z.min n 64)) with O by lia. cbn. lia.
    + replace (64 * (w + 1) + Z.of_nat (Z.to_nat (Z.min n 64))) with (64 * (w + 1 + 1)) by lia. lia.
Qed.

Lemma count_bits_spec N b index n :
  0 <= index -> 0 <= n -> index + n <= N ->
  count_bits N b index n = zcount (bit b) index (Z.to_nat n).
Proof.
  intros Hi Hn HN. unfold count_bits. destruct (Z.eqb_spec n 0) as [->|Hn0]; [reflexivity|].
  unfold word_size. destruct (div_mod_64 index) as [Ei Hm].
  set (off := index mod 64) in *. set (w := index / 64) in *.
  set (k := Z.min (off + n) 64).
  assert (Hk : off < k <= 64 /\ k - off <= n /\ (k - off < n -> k = 64)) by (subst k; lia).
  clearbody k off w.
  rewrite count_loop_spec by (pose proof (k_words_bounds N); lia).
  rewrite count_word_bits_spec by lia.
  replace (Z.to_nat n) with (Z.to_nat (k - off) + Z.to_nat (n - (k - off)))%nat by lia.
  rewrite zcount_app. rewrite <- Ei.
  destruct (Z.eq_dec (k - off) n) as [E|E].
  - replace (Z.to_nat (n - (k - off))) with O by lia. cbn. lia.
  - replace (index + Z.of_nat (Z.to_nat (k - off))) with (64 * (w + 1)) by lia. lia.
Qed.

(** ** Zero test *)

Lemma word_zero w : 0 <= w < 2^64 -> (forall j, 0 <= j < 64 -> Z.testbit w j = false) -> w = 0.
Proof.
  intros Hw H. apply Z.bits_inj_0. intros n. destruct (Z.lt_ge_cases n 0).
  - apply Z.testbit_neg_r. lia.
  - destruct (Z.lt_ge_cases n 64); [apply H; lia|apply word_high; lia].
Qed.

Lemma is_zero_loop_spec N b fuel : forall i,
  (forall k, 0 <= k < k_words N -> 0 <= b k < 2 ^ 64) ->
  0 <= i -> i + Z.of_nat fuel <= k_words N ->
  is_zero_loop fuel b i = true <-> forall j, 64 * i <= j < 64 * (i + Z.of_nat fuel) -> bit b j = false.
Proof.
  induction fuel as [|fuel IH]; intros i Hw Hi HN; cbn [is_zero_loop].
  - split; [intros _ j Hj; lia|reflexivity].
  - specialize (Hw) as Hw'. specialize (Hw i ltac:(lia)).
    destruct (Z.eqb_spec (b i) 0) as [E|E]; cbn [negb].
    + rewrite IH by (assumption || lia). split; intros H j Hj.
      * destruct (Z.lt_ge_cases j (64 * (i + 1))); [|apply H; lia].
        replace j with (64 * i + (j - 64 * i)) by lia. rewrite bit_at by lia. rewrite E. apply Z.bits_0.
      * apply H. lia.
    + split; [discriminate|]. intros H. exfalso. apply E. apply word_zero; [assumption|].
      intros j Hj. rewrite <- bit_at by lia. apply H. lia.
Qed.

Lemma is_zero_spec N b : 0 <= N -> wf N b ->
  is_zero N b = true <-> forall j, 0 <= j < N -> bit b j = false.
Proof.
  intros HN (H1 & H2). pose proof (k_words_bounds N HN). unfold is_zero.
  rewrite (is_zero_loop_spec N) by (assumption || lia).
  split; intros Hz j Hj.
  - apply Hz. lia.
  - destruct (Z.lt_ge_cases j N); [apply Hz; lia|apply H2; lia].
Qed.

(** ** Searching *)

(** [r] is the first index in [i, N) where [P] holds, or [N]. *)
Definition first_from (P : Z -> bool) (i N r : Z) : Prop :=
  i <= r <= N /\ (forall j, i <= j < r -> P j = false) /\ (r < N -> P r = true).

(** [r] is the last index in [0, i] where [P] holds, or [-1]. *)
Definition last_upto (P : Z -> bool) (i r : Z) : Prop :=
  -1 <= r <= i /\ (forall j, r < j <= i -> P j = false) /\ (0 <= r -> P r = true).

Lemma first_from_unique P i N r1 r2 : first_from P i N r1 -> first_from P i N r2 -> r1 = r2.
Proof.
  intros (A1 & B1 & C1) (A2 & B2 & C2).
  destruct (Z.lt_trichotomy r1 r2) as [H|[H|H]]; [|assumption|].
  - specialize (B2 r1 ltac:(lia)). specialize (C1 ltac:(lia)). congruence.
  - specialize (B1 r2 ltac:(lia)). specialize (C2 ltac:(lia)). congruence.
Qed.

Lemma ctz_from_spec w n : forall j,
  let r := ctz_from n j w in
  j <= r <= j + Z.of_nat n /\ (forall i, j <= i < r -> Z.testbit w i = false) /\
  (r < j + Z.of_nat n -> Z.testbit w r = true).
Proof.
  induction n as [|n IH]; intros j; cbn [ctz_from].
  - split; [lia|]. split; intros; lia.
  - destruct (Z.testbit w j) eqn:E.
    + split; [lia|]. split; [intros; lia|auto].
    + specialize (IH (j + 1)). cbv zeta in *. destruct IH as (A & B & C).
      split; [lia|]. split.
      * intros i Hi. destruct (Z.eq_dec i j) as [->|]; [assumption|apply B; lia].
      * intros H. apply C. lia.
Qed.

Lemma countr_zero_spec w : 0 <= w < 2^64 -> w <> 0 ->
  0 <= countr_zero w < 64 /\ Z.testbit w (countr_zero w) = true /\
  forall i, 0 <= i < countr_zero w -> Z.testbit w i = false.
Proof.
  intros Hw Hnz. unfold countr_zero. pose proof (ctz_from_spec w 64 0) as H. cbv zeta in H.
  set (r := ctz_from 64 0 w) in *. destruct H as (A & B & C).
  assert (r < 64).
  { destruct (Z.lt_ge_cases r 64); [assumption|]. exfalso. apply Hnz. apply word_zero; [assumption|].
    intros j Hj. apply B. lia. }
  split; [lia|]. split; [apply C; lia|]. assumption.
Qed.

Lemma bit_width_spec w : 0 <= w < 2^64 -> w <> 0 ->
  0 <= bit_width w - 1 < 64 /\ Z.testbit w (bit_width w - 1) = true /\
  forall i, bit_width w - 1 < i -> Z.testbit w i = false.
Proof.
  intros Hw Hnz. unfold bit_width. replace (w =? 0) with false by lia.
  replace (Z.log2 w + 1 - 1) with (Z.log2 w) by lia.
  pose proof (Z.log2_nonneg w). assert (Z.log2 w < 64) by (apply Z.log2_lt_pow2; lia).
  split; [lia|]. split; [apply Z.bit_log2; lia|].
  intros i Hi. apply Z.bits_above_log2; lia.
Qed.

Definition gbit (goal : bool) (b : words) (j : Z) : bool := if goal then bit b j else negb (bit b j).

Lemma goal_word_range goal w : 0 <= w < 2^64 -> 0 <= goal_word goal w < 2^64.
Proof.
  intros H. unfold goal_word. destruct goal; [assumption|]. apply ldiff_range. vm_compute. split; congruence.
Qed.

Lemma goal_word_spec goal b w o : 0 <= o < 64 ->
  Z.testbit (goal_word goal (b w)) o = gbit goal b (64 * w + o).
Proof.
  intros H. unfold goal_word, gbit. rewrite bit_at by assumption.
  destruct goal; [reflexivity|]. rewrite Z.ldiff_spec. unfold all_ones. rewrite ones_spec by lia.
  replace ((0 <=? o) && (o <? 64)) with true by lia. reflexivity.
Qed.

(** The scan stops at the first word with a candidate bit. *)
Lemma find_loop_spec N goal b fuel : forall w here lo,
  (forall k, 0 <= k < k_words N -> 0 <= b k < 2 ^ 64) ->
  0 <= w -> w + Z.of_nat fuel < k_words N -> 0 <= here < 2^64 ->
  64 * w <= lo <= 64 * w + 64 ->
  (forall o, 0 <= o < 64 -> Z.testbit here o = (lo <=? 64 * w + o) && gbit goal b (64 * w + o)) ->
  match find_loop fuel goal b w here with
  | None => forall j, lo <= j < 64 * (w + Z.of_nat fuel + 1) -> gbit goal b j = false
  | Some (w', here') =>
    let r := countr_zero here' + 64 * w' in
    lo <= r < 64 * (w + Z.of_nat fuel + 1) /\ gbit goal b r = true /\
    forall j, lo <= j < r -> gbit goal b j = false
  end.
Proof.
  induction fuel as [|fuel IH]; intros w here lo Hb Hw HN Hh Hlo Hbits; cbn [find_loop].
  - destruct (Z.eqb_spec here 0) as [E|E]; cbn [negb].
    + intros j Hj. specialize (Hbits (j - 64 * w) ltac:(lia)).
      replace (64 * w + (j - 64 * w)) with j in Hbits by lia.
      rewrite E, Z.bits_0 in Hbits. replace (lo <=? j) with true in Hbits by lia. auto.
    + destruct (countr_zero_spec here Hh E) as (C1 & C2 & C3). cbv zeta.
      rewrite Hbits in C2 by lia. apply andb_true_iff in C2. destruct C2 as (C2 & C2').
      replace (countr_zero here + 64 * w) with (64 * w + countr_zero here) by lia.
      split; [lia|]. split; [assumption|].
      intros j Hj. specialize (C3 (j - 64 * w) ltac:(lia)). rewrite Hbits in C3 by lia.
      replace (64 * w + (j - 64 * w)) with j in C3 by lia. replace (lo <=? j) with true in C3 by lia. exact C3.
  - destruct (Z.eqb_spec here 0) as [E|E]; cbn [negb].
    + assert (Hz : forall j, lo <= j < 64 * (w + 1) -> gbit goal b j = false).
      { intros j Hj. specialize (Hbits (j - 64 * w) ltac:(lia)).
        replace (64 * w + (j - 64 * w)) with j in Hbits by lia.
        rewrite E, Z.bits_0 in Hbits. replace (lo <=? j) with true in Hbits by lia. auto. }
      specialize (IH (w + 1) (goal_word goal (b (w + 1))) (64 * (w + 1)) Hb ltac:(lia) ltac:(lia)).
      specialize (IH (goal_word_range _ _ (Hb (w + 1) ltac:(lia))) ltac:(lia)).
      assert (Hbits' : forall o, 0 <= o < 64 -> Z.testbit (goal_word goal (b (w + 1))) o =
                 (64 * (w + 1) <=? 64 * (w + 1) + o) && gbit goal b (64 * (w + 1) + o)).
      { intros o Ho. rewrite goal_word_spec by assumption.
        replace (64 * (w + 1) <=? 64 * (w + 1) + o) with true by lia. reflexivity. }
      specialize (IH Hbits').
      replace (w + Z.of_nat (S fuel) + 1) with (w + 1 + Z.of_nat fuel + 1) by lia.
      destruct (find_loop fuel goal b (w + 1) (goal_word goal (b (w + 1)))) as [[w' here']|].
      * cbv zeta in *. destruct IH as (A & B & C). split; [lia|]. split; [assumption|].
        intros j Hj. destruct (Z.lt_ge_cases j (64 * (w + 1))); [apply Hz; lia|apply C; lia].
      * intros j Hj. destruct (Z.lt_ge_cases j (64 * (w + 1))); [apply Hz; lia|apply IH; lia].
    + destruct (countr_zero_spec here Hh E) as (C1 & C2 & C3). cbv zeta.
      rewrite Hbits in C2 by lia. apply andb_true_iff in C2. destruct C2 as (C2 & C2').
      replace (countr_zero here + 64 * w) with (64 * w + countr_zero here) by lia.
      split; [lia|]. split; [assumption|].
      intros j Hj. specialize (C3 (j - 64 * w) ltac:(lia)). rewrite Hbits in C3 by lia.
      replace (64 * w + (j - 64 * w)) with j in C3 by lia. replace (lo <=? j) with true in C3 by lia. exact C3.
Qed.

Lemma find_value_spec N goal b index : wf N b -> 0 <= index < N ->
  exists r, find_value N goal b index = Some r /\ first_from (gbit goal b) index N r.
Proof.
  intros (H1 & H2) Hi. unfold find_value, word_size.
  pose proof (words_bound N index Hi) as Hw. pose proof (k_words_bounds N ltac:(lia)) as HN.
  destruct (div_mod_64 index) as [Ei Hm].
  set (off := index mod 64) in *. set (w := index / 64) in *. clearbody off w.
  set (here := Z.land (goal_word goal (b w)) (wrap64 (Z.shiftl all_ones off))).
  assert (Hh : 0 <= here < 2^64) by (apply land_range; apply goal_word_range; apply H1; lia).
  pose proof (find_loop_spec N goal b (Z.to_nat (k_words N - 1 - w)) w here index H1 ltac:(lia) ltac:(lia) Hh ltac:(lia)) as HF.
  assert (Hbits : forall o, 0 <= o < 64 -> Z.testbit here o = (index <=? 64 * w + o) && gbit goal b (64 * w + o)).
  { intros o Ho. subst here. rewrite Z.land_spec, goal_word_spec by assumption.
    rewrite wrap64_low by lia. rewrite Z.shiftl_spec by lia.
    destruct (Z.lt_ge_cases (o - off) 0).
    - rewrite Z.testbit_neg_r by lia. replace (index <=? 64 * w + o) with false by lia. apply andb_false_r.
    - unfold all_ones. rewrite ones_spec by lia.
      replace ((0 <=? o - off) && (o - off <? 64)) with true by lia.
      replace (index <=? 64 * w + o) with true by lia. apply andb_true_r. }
  specialize (HF Hbits). clear Hbits.
  destruct (find_loop _ goal b w here) as [[w' here']|].
  - cbv zeta in HF. rewrite (Z.mul_comm w' 64). set (r := countr_zero here' + 64 * w') in *. clearbody r.
    destruct HF as (A & B & C). unfold dead_bits, word_size.
    destruct (Z.ltb_spec 0 (64 * k_words N - N)) as [Hd|Hd].
    + destruct goal.
      * assert (Hr : r < N).
        { destruct (Z.lt_ge_cases r N); [assumption|]. unfold gbit in B. rewrite H2 in B by lia. discriminate. }
        replace (r <? N) with true by lia. exists r. split; [reflexivity|].
        split; [lia|]. split; [assumption|auto].
      * exists (if N <? r then N else r). split; [reflexivity|].
        destruct (Z.ltb_spec N r); (split; [lia|]; split; [intros; apply C; lia|intros; auto; lia]).
    + exists r. split; [reflexivity|]. split; [lia|]. split; [assumption|auto].
  - exists N. split; [reflexivity|]. split; [lia|]. split; [intros; apply HF; lia|lia].
Qed.

Lemma find_back_loop_spec N goal b fuel : forall w here hi,
  (forall k, 0 <= k < k_words N -> 0 <= b k < 2 ^ 64) ->
  w = Z.of_nat fuel -> w < k_words N -> 0 <= here < 2^64 ->
  64 * w - 1 <= hi < 64 * w + 64 ->
  (forall o, 0 <= o < 64 -> Z.testbit here o = (64 * w + o <=? hi) && gbit goal b (64 * w + o)) ->
  match find_back_loop fuel goal b w here with
  | None => forall j, 0 <= j <= hi -> gbit goal b j = false
  | Some (w', here') =>
    let r := bit_width here' - 1 + 64 * w' in
    0 <= r <= hi /\ gbit goal b r = true /\ forall j, r < j <= hi -> gbit goal b j = false
  end.
Proof.
  induction fuel as [|fuel IH]; intros w here hi Hb Hw HN Hh Hhi Hbits; cbn [find_back_loop].
  - destruct (Z.eqb_spec here 0) as [E|E]; cbn [negb].
    + intros j Hj. specialize (Hbits (j - 64 * w) ltac:(lia)).
      replace (64 * w + (j - 64 * w)) with j in Hbits by lia.
      rewrite E, Z.bits_0 in Hbits. replace (j <=? hi) with true in Hbits by lia. auto.
    + destruct (bit_width_spec here Hh E) as (C1 & C2 & C3). cbv zeta.
      rewrite Hbits in C2 by lia. apply andb_true_iff in C2. destruct C2 as (C2 & C2').
      replace (bit_width here - 1 + 64 * w) with (64 * w + (bit_width here - 1)) by lia.
      split; [lia|]. split; [assumption|].
      intros j Hj. specialize (C3 (j - 64 * w) ltac:(lia)). rewrite Hbits in C3 by lia.
      replace (64 * w + (j - 64 * w)) with j in C3 by lia. replace (j <=? hi) with true in C3 by lia. exact C3.
  - destruct (Z.eqb_spec here 0) as [E|E]; cbn [negb].
    + assert (Hz : forall j, 64 * w <= j <= hi -> gbit goal b j = false).
      { intros j Hj. specialize (Hbits (j - 64 * w) ltac:(lia)).
        replace (64 * w + (j - 64 * w)) with j in Hbits by lia.
        rewrite E, Z.bits_0 in Hbits. replace (j <=? hi) with true in Hbits by lia. auto. }
      specialize (IH (w - 1) (goal_word goal (b (w - 1))) (64 * w - 1) Hb ltac:(lia) ltac:(lia)).
      specialize (IH (goal_word_range _ _ (Hb (w - 1) ltac:(lia))) ltac:(lia)).
      assert (Hbits' : forall o, 0 <= o < 64 -> Z.testbit (goal_word goal (b (w - 1))) o =
                 (64 * (w - 1) + o <=? 64 * w - 1) && gbit goal b (64 * (w - 1) + o)).
      { intros o Ho. rewrite goal_word_spec by assumption.
        replace (64 * (w - 1) + o <=? 64 * w - 1) with true by lia. reflexivity. }
      specialize (IH Hbits').
      destruct (find_back_loop fuel goal b (w - 1) (goal_word goal (b (w - 1)))) as [[w' here']|].
      * cbv zeta in *. destruct IH as (A & B & C). split; [lia|]. split; [assumption|].
        intros j Hj. destruct (Z.lt_ge_cases j (64 * w)); [apply C; lia|apply Hz; lia].
      * intros j Hj. destruct (Z.lt_ge_cases j (64 * w)); [apply IH; lia|apply Hz; lia].
    + destruct (bit_width_spec here Hh E) as (C1 & C2 & C3). cbv zeta.
      rewrite Hbits in C2 by lia. apply andb_true_iff in C2. destruct C2 as (C2 & C2').
      replace (bit_width here - 1 + 64 * w) with (64 * w + (bit_width here - 1)) by lia.
      split; [lia|]. split; [assumption|].
      intros j Hj. specialize (C3 (j - 64 * w) ltac:(lia)). rewrite Hbits in C3 by lia.
      replace (64 * w + (j - 64 * w)) with j in C3 by lia. replace (j <=? hi) with true in C3 by lia. exact C3.
Qed.

(** The backward mask: the low [offset + 1] bits, including [offset = 63] where
    the shift wraps to 0 and 0 - 1 to all ones. *)
Lemma back_mask off o : 0 <= off < 64 -> 0 <= o < 64 ->
  Z.testbit (wrap64 (wrap64 (Z.shiftl 2 off) - 1)) o = (o <=? off).
Proof.
  intros H1 H2.
  assert (E : wrap64 (wrap64 (Z.shiftl 2 off) - 1) = Z.ones (off + 1)).
  { rewrite Z.shiftl_mul_pow2 by lia. replace (2 * 2 ^ off) with (2 ^ (off + 1)) by (rewrite Z.pow_add_r; lia).
    rewrite Z.ones_equiv. unfold wrap64, two64.
    destruct (Z.eq_dec off 63) as [->|].
    - reflexivity.
    - assert (2 ^ (off + 1) < 2 ^ 64) by (apply Z.pow_lt_mono_r; lia).
      assert (0 < 2 ^ (off + 1)) by (apply Z.pow_pos_nonneg; lia).
      rewrite (Z.mod_small (2 ^ (off + 1))) by lia. rewrite Z.mod_small by lia. lia. }
  rewrite E, ones_spec by lia. lia.
Qed.

Lemma find_value_backwards_spec N goal b index : wf N b -> 0 <= index < N ->
  last_upto (gbit goal b) index (find_value_backwards goal b index).
Proof.
  intros (H1 & H2) Hi. unfold find_value_backwards, word_size.
  pose proof (words_bound N index Hi) as Hw. pose proof (k_words_bounds N ltac:(lia)) as HN.
  destruct (div_mod_64 index) as [Ei Hm].
  set (off := index mod 64) in *. set (w := index / 64) in *. clearbody off w.
  set (here := Z.land (goal_word goal (b w)) _).
  assert (Hh : 0 <= here < 2^64) by (apply land_range; apply goal_word_range; apply H1; lia).
  pose proof (find_back_loop_spec N goal b (Z.to_nat w) w here index H1 ltac:(lia) ltac:(lia) Hh ltac:(lia)) as HF.
  assert (Hbits : forall o, 0 <= o < 64 -> Z.testbit here o = (64 * w + o <=? index) && gbit goal b (64 * w + o)).
  { intros o Ho. subst here. rewrite Z.land_spec, goal_word_spec, back_mask by assumption.
    replace (o <=? off) with (64 * w + o <=? index) by lia. apply andb_comm. }
  specialize (HF Hbits).
  destruct (find_back_loop _ goal b w here) as [[w' here']|].
  - cbv zeta in HF. rewrite (Z.mul_comm w' 64). destruct HF as (A & B & C).
    split; [lia|]. split; [assumption|auto].
  - split; [lia|]. split; [intros; apply HF; lia|lia].
Qed.

(** ** Next free range *)

Lemma next_free_range_spec N b start : wf N b -> 0 <= start ->
  (next_free_range N b start = Some None /\ forall j, start <= j < N -> bit b j = true) \/
  (exists i len, next_free_range N b start = Some (Some (i, len)) /\
     start <= i /\ 0 < len /\ i + len <= N /\
     (forall j, start <= j < i -> bit b j = true) /\
     (forall j, i <= j < i + len -> bit b j = false) /\
     (i + len < N -> bit b (i + len) = true)).
Proof.
  intros Hwf Hs. unfold next_free_range, find_clear, find_set.
  destruct (Z.leb_spec N start) as [Hge|Hlt].
  { left. split; [reflexivity|]. intros; lia. }
  destruct (find_value_spec N false b start Hwf ltac:(lia)) as (i & -> & (A & B & C)).
  cbn [obind]. unfold gbit in *.
  destruct (Z.eqb_spec i N) as [->|Hne].
  { left. split; [reflexivity|]. intros j Hj. specialize (B j Hj). destruct (bit b j); [reflexivity|discriminate]. }
  destruct (find_value_spec N true b i Hwf ltac:(lia)) as (r & -> & (A2 & B2 & C2)).
  cbn [obind]. unfold gbit in *. right. exists i, (r - i). split; [reflexivity|].
  assert (bit b i = false) by (specialize (C ltac:(lia)); destruct (bit b i); [discriminate|reflexivity]).
  assert (r <> i). { intros ->. specialize (C2 ltac:(lia)). congruence. }
  replace (i + (r - i)) with r by lia.
  split; [lia|]. split; [lia|]. split; [lia|]. split.
  { intros j Hj. specialize (B j Hj). destruct (bit b j); [reflexivity|discriminate]. }
  split; [intros; apply B2; lia|exact C2].
Qed.
