(** * C15: bitmap search primitives meet their specification

    Specification.  A [Bitmap<N>] denotes the function [bit b : Z -> bool] (bit
    [i mod 64] of word [i / 64]); only indices in [0, N) are meaningful.  The
    theorems say what every operation does to that function, for every length
    [N] and every bitmap that can be built by the operations ([bitmap]). *)
From Coq Require Import Sorted.
From Verif Require Import Base Bitmap BitmapProofs BitmapProofs2.

(** Every bitmap a program can hold: cleared, or the result of an operation on
    such bitmaps with arguments the debug assertions allow. *)
Inductive bitmap : Z -> words -> Prop :=
| bm_clear N : bitmap N clear_all
| bm_set_bit N b i : bitmap N b -> 0 <= i < N -> bitmap N (fst (set_bit b i))
| bm_clear_bit N b i : bitmap N b -> 0 <= i < N -> bitmap N (fst (clear_bit b i))
| bm_set_range N b i n : bitmap N b -> 0 <= i -> 0 < n -> i + n <= N -> bitmap N (set_range N b i n)
| bm_clear_range N b i n : bitmap N b -> 0 <= i -> 0 < n -> i + n <= N -> bitmap N (clear_range N b i n)
| bm_clear_lowest N b : 0 <= N -> bitmap N b -> bitmap N (clear_lowest_bit N b)
| bm_pop N b limit : 0 <= N -> bitmap N b -> bitmap N (snd (pop_batch N b limit))
| bm_inv N b : 0 < N -> bitmap N b -> bitmap N (bm_not N b)
| bm_conj N a b : bitmap N a -> bitmap N b -> bitmap N (bm_and a b)
| bm_disj N a b : bitmap N a -> bitmap N b -> bitmap N (bm_or a b)
| bm_diff N a b : bitmap N a -> bitmap N b -> bitmap N (bm_xor a b)
| bm_copy Nd Ns dst src d s n : bitmap Nd dst -> bitmap Ns src ->
    0 <= d -> 0 <= s -> 0 <= n -> s + n <= Ns -> d + n <= Nd -> bitmap Nd (copy_bits dst d src s n)
| bm_scale N M src src_len all : bitmap N src -> 0 < M -> 0 < src_len <= N ->
    (src_len mod M = 0 \/ M mod src_len = 0) -> bitmap M (scale N M src src_len all).

Lemma bitmap_wf N b : bitmap N b -> wf N b.
Proof.
  induction 1.
  - apply clear_all_wf.
  - apply set_bit_wf; assumption.
  - apply clear_bit_wf; assumption.
  - apply set_range_value_wf; assumption.
  - apply set_range_value_wf; assumption.
  - apply clear_lowest_spec; assumption.
  - destruct (pop_batch N b limit) as [l b'] eqn:E. apply (pop_batch_spec N b limit l b'); assumption.
  - apply bm_not_wf; assumption.
  - apply bm_and_wf; assumption.
  - apply bm_or_wf; assumption.
  - apply bm_xor_wf; assumption.
  - apply (copy_bits_wf Nd Ns); assumption.
  - apply scale_spec; assumption.
Qed.

(** Reading, setting and clearing one bit, and the reported old value. *)
Theorem bitmap_single_bit : forall N b i, bitmap N b -> 0 <= i < N ->
  get_bit b i = bit b i /\
  snd (set_bit b i) = bit b i /\ snd (clear_bit b i) = bit b i /\
  (forall j, bit (fst (set_bit b i)) j = if j =? i then true else bit b j) /\
  (forall j, bit (fst (clear_bit b i)) j = if j =? i then false else bit b j).
Proof.
  intros N b i _ Hi. split; [apply get_bit_spec|].
  destruct (set_bit b i) as [b1 o1] eqn:E1. destruct (clear_bit b i) as [b2 o2] eqn:E2. cbn [fst snd].
  destruct (set_bit_spec _ _ _ _ E1) as (-> & H1). destruct (clear_bit_spec _ _ _ _ E2) as (-> & H2).
  split; [reflexivity|]. split; [reflexivity|].
  split; intros j; [rewrite H1|rewrite H2]; destruct (j =? i); reflexivity.
Qed.

(** Setting and clearing a range. *)
Theorem bitmap_ranges : forall N b i n, bitmap N b -> 0 <= i -> 0 < n -> i + n <= N ->
  (forall j, i <= j < i + n -> bit (set_range N b i n) j = true /\ bit (clear_range N b i n) j = false) /\
  (forall j, ~ (i <= j < i + n) ->
     bit (set_range N b i n) j = bit b j /\ bit (clear_range N b i n) j = bit b j).
Proof.
  intros N b i n _ Hi Hn HN. unfold set_range, clear_range.
  split; intros j Hj; rewrite !set_range_value_spec by assumption; unfold in_range.
  - replace ((i <=? j) && (j <? i + n)) with true by lia. auto.
  - replace ((i <=? j) && (j <? i + n)) with false by lia. auto.
Qed.

(** Counting: [zcount P i n] is the number of [j] in [i, i+n) with [P j]. *)
Theorem bitmap_count : forall N b i n, bitmap N b -> 0 <= i -> 0 <= n -> i + n <= N ->
  count_bits N b i n = zcount (bit b) i (Z.to_nat n).
Proof. intros. apply count_bits_spec; assumption. Qed.

Theorem bitmap_is_zero : forall N b, 0 <= N -> bitmap N b ->
  is_zero N b = true <-> forall j, 0 <= j < N -> bit b j = false.
Proof. intros. apply is_zero_spec; [assumption|apply bitmap_wf; assumption]. Qed.

(** FindSet / FindClear return the first index at or after the argument with the
    wanted value, or N; they never violate their internal assumption. *)
Theorem bitmap_find : forall N b goal i, bitmap N b -> 0 <= i < N ->
  exists r, find_value N goal b i = Some r /\ i <= r <= N /\
    (forall j, i <= j < r -> bit b j = negb goal) /\ (r < N -> bit b r = goal).
Proof.
  intros N b goal i Hb Hi.
  destruct (find_value_spec N goal b i (bitmap_wf _ _ Hb) Hi) as (r & E & A & B & C).
  exists r. split; [assumption|]. split; [assumption|]. unfold gbit in *. split.
  - intros j Hj. specialize (B j Hj). destruct goal, (bit b j); cbn in *; congruence.
  - intros Hr. specialize (C Hr). destruct goal, (bit b r); cbn in *; congruence.
Qed.

(** The backward searches return the last index at or before the argument, or -1. *)
Theorem bitmap_find_backwards : forall N b goal i, bitmap N b -> 0 <= i < N ->
  let r := find_value_backwards goal b i in
  -1 <= r <= i /\ (forall j, r < j <= i -> bit b j = negb goal) /\ (0 <= r -> bit b r = goal).
Proof.
  intros N b goal i Hb Hi.
  destruct (find_value_backwards_spec N goal b i (bitmap_wf _ _ Hb) Hi) as (A & B & C).
  cbv zeta. split; [assumption|]. unfold gbit in *. split.
  - intros j Hj. specialize (B j Hj). destruct goal, (bit b j); cbn in *; congruence.
  - intros Hr. specialize (C Hr). destruct goal, (bit b _); cbn in *; congruence.
Qed.

(** NextFreeRange returns the first maximal run of clear bits at or after
    [start], and "none" exactly when every bit from [start] on is set. *)
Theorem bitmap_next_free_range : forall N b start, bitmap N b -> 0 <= start ->
  (next_free_range N b start = Some None /\ forall j, start <= j < N -> bit b j = true) \/
  (exists i len, next_free_range N b start = Some (Some (i, len)) /\
     start <= i /\ 0 < len /\ i + len <= N /\
     (forall j, start <= j < i -> bit b j = true) /\
     (forall j, i <= j < i + len -> bit b j = false) /\
     (i + len < N -> bit b (i + len) = true)).
Proof. intros. apply next_free_range_spec; [apply bitmap_wf; assumption|assumption]. Qed.

(** ClearLowestBit clears the lowest set bit, if any. *)
Theorem bitmap_clear_lowest : forall N b, 0 <= N -> bitmap N b ->
  ((forall j, 0 <= j < N -> bit b j = false) /\ (forall j, bit (clear_lowest_bit N b) j = bit b j)) \/
  exists r, 0 <= r < N /\ bit b r = true /\ (forall j, 0 <= j < r -> bit b j = false) /\
    forall j, bit (clear_lowest_bit N b) j = if j =? r then false else bit b j.
Proof.
  intros N b HN Hb. destruct (clear_lowest_spec N b HN (bitmap_wf _ _ Hb)) as (_ & r & (A & B & C) & D).
  destruct (Z.lt_ge_cases r N) as [Hr|Hr].
  - right. exists r. split; [lia|]. split; [auto|]. split; [assumption|].
    intros j. rewrite D. replace (r <? N) with true by lia. rewrite andb_true_r.
    destruct (j =? r); cbn; [apply andb_false_r|apply andb_true_r].
  - left. split; [intros j Hj; apply B; lia|]. intros j. rewrite D.
    replace (r <? N) with false by lia. rewrite andb_false_r. apply andb_true_r.
Qed.

(** PopBatch visits the lowest set bits in increasing order, as many as the
    limit allows, and clears exactly those. *)
Theorem bitmap_pop_batch : forall N b limit l b', 0 <= N -> bitmap N b -> 0 <= limit ->
  pop_batch N b limit = (l, b') ->
  Z.of_nat (length l) = Z.min limit (zcount (bit b) 0 (Z.to_nat N)) /\
  StronglySorted Z.lt l /\
  (forall j, In j l -> 0 <= j < N /\ bit b j = true /\ bit b' j = false) /\
  (forall j, ~ In j l -> bit b' j = bit b j) /\
  (forall x j, In x l -> 0 <= j < N -> bit b' j = true -> x < j).
Proof.
  intros N b limit l b' HN Hb Hl E.
  destruct (pop_batch_spec N b limit l b' HN (bitmap_wf _ _ Hb) E) as (_ & A & B & C & D & F).
  split; [lia|]. split; [assumption|]. split; [|split; [|assumption]].
  - intros j Hj. destruct (C j Hj) as (C1 & C2). split; [assumption|]. split; [assumption|].
    rewrite B. apply zmem_In in Hj. rewrite Hj. apply andb_false_r.
  - intros j Hj. rewrite B. destruct (zmem j l) eqn:Ez; [apply zmem_In in Ez; contradiction|].
    apply andb_true_r.
Qed.

(** Bitwise operators. *)
Theorem bitmap_bitwise : forall N a b j, bitmap N a -> bitmap N b -> 0 <= j < N ->
  bit (bm_not N a) j = negb (bit a j) /\ bit (bm_and a b) j = bit a j && bit b j /\
  bit (bm_or a b) j = bit a j || bit b j /\ bit (bm_xor a b) j = xorb (bit a j) (bit b j).
Proof.
  intros N a b j _ _ Hj. split; [|split; [apply bm_and_spec|split; [apply bm_or_spec|apply bm_xor_spec]]].
  pose proof (k_words_bounds N ltac:(lia)). rewrite bm_not_spec by lia.
  replace (j <? N) with true by lia. reflexivity.
Qed.

(** CopyBits copies the range and nothing else. *)
Theorem bitmap_copy : forall Nd Ns dst src d s n j, bitmap Nd dst -> bitmap Ns src ->
  0 <= d -> 0 <= s -> 0 <= n -> s + n <= Ns -> d + n <= Nd ->
  bit (copy_bits dst d src s n) j = if (d <=? j) && (j <? d + n) then bit src (s + (j - d)) else bit dst j.
Proof. intros. apply (copy_bits_spec Ns); try assumption. apply bitmap_wf. assumption. Qed.

(** Scale: expansion repeats each bit; contraction sets a bit iff any (all) of
    the corresponding source bits is (are) set. *)
Theorem bitmap_scale : forall N M src src_len all j, bitmap N src -> 0 < M -> 0 < src_len <= N -> 0 <= j < M ->
  (M mod src_len = 0 -> bit (scale N M src src_len all) j = bit src (j / (M / src_len))) /\
  (src_len mod M = 0 -> let r := src_len / M in
     (bit (scale N M src src_len true) j = true <-> forall i, j * r <= i < (j + 1) * r -> bit src i = true) /\
     (bit (scale N M src src_len false) j = true <-> exists i, j * r <= i < (j + 1) * r /\ bit src i = true)).
Proof.
  intros N M src src_len all j Hb HM Hs Hj. split; intros Hdiv.
  - destruct (scale_spec N M src src_len all HM Hs (or_intror Hdiv)) as (_ & H). rewrite H by assumption.
    assert (Hle : src_len <= M). { destruct (Z.le_gt_cases src_len M); [assumption|]. rewrite Z.mod_small in Hdiv; lia. }
    assert (src_len / M <= 1) by (apply Z.div_le_upper_bound; lia).
    assert (0 < M / src_len) by (apply Z.div_str_pos; lia).
    assert (0 <= src_len / M) by (apply Z.div_pos; lia).
    replace (Z.max 1 (src_len / M)) with 1 by lia. replace (Z.max 1 (M / src_len)) with (M / src_len) by lia.
    replace (j / (M / src_len) * 1) with (j / (M / src_len)) by lia.
    change (Z.to_nat 1) with 1%nat. cbn [zcount]. destruct all; destruct (bit src _); reflexivity.
  - intros r. assert (Hle : M <= src_len). { destruct (Z.le_gt_cases M src_len); [assumption|]. rewrite Z.mod_small in Hdiv; lia. }
    assert (0 < r) by (apply Z.div_str_pos; lia).
    assert (Hd : Z.max 1 (M / src_len) = 1).
    { assert (M / src_len <= 1) by (apply Z.div_le_upper_bound; lia). lia. }
    assert (Hr : Z.max 1 (src_len / M) = r) by (subst r; lia).
    destruct (scale_spec N M src src_len true HM Hs (or_introl Hdiv)) as (_ & H1).
    destruct (scale_spec N M src src_len false HM Hs (or_introl Hdiv)) as (_ & H2).
    rewrite H1, H2 by assumption. rewrite Hd, Hr, Z.div_1_r. clear H1 H2.
    pose proof (zcount_bound (bit src) (Z.to_nat r) (j * r)) as Hb'. split; split.
    + intros H0 i Hi. apply (zcount_full_inv _ (Z.to_nat r) (j * r)); lia.
    + intros H0. rewrite zcount_all; [lia|]. intros; apply H0; lia.
    + intros H0. destruct (Z.eq_dec (zcount (bit src) (j * r) (Z.to_nat r)) 0) as [Ez|Nz]; [lia|].
      clear - Nz H. revert Nz. assert (G : forall n i, zcount (bit src) i n <> 0 -> exists k, i <= k < i + Z.of_nat n /\ bit src k = true).
      { induction n as [|n IH]; intros i Hz; cbn [zcount] in Hz; [lia|].
        destruct (bit src i) eqn:Eb; [exists i; split; [lia|assumption]|].
        destruct (IH (i + 1) ltac:(lia)) as (k & Hk & Hk'). exists k. split; [lia|assumption]. }
      intros Nz. destruct (G _ _ Nz) as (k & Hk & Hk'). exists k. split; [lia|assumption].
    + intros (i & Hi & Hbit).
      destruct (Z.eq_dec (zcount (bit src) (j * r) (Z.to_nat r)) 0) as [Ez|Nz]; [|lia].
      rewrite (zcount_zero_inv _ _ _ Ez) in Hbit by lia. discriminate.
Qed.

(** A concrete bitmap of 100 bits meets the hypotheses, with a range that
    crosses a word boundary; the primitives compute the expected answers. *)
Definition ex_bm : words := clear_range 100 (set_range 100 clear_all 60 10) 65 2.
Example ex_bm_ok : bitmap 100 ex_bm.
Proof. unfold ex_bm. repeat constructor; lia. Qed.
Example ex_bm_find : find_set 100 ex_bm 0 = Some 60 /\ find_clear 100 ex_bm 60 = Some 65 /\
  find_set 100 ex_bm 70 = Some 100 /\ find_set_backwards ex_bm 99 = 69 /\ find_clear_backwards ex_bm 64 = 59 /\
  next_free_range 100 ex_bm 60 = Some (Some (65, 2)) /\ count_bits 100 ex_bm 62 20 = 6 /\
  fst (pop_batch 100 ex_bm 6) = [60; 61; 62; 63; 64; 67].
Proof. vm_compute. repeat split; reflexivity. Qed.

Print Assumptions bitmap_single_bit.
Print Assumptions bitmap_ranges.
Print Assumptions bitmap_count.
Print Assumptions bitmap_is_zero.
Print Assumptions bitmap_find.
Print Assumptions bitmap_find_backwards.
Print Assumptions bitmap_next_free_range.
Print Assumptions bitmap_clear_lowest.
Print Assumptions bitmap_pop_batch.
Print Assumptions bitmap_bitwise.
Print Assumptions bitmap_copy.
Print Assumptions bitmap_scale.
