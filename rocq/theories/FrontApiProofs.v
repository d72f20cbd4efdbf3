(** Lemmas about the entry points. *)
From Verif Require Import Base SizeMap SizeMapProofs SizeMapProofs2 Tables SizeMapProps FrontApi.

(** The allocator has come up with an accepted table. *)
Definition configured (c : cfg) (active full : bool) (t : list sci) (m : sizemap) : Prop :=
  cfg_ok c /\ fits c t /\ valid_size_classes c t = true /\ init c active full t = Some m.

Lemma page_size_pos c : cfg_ok c -> 4096 <= page_size c <= 262144.
Proof.
  intros Hc. destruct (cfg_ok_facts c Hc) as (_ & _ & _ & _ & H & _).
  unfold page_size. change 4096 with (2 ^ 12). change 262144 with (2 ^ 18).
  split; apply Z.pow_le_mono_r; lia.
Qed.

(** The number of pages that cover [s] bytes. *)
Lemma ceil_spec c s : cfg_ok c -> 0 <= s ->
  bytes_to_length_ceil c s = (s + page_size c - 1) / page_size c.
Proof.
  intros Hc Hs. pose proof (page_size_pos c Hc) as Hp.
  destruct (cfg_ok_facts c Hc) as (_ & _ & _ & _ & H12 & Hpow & _).
  unfold bytes_to_length_ceil. rewrite Z.shiftr_div_pow2 by lia. fold (page_size c).
  unfold is_aligned_to. rewrite (land_pow2_mod' s (page_size c) Hpow).
  set (P := page_size c) in *. clearbody P.
  destruct (Z.eqb_spec (s mod P) 0).
  - assert (E : s + P - 1 = (P - 1) + (s / P) * P) by dlia.
    rewrite E, Z.div_add by lia. rewrite (Z.div_small (P - 1)) by lia. lia.
  - assert (E : s + P - 1 = (s mod P - 1) + (s / P + 1) * P) by (Z.div_mod_to_equations; nia).
    rewrite E, Z.div_add by lia.
    pose proof (Z.mod_pos_bound s P ltac:(lia)).
    rewrite (Z.div_small (s mod P - 1)) by lia. lia.
Qed.

Lemma ceil_bytes c s : cfg_ok c -> 0 <= s -> s + page_size c <= two64 ->
  let x := length_in_bytes c (bytes_to_length_ceil c s) in
  x = bytes_to_length_ceil c s * page_size c /\ s <= x < s + page_size c /\ (page_size c | x) /\ x < two64.
Proof.
  intros Hc Hs Hb. pose proof (page_size_pos c Hc) as Hp. cbv zeta.
  assert (E : s <= bytes_to_length_ceil c s * page_size c < s + page_size c).
  { rewrite ceil_spec by assumption. set (P := page_size c) in *. clearbody P. Z.div_mod_to_equations; nia. }
  unfold length_in_bytes. rewrite wrap64_small by lia.
  repeat split; try lia. apply Z.divide_factor_r.
Qed.

Lemma best_fit_unique l a s x y : best_fit l a s x -> best_fit l a s y -> x = y.
Proof.
  intros (X1 & X2 & X3 & X4) (Y1 & Y2 & Y3 & Y4).
  pose proof (X4 y Y1 Y2 Y3). pose proof (Y4 x X1 X2 X3). lia.
Qed.

(** Only the alignment and the size decide between the small and the page path. *)
Lemma lookup_cases c active full t m p s :
  configured c active full t m -> policy_ok c p -> 0 <= s ->
  (align p <= page_size c /\ s <= max_size c /\
   exists cl, get_size_class c m p s = Small cl /\ 0 < cl < num_classes c /\
     best_fit (table_sizes c t) (align p) s (class_to_size m cl)) \/
  ((page_size c < align p \/ max_size c < s) /\ get_size_class c m p s = NotSmall).
Proof.
  intros (Hc & Hf & Hv & Hm) Hp Hs.
  destruct (Z.le_gt_cases (align p) (page_size c)) as [Ha|Ha];
    [destruct (Z.le_gt_cases s (max_size c)) as [Hx|Hx]|].
  - left. split; [assumption|]. split; [assumption|].
    eapply lookup_best_fit; eauto.
  - right. split; [auto|]. apply get_size_class_not_small; auto.
  - right. split; [auto|]. apply get_size_class_not_small; auto.
Qed.

Lemma cpp_policy_ok c numa : cfg_ok c -> 0 <= numa < numa_parts c -> policy_ok c (cpp_policy c numa).
Proof.
  intros Hc Hn. destruct (cfg_ok_facts c Hc) as (_ & _ & Hparts & _).
  unfold policy_ok, cpp_policy, default_sec; cbn. split; [exists 0; split; [lia|reflexivity]|].
  split; [destruct (Z.eqb_spec (sec_parts c) 1); lia|]. split; [lia|]. discriminate.
Qed.

Lemma malloc_policy_ok c numa : cfg_ok c -> 0 <= numa < numa_parts c -> policy_ok c (malloc_policy c numa).
Proof.
  intros Hc Hn. destruct (cfg_ok_facts c Hc) as (_ & _ & Hparts & _).
  unfold policy_ok, malloc_policy, default_sec; cbn. split; [exists 4; split; [lia|reflexivity]|].
  split; [destruct (Z.eqb_spec (sec_parts c) 1); lia|]. split; [lia|]. discriminate.
Qed.

Lemma align_as_ok c p a : policy_ok c p -> is_pow2 a -> policy_ok c (align_as p a).
Proof. intros (H1 & H2 & H3 & H4) Ha. split; [exact Ha|]. cbn. auto. Qed.

Lemma in_partition_ok c p k : cfg_ok c -> policy_ok c p -> 0 <= k -> policy_ok c (in_partition c p k).
Proof.
  intros Hc (H1 & H2 & H3 & H4) Hk. destruct (cfg_ok_facts c Hc) as (_ & _ & Hparts & _).
  split; [exact H1|]. cbn.
  split; [destruct (Z.eqb_spec (sec_parts c) 1); [lia|destruct (0 <? _); lia]|].
  split; [apply Z.mod_pos_bound; lia|exact H4].
Qed.

Lemma in_partition_with_token_ok c p k :
  cfg_ok c -> policy_ok c p -> policy_ok c (in_partition_with_token c p k).
Proof.
  intros Hc (H1 & H2 & H3 & H4). destruct (cfg_ok_facts c Hc) as (_ & _ & Hparts & _).
  split; [exact H1|]. cbn.
  split; [destruct (Z.eqb_spec (sec_parts c) 1); [lia|destruct (0 <? _); lia]|].
  split; [exact H3|exact H4].
Qed.

Lemma has_single_bit_spec x : has_single_bit x = true <-> is_pow2 x.
Proof.
  unfold has_single_bit. split.
  - intros H. apply andb_true_iff in H. destruct H as (Hp & Hl).
    apply Z.ltb_lt in Hp. apply Z.eqb_eq in Hl.
    destruct (Z.log2_spec x Hp) as (L1 & L2).
    set (k := Z.log2 x) in *. assert (Hk : 0 <= k) by apply Z.log2_nonneg.
    exists k. split; [assumption|].
    destruct (Z.eq_dec x (2 ^ k)) as [|Hne]; [assumption|]. exfalso.
    assert (B : Z.testbit (Z.land x (x - 1)) k = true).
    { rewrite Z.land_spec. apply andb_true_iff. split.
      - apply Z.bit_log2. assumption.
      - assert (E : Z.log2 (x - 1) = k) by (apply Z.log2_unique; lia).
        rewrite <- E. apply Z.bit_log2. pose proof (Z.pow_pos_nonneg 2 k). lia. }
    rewrite Hl, Z.bits_0 in B. discriminate.
  - intros H. pose proof (is_pow2_pos _ H). rewrite (land_pow2_mod' x x H).
    rewrite Z.mod_same by lia. replace (0 <? x) with true by lia. reflexivity.
Qed.

(** *** Multiplication *)

Lemma multiply_overflow_spec bi a b : u64 a -> u64 b ->
  multiply_overflow bi a b =
  if a * b <? two64 then (false, a * b) else (true, wrap64 (a * b)).
Proof.
  unfold u64. intros Ha Hb. unfold multiply_overflow, mul_overflow_builtin, mul_overflow_fallback.
  destruct (Z.ltb_spec (a * b) two64) as [Hlt|Hge].
  - rewrite wrap64_small by nia. destruct bi.
    + rewrite Z.eqb_refl. reflexivity.
    + destruct (Z.eqb_spec b 0) as [->|Hb0]; [reflexivity|].
      rewrite Z.div_mul by lia. rewrite Z.eqb_refl. reflexivity.
  - assert (Hw : 0 <= wrap64 (a * b) < two64) by (apply Z.mod_pos_bound; reflexivity).
    destruct bi.
    + f_equal. destruct (Z.eqb_spec (a * b) (wrap64 (a * b))); [lia|reflexivity].
    + f_equal. destruct (Z.eqb_spec b 0) as [->|Hb0]; [unfold two64 in *; lia|]. cbn [negb andb].
      destruct (Z.eqb_spec (wrap64 (a * b) / b) a) as [E|]; [|reflexivity]. exfalso.
      assert (Hd : wrap64 (a * b) / b * b <= wrap64 (a * b)).
      { pose proof (Z.mul_div_le (wrap64 (a * b)) b ltac:(lia)). lia. }
      rewrite E in Hd. lia.
Qed.

(** *** Pointer bits *)

Lemma land_shiftl_r a b n : 0 <= n -> Z.land a (Z.shiftl b n) = Z.shiftl (Z.land (Z.shiftr a n) b) n.
Proof.
  intros Hn. apply Z.bits_inj'. intros i Hi.
  rewrite Z.land_spec. destruct (Z.lt_ge_cases i n).
  - rewrite !Z.shiftl_spec_low by lia. apply andb_false_r.
  - rewrite !Z.shiftl_spec by lia. rewrite Z.land_spec, Z.shiftr_spec by lia.
    replace (i - n + n) with i by lia. reflexivity.
Qed.

Lemma get_memory_tag_land ptr : get_memory_tag ptr = Z.land (Z.shiftr ptr 42) 7.
Proof.
  unfold get_memory_tag, tag_shift. rewrite land_shiftl_r by lia.
  rewrite Z.shiftr_shiftl_l by lia. change (42 - 42) with 0. apply Z.shiftl_0_r.
Qed.

Lemma land_normal ptr : Z.land ptr k_normal_mask = Z.shiftl (Z.land (get_memory_tag ptr) 4) 42.
Proof.
  unfold k_normal_mask, tag_normal_p0, tag_shift. rewrite land_shiftl_r by lia.
  rewrite get_memory_tag_land, <- Z.land_assoc. reflexivity.
Qed.

Lemma land_tag ptr : Z.land ptr k_tag_mask = Z.shiftl (get_memory_tag ptr) 42.
Proof.
  unfold k_tag_mask, tag_shift. rewrite land_shiftl_r by lia.
  rewrite get_memory_tag_land. reflexivity.
Qed.

Lemma land_high ptr : 0 <= ptr < 2 ^ 48 -> Z.land ptr k_bad_high = 0.
Proof.
  intros H. change k_bad_high with (Z.shiftl 65535 48). rewrite land_shiftl_r by lia.
  rewrite Z.shiftr_div_pow2 by lia. rewrite Z.div_small by lia. reflexivity.
Qed.

Lemma land_low ptr : (8 | ptr) -> Z.land ptr k_bad_align = 0.
Proof.
  intros H. unfold k_bad_align. change 7 with (8 - 1). rewrite land_pow2_mod' by (exists 3; split; [lia|reflexivity]).
  apply Z.mod_divide; [lia|assumption].
Qed.

Lemma good_ptr_masks ptr : 0 <= ptr < 2 ^ 48 -> (8 | ptr) ->
  Z.land ptr k_normal_or_bad = Z.shiftl (Z.land (get_memory_tag ptr) 4) 42 /\
  Z.land ptr k_tag_or_bad = Z.shiftl (get_memory_tag ptr) 42.
Proof.
  intros H1 H2. unfold k_normal_or_bad, k_tag_or_bad.
  rewrite !Z.land_lor_distr_r, land_high, land_low, land_normal, land_tag by assumption.
  rewrite !Z.lor_0_r, !Z.lor_0_l. auto.
Qed.

(** A pointer whose tag is not a normal one never passes the fast-path test. *)
Lemma not_normal ptr : Z.land (get_memory_tag ptr) 4 = 0 -> Z.land ptr k_normal_or_bad <> k_normal_mask.
Proof.
  intros H E. assert (X : Z.land (Z.land ptr k_normal_or_bad) k_normal_mask = Z.land ptr k_normal_mask).
  { rewrite <- Z.land_assoc. reflexivity. }
  rewrite E, (land_normal ptr), H in X. discriminate X.
Qed.

Lemma not_cold ptr : get_memory_tag ptr <> 2 -> Z.land ptr k_tag_or_bad <> k_cold_mask.
Proof.
  intros H E. assert (X : Z.land (Z.land ptr k_tag_or_bad) k_tag_mask = Z.land ptr k_tag_mask).
  { rewrite <- Z.land_assoc. reflexivity. }
  rewrite E, (land_tag ptr) in X. apply H.
  change (Z.land k_cold_mask k_tag_mask) with (Z.shiftl 2 42) in X.
  apply (f_equal (fun v => Z.shiftr v 42)) in X.
  rewrite !Z.shiftr_shiftl_l in X by lia. change (42 - 42) with 0 in X. rewrite !Z.shiftl_0_r in X. auto.
Qed.
