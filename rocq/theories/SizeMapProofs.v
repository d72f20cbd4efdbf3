(** Lemmas about the size-class map. *)
From Verif Require Import Base SizeMap.

Ltac Zify.zify_post_hook ::= Z.div_mod_to_equations.

(** A validated list of class sizes: [f 0 = 0], strictly increasing up to the
    maximum, with the granularity that the index function needs. *)
Record sizes_ok (c : cfg) (f : Z -> Z) (L : Z) : Prop := {
  so_len : 2 <= L <= num_base c;
  so_zero : f 0 = 0;
  so_incr : forall k, 1 <= k < L -> f (k - 1) < f k;
  so_max  : forall k, 1 <= k < L -> f k <= max_size c;
  so_mod8 : forall k, 1 <= k < L -> f k mod 8 = 0;
  so_mod128 : forall k, 1 <= k < L -> 1024 < f k -> f k mod 128 = 0;
  so_last : f (L - 1) = max_size c
}.

(** Class [k] is the first one that can hold [s] bytes. *)
Definition least (f : Z -> Z) (L s k : Z) : Prop :=
  1 <= k < L /\ s <= f k /\ forall j, 1 <= j < k -> f j < s.

Lemma so_mono c f L : sizes_ok c f L ->
  forall j k, 0 <= j -> j <= k -> k < L -> f j <= f k.
Proof.
  intros H j k Hj Hjk. replace k with (j + Z.of_nat (Z.to_nat (k - j))) by lia.
  induction (Z.to_nat (k - j)) as [|n IH]; intros HL.
  - replace (j + Z.of_nat 0) with j by lia. lia.
  - specialize (IH ltac:(lia)).
    pose proof (so_incr _ _ _ H (j + Z.of_nat (S n)) ltac:(lia)) as Hi.
    replace (j + Z.of_nat (S n) - 1) with (j + Z.of_nat n) in Hi by lia. lia.
Qed.

Lemma so_pos c f L : sizes_ok c f L -> forall k, 1 <= k < L -> 0 < f k.
Proof.
  intros H k Hk. pose proof (so_incr _ _ _ H k Hk).
  pose proof (so_mono _ _ _ H 0 (k-1) ltac:(lia) ltac:(lia) ltac:(lia)).
  rewrite (so_zero _ _ _ H) in *. lia.
Qed.

Lemma so_ge8 c f L : sizes_ok c f L -> forall k, 1 <= k < L -> 8 <= f k.
Proof.
  intros H k Hk. pose proof (so_pos _ _ _ H k Hk). pose proof (so_mod8 _ _ _ H k Hk). lia.
Qed.

Lemma least_unique c f L s k1 k2 : sizes_ok c f L ->
  least f L s k1 -> least f L s k2 -> k1 = k2.
Proof.
  intros H (A1 & B1 & C1) (A2 & B2 & C2).
  destruct (Z.lt_trichotomy k1 k2) as [Hlt|[->|Hlt]]; [|reflexivity|].
  - specialize (C2 k1 ltac:(lia)). lia.
  - specialize (C1 k2 ltac:(lia)). lia.
Qed.

(** ** The index function *)

Definition ci (s : Z) : Z := if s <=? 1024 then (s + 7) / 8 else (s + 15487) / 128.

Lemma class_index_ci c s : 0 <= s <= max_size c -> class_index c s = Some (ci s).
Proof.
  intros H. unfold class_index, ci, k_large_size.
  rewrite !Z.shiftr_div_pow2 by lia. change (2^3) with 8. change (2^7) with 128.
  destruct (Z.leb_spec s 1024); [reflexivity|].
  replace (s <=? max_size c) with true by lia. f_equal. f_equal. lia.
Qed.

Definition max_ok (c : cfg) : Prop := 1024 <= max_size c /\ max_size c mod 128 = 0.

Lemma class_array_size_eq c : class_array_size c = (max_size c + 15487) / 128 + 1.
Proof.
  unfold class_array_size. rewrite Z.shiftr_div_pow2 by lia. change (2^7) with 128.
  f_equal. f_equal. lia.
Qed.

Lemma ci_bound c s : max_ok c -> 0 <= s <= max_size c -> 0 <= ci s < class_array_size c.
Proof.
  intros (Hm & _) H. rewrite class_array_size_eq. unfold ci.
  destruct (Z.leb_spec s 1024); lia.
Qed.

Definition up8 (s : Z) : Z := 8 * ((s + 7) / 8).

Lemma ci_up8 s : 0 <= s -> ci (up8 s) = ci s.
Proof.
  intros H. unfold ci, up8.
  destruct (Z.leb_spec s 1024).
  - replace (8 * ((s + 7) / 8) <=? 1024) with true by lia. lia.
  - replace (8 * ((s + 7) / 8) <=? 1024) with false by lia. lia.
Qed.

(** Sizes on the two sides of a class boundary have different indices. *)
Lemma ci_boundary b s s' :
  0 <= b -> b mod 8 = 0 -> (1024 < b -> b mod 128 = 0) ->
  0 <= s <= b -> b + 8 <= s' -> ci s <> ci s'.
Proof.
  intros Hb H8 H128 Hs Hs'. unfold ci.
  destruct (Z.leb_spec s 1024); destruct (Z.leb_spec s' 1024); try lia.
Qed.

(** ** The fill loops *)

Lemma write_class_in offs i cl a j :
  (exists off, In off offs /\ j = i + off) -> write_class offs i cl a j = cl.
Proof.
  unfold write_class. revert a. induction offs as [|o offs IH]; cbn; intros a (off & Hin & Hj).
  - contradiction.
  - destruct (in_dec Z.eq_dec (j - i) offs) as [Hi|Hni].
    + apply IH. exists (j - i). split; [assumption|lia].
    + destruct Hin as [->|Hin]; [|exfalso; apply Hni; replace (j - i) with off by lia; assumption].
      assert (Hkeep : forall l a, (~ In (j - i) l) -> a j = cl ->
                fold_left (fun a off => upd a (i + off) cl) l a j = cl).
      { clear. induction l as [|o l IH]; cbn; intros a Hn Ha; [assumption|].
        apply IH; [tauto|]. rewrite upd_other; [assumption|]. intros E. apply Hn. left. lia. }
      apply Hkeep; [assumption|]. rewrite Hj. apply upd_same.
Qed.

Lemma write_class_out offs i cl a j :
  (forall off, In off offs -> j <> i + off) -> write_class offs i cl a j = a j.
Proof.
  unfold write_class. revert a. induction offs as [|o offs IH]; cbn; intros a H; [reflexivity|].
  rewrite IH by auto. apply upd_other. auto.
Qed.

Lemma fill_sizes_spec c offs cl n : forall s a,
  0 <= s -> (n <> O -> s + 8 * (Z.of_nat n - 1) <= max_size c) ->
  exists a', fill_sizes c offs n s cl a = Some a' /\
    (forall i off, 0 <= i < Z.of_nat n -> In off offs -> a' (ci (s + 8 * i) + off) = cl) /\
    (forall j, (forall i off, 0 <= i < Z.of_nat n -> In off offs -> j <> ci (s + 8 * i) + off) ->
               a' j = a j) /\
    (forall j, a j = cl -> a' j = cl).
Proof.
  induction n as [|n IH]; intros s a Hs Hmax.
  - exists a. cbn. split; [reflexivity|]. split; [intros; lia|]. auto.
  - cbn [fill_sizes]. rewrite class_index_ci by lia.
    destruct (IH (s + 8) (write_class offs (ci s) cl a)) as (a' & E & H1 & H2 & H3);
      [lia|intros; lia|].
    exists a'. unfold k_alignment. split; [exact E|]. split; [|split].
    + intros i off Hi Hoff. destruct (Z.eq_dec i 0) as [->|Hne].
      * apply H3. replace (s + 8 * 0) with s by lia. apply write_class_in. eauto.
      * replace (s + 8 * i) with (s + 8 + 8 * (i - 1)) by lia. apply H1; [lia|assumption].
    + intros j Hj. rewrite H2.
      * apply write_class_out. intros off Hoff. specialize (Hj 0 off ltac:(lia) Hoff).
        replace (s + 8 * 0) with s in Hj by lia. assumption.
      * intros i off Hi Hoff. specialize (Hj (i + 1) off ltac:(lia) Hoff).
        replace (s + 8 * (i + 1)) with (s + 8 + 8 * i) in Hj by lia. assumption.
    + intros j Hj. apply H3.
      destruct (in_dec Z.eq_dec (j - ci s) offs) as [Hi|Hni].
      * apply write_class_in. exists (j - ci s). split; [assumption|lia].
      * rewrite write_class_out; [assumption|]. intros off Hoff E2. apply Hni.
        replace (j - ci s) with off by lia. assumption.
Qed.

(** Position at which the loop over sizes of class [k] starts. *)
Definition nx (f : Z -> Z) (lo k : Z) : Z := if k =? 1 then lo else f (k - 1) + 8.

Lemma reg_sep K x y i q : 0 <= x < K -> 0 <= y < K -> x + K * i = y + K * q -> i = q.
Proof.
  intros Hx Hy E.
  assert (H : forall z j, 0 <= z < K -> (z + K * j) / K = j).
  { intros z j Hz. rewrite Z.mul_comm, Z.div_add by lia. rewrite Z.div_small by lia. lia. }
  rewrite <- (H x i Hx), E. apply H. assumption.
Qed.

Lemma fill_classes_spec c offs skip0 cts base f L lo :
  max_ok c -> sizes_ok c f L ->
  (forall off, In off offs -> exists q, off = class_array_size c * q) ->
  (lo = 0 \/ lo = 8) ->
  (forall k, 1 <= k < L -> cts (base + k) = f k) ->
  forall n k a, 1 <= k < L -> L - k <= Z.of_nat n ->
  exists a', fill_classes c offs skip0 cts n (base + k) (nx f lo k) a = Some a' /\
    (forall s off, s mod 8 = 0 -> nx f lo k <= s <= max_size c -> In off offs ->
       exists k', least f L s k' /\ a' (ci s + off) = base + k') /\
    (forall j, (forall s off, s mod 8 = 0 -> nx f lo k <= s <= max_size c -> In off offs ->
                  j <> ci s + off) -> a' j = a j).
Proof.
  intros Hmax Hok Hoffs Hlo Hcts.
  induction n as [|n IH]; intros k a Hk Hn; [lia|].
  pose proof (so_pos _ _ _ Hok k Hk) as Hpos.
  pose proof (so_max _ _ _ Hok k Hk) as Hle.
  pose proof (so_mod8 _ _ _ Hok k Hk) as Hm8.
  pose proof (so_mod128 _ _ _ Hok k Hk) as Hm128.
  pose proof (so_incr _ _ _ Hok k Hk) as Hinc.
  pose proof (so_ge8 _ _ _ Hok k Hk) as Hge8.
  assert (Hnx8 : nx f lo k mod 8 = 0 /\ 0 <= nx f lo k /\ nx f lo k <= f k).
  { unfold nx. destruct (Z.eqb_spec k 1) as [->|Hne].
    - lia.
    - pose proof (so_mod8 _ _ _ Hok (k-1) ltac:(lia)).
      pose proof (so_pos _ _ _ Hok (k-1) ltac:(lia)). lia. }
  destruct Hnx8 as (Hnx8 & Hnx0 & Hnxle).
  cbn [fill_classes]. rewrite (Hcts k Hk).
  replace (skip0 && (f k =? 0)) with false by (destruct skip0; lia).
  assert (Hcnt : Z.of_nat (fill_count (nx f lo k) (f k)) = (f k - nx f lo k) / 8 + 1).
  { unfold fill_count, k_alignment.
    replace (nx f lo k <=? f k) with true by lia. lia. }
  destruct (fill_sizes_spec c offs (base + k) (fill_count (nx f lo k) (f k)) (nx f lo k) a)
    as (a1 & E1 & P1 & P2 & _); [lia|intros _; rewrite Hcnt; lia|].
  rewrite E1.
  (* sizes handled by this class *)
  assert (Hthis : forall s, s mod 8 = 0 -> nx f lo k <= s <= f k -> least f L s k).
  { intros s Hs8 Hs. split; [lia|]. split; [lia|]. intros j Hj.
    unfold nx in Hs. destruct (Z.eqb_spec k 1); [lia|].
    pose proof (so_mono _ _ _ Hok j (k-1) ltac:(lia) ltac:(lia) ltac:(lia)). lia. }
  assert (Hwr : forall s off, s mod 8 = 0 -> nx f lo k <= s <= f k -> In off offs ->
                a1 (ci s + off) = base + k).
  { intros s off Hs8 Hs Hoff.
    specialize (P1 ((s - nx f lo k) / 8) off).
    replace (nx f lo k + 8 * ((s - nx f lo k) / 8)) with s in P1 by lia.
    apply P1; [lia|assumption]. }
  destruct (Z.ltb_spec (max_size c) (f k + k_alignment)) as [Hend|Hcont].
  - exists a1. split; [reflexivity|]. split.
    + intros s off Hs8 Hs Hoff. exists k.
      unfold k_alignment in Hend.
      assert (max_size c = f k).
      { pose proof (so_last _ _ _ Hok) as Hl. pose proof Hmax as (Hm1 & Hm2). lia. }
      split; [apply Hthis; lia|apply Hwr; try assumption; lia].
    + intros j Hj. apply P2. intros i off Hi Hoff. apply Hj; try assumption.
      * lia.
      * rewrite Hcnt in Hi. lia.
  - unfold k_alignment in Hcont.
    assert (HkL : k + 1 < L).
    { destruct (Z.eq_dec (k + 1) L) as [E|]; [|lia].
      pose proof (so_last _ _ _ Hok) as Hl. replace (L - 1) with k in Hl by lia. lia. }
    replace (base + k + 1) with (base + (k + 1)) by lia.
    assert (Enx : f k + k_alignment = nx f lo (k + 1)).
    { unfold nx, k_alignment. replace (k + 1 =? 1) with false by lia. f_equal. f_equal. lia. }
    rewrite Enx.
    destruct (IH (k + 1) a1) as (a' & E & Q1 & Q2); [lia|lia|].
    exists a'. split; [exact E|]. split.
    + intros s off Hs8 Hs Hoff.
      destruct (Z.le_gt_cases s (f k)) as [Hsk|Hsk].
      * exists k. split; [apply Hthis; lia|].
        rewrite Q2; [apply Hwr; try assumption; lia|].
        intros s' off' Hs8' Hs' Hoff'. rewrite <- Enx in Hs'. unfold k_alignment in Hs'.
        pose proof (ci_boundary (f k) s s' ltac:(lia) Hm8 Hm128 ltac:(lia) ltac:(lia)) as Hb.
        pose proof (ci_bound c s Hmax ltac:(lia)) as B1.
        pose proof (ci_bound c s' Hmax ltac:(lia)) as B2.
        destruct (Hoffs _ Hoff) as (q & ->). destruct (Hoffs _ Hoff') as (q' & ->).
        intros Heq. assert (q = q') by exact (reg_sep _ _ _ _ _ B1 B2 Heq). subst q'. lia.
      * apply Q1; try assumption. rewrite <- Enx. unfold k_alignment. lia.
    + intros j Hj. rewrite Q2.
      * apply P2. intros i off Hi Hoff. apply Hj; try assumption; [lia|].
        rewrite Hcnt in Hi. lia.
      * intros s off Hs8 Hs Hoff. apply Hj; try assumption.
        rewrite <- Enx in Hs. unfold k_alignment in Hs. lia.
Qed.

(** Registers of the class array. *)
Definition reg_is (c : cfg) (f : Z -> Z) (L : Z) (a : Z -> Z) (i s b : Z) : Prop :=
  exists k, least f L s k /\ a (ci s + class_array_size c * i) = b + k.

Lemma least_up8 c f L s k : sizes_ok c f L -> 0 <= s -> s <= max_size c ->
  least f L (up8 s) k -> least f L s k.
Proof.
  intros H H0 Hm (A & B & C). unfold up8 in *. split; [assumption|]. split; [lia|].
  intros j Hj. specialize (C j Hj). pose proof (so_mod8 _ _ _ H j ltac:(lia)). lia.
Qed.

Lemma up8_le_max c s : max_ok c -> 0 <= s <= max_size c ->
  up8 s mod 8 = 0 /\ s <= up8 s <= max_size c.
Proof. intros (H1 & H2) H. unfold up8. lia. Qed.

(** Result of one fill loop, register by register. *)
Lemma fill_reg c offs skip0 cts base f L lo n a :
  max_ok c -> sizes_ok c f L ->
  (forall off, In off offs -> exists q, off = class_array_size c * q) ->
  (lo = 0 \/ lo = 8) ->
  (forall k, 1 <= k < L -> cts (base + k) = f k) ->
  L - 1 <= Z.of_nat n ->
  exists a', fill_classes c offs skip0 cts n (base + 1) lo a = Some a' /\
    (forall s i, lo <= up8 s -> 0 <= s <= max_size c -> In (class_array_size c * i) offs ->
       reg_is c f L a' i s base) /\
    (forall s i, 0 <= s <= max_size c ->
       (~ In (class_array_size c * i) offs \/ up8 s < lo) ->
       a' (ci s + class_array_size c * i) = a (ci s + class_array_size c * i)).
Proof.
  intros Hmax Hok Hoffs Hlo Hcts Hn.
  pose proof (so_len _ _ _ Hok) as HL.
  destruct (fill_classes_spec c offs skip0 cts base f L lo Hmax Hok Hoffs Hlo Hcts n 1 a)
    as (a' & E & P1 & P2); [lia|lia|].
  assert (Hnx1 : nx f lo 1 = lo) by reflexivity. rewrite Hnx1 in *.
  exists a'. split; [exact E|]. split.
  - intros s i Hlo' Hs Hin.
    destruct (up8_le_max c s Hmax Hs) as (U1 & U2).
    destruct (P1 (up8 s) _ U1 ltac:(lia) Hin) as (k & Hk & Ha).
    exists k. rewrite ci_up8 in Ha by lia.
    split; [eapply least_up8; eauto; lia|assumption].
  - intros s i Hs Hor. apply P2. intros s' off Hs8 Hs' Hoff Heq.
    pose proof (ci_bound c s Hmax Hs) as B1.
    pose proof (ci_bound c s' Hmax ltac:(lia)) as B2.
    destruct (Hoffs _ Hoff) as (q & ->).
    assert (i = q) by exact (reg_sep _ _ _ _ _ B1 B2 Heq). subst q.
    destruct Hor as [Hni|Hlt]; [contradiction|].
    assert (Hcs : ci s = ci s') by lia.
    (* only s = 0 is below lo *)
    unfold up8 in Hlt. assert (s = 0) by lia. subst s.
    unfold ci in Hcs. change (0 <=? 1024) with true in Hcs. cbv iota in Hcs.
    destruct (Z.leb_spec s' 1024); lia.
Qed.

Lemma copy_reg c f L a i0 i s b :
  max_ok c -> 0 <= i0 -> 0 <= i -> 0 <= s <= max_size c ->
  reg_is c f L a i0 s b ->
  reg_is c f L (copy_range a (class_array_size c * i0) (class_array_size c * i) (class_array_size c)) i s b.
Proof.
  intros Hmax Hi0 Hi Hs (k & Hk & Ha). exists k. split; [assumption|].
  pose proof (ci_bound c s Hmax Hs).
  rewrite copy_range_in by nia. rewrite <- Ha. f_equal. lia.
Qed.

Lemma copy_reg_other c f L a src i0 i s b :
  max_ok c -> i <> i0 -> 0 <= s <= max_size c ->
  reg_is c f L a i s b ->
  reg_is c f L (copy_range a src (class_array_size c * i0) (class_array_size c)) i s b.
Proof.
  intros Hmax Hi Hs (k & Hk & Ha). exists k. split; [assumption|].
  pose proof (ci_bound c s Hmax Hs).
  rewrite copy_range_out; [assumption|]. nia.
Qed.

Lemma fill_reg_other c f L a a' offs lo i s b :
  0 <= s <= max_size c ->
  (forall s i, 0 <= s <= max_size c ->
       (~ In (class_array_size c * i) offs \/ up8 s < lo) ->
       a' (ci s + class_array_size c * i) = a (ci s + class_array_size c * i)) ->
  (~ In (class_array_size c * i) offs \/ up8 s < lo) ->
  reg_is c f L a i s b -> reg_is c f L a' i s b.
Proof.
  intros Hs H Hor (k & Hk & Ha). exists k. split; [assumption|]. rewrite H; assumption.
Qed.

(** The register that a (placement) policy reads, and the block of classes it
    selects: 0 = partition 0, [num_base] = partition 1, [expanded_start] = cold. *)
Definition reg_base (c : cfg) (active full : bool) (i s : Z) : Z :=
  let active := (1 <? sec_parts c) && active in
  let new_p0 := if active && negb full then num_base c else 0 in
  let p1 := if active then num_base c else 0 in
  let cold_p0 := if s =? 0 then new_p0 else expanded_start c in
  if i =? 0 then new_p0
  else if i <? sec_parts c then p1
  else if i =? sec_parts c then 0
  else if i <? 2 * sec_parts c then p1
  else if i =? 2 * sec_parts c then cold_p0
  else if full then p1 else cold_p0.

Lemma cfg_ok_facts c : cfg_ok c ->
  max_ok c /\ 0 < num_base c /\
  ((sec_parts c = 1 /\ numa_parts c = 1) \/ (sec_parts c = 1 /\ numa_parts c = 2)
   \/ (sec_parts c = 2 /\ numa_parts c = 1)) /\
  (max_size c) mod (page_size c) = 0 /\
  (12 <= page_shift c <= 18) /\
  is_pow2 (page_size c) /\ max_size c <= 262144.
Proof.
  intros (sec & numa & Hp & Hc).
  assert (Hpow : forall k, 0 <= k -> is_pow2 (2 ^ k)) by (intros k Hk; exists k; auto).
  destruct Hc as [->|[->|[->| ->]]]; unfold max_ok, page_size; cbn -[Z.pow];
    (split; [split; reflexivity || lia|]); (split; [lia|]);
    (split; [lia|]); (split; [reflexivity|]); (split; [lia|]); (split; [apply Hpow; lia|lia]).
Qed.

Lemma num_regs c : cfg_ok c ->
  num_classes c = num_base c * (normal_parts c + if expanded c then 1 else 0).
Proof.
  intros H. unfold num_classes, expanded_start. destruct (expanded c); lia.
Qed.

Lemma copy_hot_0 c f L a n i0 s b :
  max_ok c -> 1 <= i0 -> 0 <= s <= max_size c ->
  reg_is c f L a 0 s b ->
  forall i, (0 <= i < i0 -> reg_is c f L a i s b) ->
  0 <= i < i0 + Z.of_nat n ->
  reg_is c f L (copy_hot (class_array_size c) n i0 a) i s b.
Proof.
  intros Hmax. revert a i0. induction n as [|n IH]; intros a i0 Hi0 Hs H0 i Hprev Hi.
  - cbn. apply Hprev. lia.
  - cbn [copy_hot].
    assert (Hr0 : forall j, 0 <= j < i0 -> j <> i0) by lia.
    apply IH; try lia.
    + apply copy_reg_other; try assumption; lia.
    + intros Hi'. destruct (Z.eq_dec i i0) as [->|Hne].
      * replace 0 with (class_array_size c * 0) by lia. apply copy_reg; try assumption; lia.
      * apply copy_reg_other; try assumption. apply Hprev. lia.
Qed.

Lemma init_array_spec c active full f L cts :
  cfg_ok c -> sizes_ok c f L ->
  (forall r k, 0 <= r < num_classes c / num_base c -> 0 <= k < L -> cts (num_base c * r + k) = f k) ->
  exists a, init_array c active full cts = Some a /\
    forall i s, 0 <= i < hot_registers c + (if expanded c then sec_parts c else 0) ->
      0 <= s <= max_size c ->
      reg_is c f L a i s (reg_base c active full i s).
Proof.
  intros Hc Hok Hcts.
  destruct (cfg_ok_facts c Hc) as (Hmax & Hnb & Hparts & _).
  pose proof (num_regs c Hc) as Hnc.
  pose proof (so_len _ _ _ Hok) as HL.
  assert (Hregs : num_classes c / num_base c = normal_parts c + if expanded c then 1 else 0).
  { rewrite Hnc. rewrite Z.mul_comm. rewrite Z.div_mul by lia. reflexivity. }
  assert (HK : 0 < class_array_size c).
  { pose proof (ci_bound c 0 Hmax). destruct Hmax. lia. }
  unfold init_array.
  assert (Hnp : 1 <= normal_parts c) by (unfold normal_parts; nia).
  destruct (fill_reg c [0] false cts 0 f L 0 (Z.to_nat (num_classes c - 1)) (fun _ => 0)
              Hmax Hok) as (a1 & E1 & P1 & P1').
  { intros off [<-|[]]. exists 0. lia. }
  { lia. }
  { intros k Hk. rewrite <- (Hcts 0 k) by (try rewrite Hregs; destruct (expanded c); lia). f_equal. lia. }
  { destruct (expanded c); nia. }
  replace (0 + 1) with 1 in E1 by lia. rewrite E1. cbn [obind].
  set (a2 := copy_hot _ _ _ _).
  assert (P2 : forall i s, 0 <= i < hot_registers c -> 0 <= s <= max_size c -> reg_is c f L a2 i s 0).
  { intros i s Hi Hs.
    assert (H0 : reg_is c f L a1 0 s 0).
    { apply P1; try assumption; [unfold up8; lia|left; lia]. }
    apply copy_hot_0; try assumption; try lia.
    intros Hi'. replace i with 0 by lia. exact H0. }
  clearbody a2. clear P1 P1' E1 a1.
  (* partition 1 *)
  set (m3 := if (1 <? sec_parts c) && active then _ else Some a2).
  assert (P3 : exists a3, m3 = Some a3 /\
     forall i s, 0 <= i < hot_registers c -> 0 <= s <= max_size c ->
       reg_is c f L a3 i s (reg_base c active full i s)).
  { subst m3. unfold reg_base.
    destruct ((1 <? sec_parts c) && active) eqn:Eact.
    - assert (Hs2 : sec_parts c = 2 /\ numa_parts c = 1) by lia. destruct Hs2 as (Hs2 & Hn1).
      set (offs := class_array_size c * (sec_parts c + 1) :: class_array_size c ::
                   (if full then [] else [0])).
      destruct (fill_reg c offs false cts (num_base c) f L 0
                  (Z.to_nat (expanded_start c - (num_base c + 1))) a2 Hmax Hok)
        as (a3 & E3 & Q1 & Q2).
      { intros off. subst offs. cbn. intros [<-|[<-|Hin]].
        - exists (sec_parts c + 1). lia.
        - exists 1. lia.
        - destruct full; [contradiction|]. destruct Hin as [<-|[]]. exists 0. lia. }
      { lia. }
      { intros k Hk. rewrite <- (Hcts 1 k) by (try rewrite Hregs; unfold normal_parts; destruct (expanded c); lia).
        f_equal. lia. }
      { unfold expanded_start, normal_parts. rewrite Hs2, Hn1. lia. }
      exists a3. split; [exact E3|]. intros i s Hi Hs.
      unfold hot_registers in Hi. rewrite Hs2 in *.
      assert (Hcases : i = 0 \/ i = 1 \/ i = 2 \/ i = 3) by lia.
      destruct Hcases as [->|[->|[->| ->]]]; cbn.
      + destruct full; cbn.
        * eapply fill_reg_other; [assumption|exact Q2| |apply P2; [unfold hot_registers; lia|assumption]].
          left. subst offs. cbn. lia.
        * apply Q1; [unfold up8; lia|assumption|]. subst offs. cbn. lia.
      + apply Q1; [unfold up8; lia|assumption|]. subst offs. cbn. lia.
      + eapply fill_reg_other; [assumption|exact Q2| |apply P2; [unfold hot_registers; lia|assumption]].
        left. subst offs. destruct full; cbn; lia.
      + apply Q1; [unfold up8; lia|assumption|]. subst offs. rewrite Hs2. cbn. lia.
    - exists a2. split; [reflexivity|]. intros i s Hi Hs. cbn.
      specialize (P2 i s Hi Hs). unfold hot_registers in Hi.
      destruct (i =? 0); [assumption|]. destruct (i <? sec_parts c); [assumption|].
      destruct (i =? sec_parts c); [assumption|].
      replace (i <? 2 * sec_parts c) with true by lia. assumption. }
  clearbody m3. destruct P3 as (a3 & -> & P3). cbn [obind].
  destruct (expanded c) eqn:Eexp.
  2:{ exists a3. split; [reflexivity|]. intros i s Hi Hs. apply P3; [lia|assumption]. }
  set (a4 := copy_range a3 0 _ _).
  assert (P4 : forall i s, 0 <= i < hot_registers c + 1 -> 0 <= s <= max_size c ->
             reg_is c f L a4 i s (reg_base c active full (if i =? hot_registers c then 0 else i) s)).
  { intros i s Hi Hs. subst a4. unfold cold_stride.
    destruct (Z.eqb_spec i (hot_registers c)) as [->|Hne].
    - pose proof (copy_reg c f L a3 0 (hot_registers c) s (reg_base c active full 0 s) Hmax) as HH.
      replace (class_array_size c * 0) with 0 in HH by lia. apply HH; try lia.
      apply P3; [unfold hot_registers; lia|assumption].
    - apply copy_reg_other; try assumption. apply P3; [lia|assumption]. }
  clearbody a4.
  (* cold loop: first class has size 0 *)
  assert (Hcold0 : Z.to_nat (num_classes c - expanded_start c) = S (Z.to_nat (num_base c - 1))).
  { unfold num_classes. rewrite Eexp. lia. }
  assert (Hcc : forall k, 0 <= k < L -> cts (expanded_start c + k) = f k).
  { intros k Hk. unfold expanded_start. rewrite (Hcts (normal_parts c) k); [reflexivity| |lia].
    rewrite Hregs. lia. }
  rewrite Hcold0. cbn [fill_classes].
  pose proof (Hcc 0 ltac:(lia)) as Hc0. rewrite (so_zero _ _ _ Hok) in Hc0.
  replace (expanded_start c + 0) with (expanded_start c) in Hc0 by lia.
  rewrite Hc0. cbn [andb]. replace (0 =? 0) with true by lia.
  replace (0 + k_alignment) with 8 by reflexivity.
  destruct (fill_reg c [class_array_size c * cold_stride c] true cts (expanded_start c) f L 8
              (Z.to_nat (num_base c - 1)) a4 Hmax Hok) as (a5 & E5 & R1 & R2).
  { intros off [<-|[]]. eauto. }
  { lia. }
  { intros k Hk. apply Hcc. lia. }
  { lia. }
  rewrite E5. cbn [obind].
  assert (Hnin : forall i, i <> hot_registers c ->
            ~ In (class_array_size c * i) [class_array_size c * cold_stride c]).
  { intros i Hi [E|[]]. unfold cold_stride in E. apply Hi. nia. }
  assert (P5 : forall i s, 0 <= i < hot_registers c + 1 -> 0 <= s <= max_size c ->
             reg_is c f L a5 i s (reg_base c active full i s)).
  { intros i s Hi Hs. destruct (Z.eq_dec i (hot_registers c)) as [->|Hne].
    - assert (Hrb : reg_base c active full (hot_registers c) s =
                    if s =? 0 then reg_base c active full 0 s else expanded_start c).
      { unfold reg_base, hot_registers.
        replace (2 * sec_parts c =? 0) with false by lia.
        replace (2 * sec_parts c <? sec_parts c) with false by lia.
        replace (2 * sec_parts c =? sec_parts c) with false by lia.
        replace (2 * sec_parts c <? 2 * sec_parts c) with false by lia.
        rewrite Z.eqb_refl. reflexivity. }
      rewrite Hrb. destruct (Z.eqb_spec s 0) as [->|Hs0].
      + eapply fill_reg_other; [assumption|exact R2|right; reflexivity|].
        specialize (P4 (hot_registers c) 0 ltac:(unfold hot_registers in *; lia) Hs).
        rewrite Z.eqb_refl in P4. exact P4.
      + apply R1; [unfold up8; lia|assumption|left; reflexivity].
    - eapply fill_reg_other; [assumption|exact R2|left; auto|].
      specialize (P4 i s Hi Hs). replace (i =? hot_registers c) with false in P4 by lia. exact P4. }
  destruct (Z.ltb_spec 1 (sec_parts c)) as [Hsp|Hsp].
  2:{ exists a5. split; [reflexivity|]. intros i s Hi Hs. apply P5; [lia|assumption]. }
  assert (Hs2 : sec_parts c = 2) by lia.
  unfold hot_registers in P5. rewrite Hs2 in *.
  assert (Hlast : forall s, reg_base c active full 5 s =
            if full then reg_base c active full 1 s else reg_base c active full 4 s).
  { intros s. unfold reg_base. rewrite Hs2. cbn. reflexivity. }
  destruct full.
  - eexists. split; [reflexivity|]. intros i s Hi Hs. unfold hot_registers in Hi. rewrite Hs2 in Hi.
    destruct (Z.eq_dec i 5) as [->|Hne].
    + rewrite Hlast.
      pose proof (copy_reg c f L a5 1 5 s (reg_base c active true 1 s) Hmax) as HH.
      replace (class_array_size c * 1) with (class_array_size c) in HH by lia.
      apply HH; try lia. apply P5; [lia|assumption].
    + apply copy_reg_other; try assumption. apply P5; [lia|assumption].
  - eexists. split; [reflexivity|]. intros i s Hi Hs. unfold hot_registers in Hi. rewrite Hs2 in Hi.
    destruct (Z.eq_dec i 5) as [->|Hne].
    + rewrite Hlast.
      apply (copy_reg c f L a5 4 5 s (reg_base c active false 4 s) Hmax); try lia.
      apply P5; [lia|assumption].
    + apply copy_reg_other; try assumption. apply P5; [lia|assumption].
Qed.

Ltac Zify.zify_post_hook ::= idtac.
