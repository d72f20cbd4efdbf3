(** Properties C01, C02 and C03: size-class selection. *)
From Verif Require Import Base SizeMap SizeMapProofs SizeMapProofs2 Tables.

(** ** Specification *)

(** [x] is the smallest member of [sizes] that is at least [s] and a multiple
    of [al]. *)
Definition best_fit (sizes : list Z) (al s x : Z) : Prop :=
  In x sizes /\ s <= x /\ (al | x) /\
  forall y, In y sizes -> s <= y -> (al | y) -> x <= y.

(** The object sizes a table offers: all entries but the first (class 0 is
    reserved), limited to the number of base classes of the configuration. *)
Definition table_sizes (c : cfg) (t : list sci) : list Z :=
  map sz (tl (firstn (Z.to_nat (num_base c)) t)).

(** ** Bridging lemmas *)

Lemma used_len_firstn c t : fits c t -> 0 <= num_base c ->
  Z.of_nat (length (firstn (Z.to_nat (num_base c)) t)) = used_len c t.
Proof.
  intros Hf Hn. rewrite firstn_length. unfold used_len, tlen in *.
  destruct Hf as [H|(-> & H)].
  - unfold tlen in H. replace (num_base c <? Z.of_nat (length t)) with false by lia.
    rewrite andb_false_r. lia.
  - cbn [andb]. destruct (Z.ltb_spec (num_base c) (Z.of_nat (length t))); lia.
Qed.

Lemma table_sizes_in c t x : cfg_ok c -> fits c t ->
  In x (table_sizes c t) <-> exists k, 1 <= k < used_len c t /\ sz (tnth t k) = x.
Proof.
  intros Hc Hf. destruct (cfg_ok_facts c Hc) as (_ & Hnb & _).
  pose proof (used_len_firstn c t Hf ltac:(lia)) as HL.
  unfold table_sizes. set (u := firstn (Z.to_nat (num_base c)) t) in *.
  assert (Hnth : forall k, 0 <= k < used_len c t -> tnth t k = nth (Z.to_nat k) u sci0).
  { intros k Hk. unfold tnth, u.
    rewrite <- (firstn_skipn (Z.to_nat (num_base c)) t) at 1.
    rewrite app_nth1; [reflexivity|]. fold u. lia. }
  destruct u as [|h r]; cbn [tl map].
  - cbn in HL. split; [contradiction|]. intros (k & Hk & _). lia.
  - split.
    + intros H. apply in_map_iff in H. destruct H as (e & He & Hin).
      apply (In_nth _ _ sci0) in Hin. destruct Hin as (n & Hn & En).
      exists (Z.of_nat n + 1). cbn [length] in HL. split; [lia|].
      rewrite Hnth by lia. replace (Z.to_nat (Z.of_nat n + 1)) with (S n) by lia.
      cbn [nth]. rewrite En. exact He.
    + intros (k & Hk & E). rewrite Hnth in E by lia.
      replace (Z.to_nat k) with (S (Z.to_nat (k - 1))) in E by lia. cbn [nth] in E.
      rewrite <- E. apply in_map. apply nth_In. cbn [length] in HL. lia.
Qed.

Lemma lookup_best_fit c active full t m p s :
  cfg_ok c -> fits c t -> valid_size_classes c t = true ->
  init c active full t = Some m -> policy_ok c p -> align p <= page_size c ->
  0 <= s <= max_size c ->
  exists cl, get_size_class c m p s = Small cl /\ 0 < cl < num_classes c /\
    best_fit (table_sizes c t) (align p) s (class_to_size m cl).
Proof.
  intros Hc Hf Hv Hm Hp Hal Hs.
  destruct (init_ok c active full t Hc Hf Hv) as (m' & Em & Hmo).
  assert (m' = m) by congruence. subst m'.
  destruct (get_size_class_spec c active full t m p s Hc Hf Hv Hmo Hp Hal Hs)
    as (r & k & Hr & Hk & Hblk & Eg & Hsk & Halk & Hmin).
  destruct (cfg_ok_facts c Hc) as (_ & Hnb & _).
  pose proof (valid_sizes_ok c t Hc Hf Hv) as Hok.
  pose proof (so_len _ _ _ Hok) as HL.
  pose proof (is_pow2_pos _ (proj1 Hp)) as Hap.
  exists (num_base c * r + k). split; [exact Eg|].
  split.
  { pose proof (block_end _ _ _ Hnb (conj (proj1 Hr) (proj2 Hr))). nia. }
  rewrite (mo_size _ _ _ _ _ Hmo r k) by lia.
  split; [apply table_sizes_in; eauto|]. split; [assumption|].
  split; [apply Z.mod_divide; [lia|assumption]|].
  intros y Hy Hsy Hdy. apply table_sizes_in in Hy; [|assumption|assumption].
  destruct Hy as (j & Hj & <-).
  destruct (Z.lt_ge_cases j k) as [Hlt|Hge].
  - destruct (Hmin j ltac:(lia)) as [H|H]; [lia|].
    apply Z.mod_divide in Hdy; lia.
  - apply (so_mono _ _ _ Hok k j); lia.
Qed.

(** ** C01 *)

(** The allocator comes up with any accepted table that fits its arrays. *)
Theorem accepted_table_initialises : forall c active full t,
  cfg_ok c -> fits c t -> valid_size_classes c t = true ->
  exists m, init c active full t = Some m.
Proof.
  intros c active full t Hc Hf Hv.
  destruct (init_ok c active full t Hc Hf Hv) as (m & E & _). eauto.
Qed.

Theorem size_class_lookup : forall c active full t m p s,
  cfg_ok c -> fits c t -> valid_size_classes c t = true ->
  init c active full t = Some m ->
  policy_ok c p -> align p <= 8 -> 0 <= s ->
  (s <= max_size c ->
     exists cl, get_size_class c m p s = Small cl /\ 0 < cl < num_classes c /\
       best_fit (table_sizes c t) 1 s (class_to_size m cl)) /\
  (max_size c < s -> get_size_class c m p s = NotSmall).
Proof.
  intros c active full t m p s Hc Hf Hv Hm Hp Hal Hs.
  destruct (cfg_ok_facts c Hc) as (_ & _ & _ & _ & Hps & Hpow & _).
  assert (Hps8 : 8 <= page_size c).
  { unfold page_size. replace (page_shift c) with (3 + (page_shift c - 3)) by lia.
    rewrite Z.pow_add_r by lia. change (2^3) with 8.
    pose proof (Z.pow_pos_nonneg 2 (page_shift c - 3)). lia. }
  split.
  - intros Hsm.
    destruct (lookup_best_fit c active full t m p s Hc Hf Hv Hm Hp ltac:(lia) ltac:(lia))
      as (cl & E & Hcl & (B1 & B2 & B3 & B4)).
    exists cl. split; [exact E|]. split; [exact Hcl|].
    split; [exact B1|]. split; [exact B2|]. split; [apply Z.divide_1_l|].
    intros y Hy Hsy _. apply B4; try assumption.
    apply table_sizes_in in Hy; [|assumption|assumption]. destruct Hy as (j & Hj & <-).
    pose proof (valid_sizes_ok c t Hc Hf Hv) as Hok.
    pose proof (so_mod8 _ _ _ Hok j ltac:(lia)) as H8. cbv beta in H8.
    apply (Z.divide_trans _ 8).
    + apply is_pow2_divide; [apply Hp|exists 3; lia|assumption].
    + apply Z.mod_divide; [lia|assumption].
  - intros Hgt. apply get_size_class_not_small; auto.
Qed.
Print Assumptions size_class_lookup.

(** Each chosen class carries the span length and batch size of its own table
    entry: a span of the class is a whole number of pages, 1 to 32, and holds at
    least one object. *)
Theorem size_class_span : forall c active full t m p s cl,
  cfg_ok c -> fits c t -> valid_size_classes c t = true ->
  init c active full t = Some m ->
  policy_ok c p -> align p <= page_size c -> 0 <= s ->
  get_size_class c m p s = Small cl ->
  exists e, In e t /\ class_to_size m cl = sz e /\
    class_to_pages m cl * page_size c = bytes e /\
    objects_to_move m cl = ntm e /\
    1 <= class_to_pages m cl <= 32 /\ sz e <= bytes e /\ 2 <= ntm e <= 128.
Proof.
  intros c active full t m p s cl Hc Hf Hv Hm Hp Hal Hs Hg.
  destruct (Z.le_gt_cases s (max_size c)) as [Hsm|Hgt].
  2:{ rewrite get_size_class_not_small in Hg by auto. discriminate. }
  destruct (init_ok c active full t Hc Hf Hv) as (m' & Em & Hmo).
  assert (m' = m) by congruence. subst m'.
  destruct (get_size_class_spec c active full t m p s Hc Hf Hv Hmo Hp Hal ltac:(lia))
    as (r & k & Hr & Hk & Hblk & Eg & Hsk & Halk & Hmin).
  assert (cl = num_base c * r + k) by congruence. subst cl.
  exists (tnth t k).
  pose proof (valid_sizes_ok c t Hc Hf Hv) as Hok.
  assert (HLt : used_len c t <= tlen t).
  { unfold used_len. destruct (expanded c && (num_base c <? tlen t)) eqn:E; lia. }
  rewrite (mo_size _ _ _ _ _ Hmo r k), (mo_pages _ _ _ _ _ Hmo r k), (mo_ntm _ _ _ _ _ Hmo r k) by lia.
  split. { unfold tnth. apply nth_In. unfold tlen in HLt. lia. }
  split; [reflexivity|].
  pose proof (so_pos _ _ _ Hok k Hk) as Hpos. cbv beta in Hpos.
  destruct (cfg_ok_facts c Hc) as (_ & Hnb & _ & _ & _ & Hpow & _).
  pose proof (is_pow2_pos _ Hpow) as Hpp.
  assert (Hve : valid_entry c (tnth t (k - 1)) (tnth t k) = true).
  { unfold valid_size_classes in Hv. fold (used_len c t) in Hv.
    destruct t as [|h rest]; [discriminate|].
    destruct (negb (sz h =? 0) || negb (bytes h =? 0) || negb (ntm h =? 0)); [discriminate|].
    apply andb_true_iff in Hv. destruct Hv as (Hent & _).
    pose proof (valid_entries_nth _ _ _ _ Hent (Z.to_nat (k - 1))) as HH.
    unfold tnth. replace (Z.to_nat k) with (S (Z.to_nat (k - 1))) by lia.
    apply HH; [lia|]. unfold tlen in HLt. cbn [length] in HLt. lia. }
  unfold valid_entry in Hve.
  destruct (Z.eqb_spec (bytes_to_length_floor c (bytes (tnth t k)) * page_size c) (bytes (tnth t k)))
    as [Eb|]; cbn [negb] in Hve; [|discriminate].
  destruct (sz (tnth t k) <=? sz (tnth t (k - 1))); [discriminate|].
  apply is_valid_class_facts in Hve.
  destruct Hve as (V1 & V2 & V3 & V4 & V5 & V6 & V7 & V8 & V9 & V10).
  split; [exact Eb|]. split; [reflexivity|].
  assert (Hge : 0 < bytes_to_length_floor c (bytes (tnth t k)) * page_size c).
  { destruct (Z.lt_ge_cases 0 (bytes_to_length_floor c (bytes (tnth t k)) * page_size c)); [assumption|].
    exfalso. assert (D : bytes_to_length_floor c (bytes (tnth t k)) * page_size c / sz (tnth t k) <= 0).
    { apply Z.div_le_upper_bound; lia. }
    lia. }
  clear - Hge Hpp V5 V6 V7 V10 Eb Hpos.
  set (pg := bytes_to_length_floor c (bytes (tnth t k))) in *. clearbody pg.
  split; [nia|]. split; [|assumption].
  rewrite <- Eb.
  pose proof (Z.mul_div_le (pg * page_size c) (sz (tnth t k)) Hpos).
  set (q := pg * page_size c / sz (tnth t k)) in *. clearbody q. nia.
Qed.
Print Assumptions size_class_span.

(** ** C02 *)

Theorem aligned_size_class_lookup : forall c active full t m p s,
  cfg_ok c -> fits c t -> valid_size_classes c t = true ->
  init c active full t = Some m ->
  policy_ok c p -> 0 <= s ->
  (align p <= page_size c -> s <= max_size c ->
     exists cl, get_size_class c m p s = Small cl /\ 0 < cl < num_classes c /\
       best_fit (table_sizes c t) (align p) s (class_to_size m cl)) /\
  (page_size c < align p \/ max_size c < s -> get_size_class c m p s = NotSmall).
Proof.
  intros c active full t m p s Hc Hf Hv Hm Hp Hs. split.
  - intros Hal Hsm. eapply lookup_best_fit; eauto.
  - intros H. apply get_size_class_not_small; auto.
Qed.
Print Assumptions aligned_size_class_lookup.

(** Consequence: every object of the chosen class inside a page-aligned span is
    aligned as requested. *)
Theorem aligned_objects : forall c active full t m p s cl span_start i,
  cfg_ok c -> fits c t -> valid_size_classes c t = true ->
  init c active full t = Some m ->
  policy_ok c p -> 0 <= s ->
  get_size_class c m p s = Small cl ->
  (page_size c | span_start) ->
  (align p | span_start + i * class_to_size m cl).
Proof.
  intros c active full t m p s cl st i Hc Hf Hv Hm Hp Hs Hg Hst.
  destruct (Z.le_gt_cases (align p) (page_size c)) as [Hal|Hal].
  2:{ rewrite get_size_class_not_small in Hg by auto. discriminate. }
  destruct (Z.le_gt_cases s (max_size c)) as [Hsm|Hgt].
  2:{ rewrite get_size_class_not_small in Hg by auto. discriminate. }
  destruct (lookup_best_fit c active full t m p s Hc Hf Hv Hm Hp Hal ltac:(lia))
    as (cl' & E & _ & (_ & _ & Hd & _)).
  assert (cl' = cl) by congruence. subst cl'.
  destruct (cfg_ok_facts c Hc) as (_ & _ & _ & _ & _ & Hpow & _).
  apply Z.divide_add_r.
  - eapply Z.divide_trans; [|exact Hst]. apply is_pow2_divide; [apply Hp|assumption|assumption].
  - apply Z.divide_mul_r. exact Hd.
Qed.
Print Assumptions aligned_objects.

(** The lookup is served from the block of classes of its partition: partitions
    and hot/cold never share a class. *)
Theorem lookup_partition : forall c active full t m p s,
  cfg_ok c -> fits c t -> valid_size_classes c t = true ->
  init c active full t = Some m ->
  policy_ok c p -> align p <= page_size c -> 0 < s <= max_size c ->
  exists cl, get_size_class c m p s = Small cl /\
    (expanded c = true -> is_cold p = true -> sec_parts c = 1 ->
       expanded_start c <= cl < num_classes c) /\
    (is_cold p = false -> sec_parts c = 1 ->
       num_base c * numa_partition p <= cl < num_base c * (numa_partition p + 1)) /\
    (is_cold p = false -> sec_parts c = 2 -> active = true -> full = true ->
       num_base c * sec_partition p <= cl < num_base c * (sec_partition p + 1)).
Proof.
  intros c active full t m p s Hc Hf Hv Hm Hp Hal Hs.
  destruct (init_ok c active full t Hc Hf Hv) as (m' & Em & Hmo).
  assert (m' = m) by congruence. subst m'.
  destruct (get_size_class_spec c active full t m p s Hc Hf Hv Hmo Hp Hal ltac:(lia))
    as (r & k & Hr & Hk & Hblk & Eg & Hsk & Halk & Hmin).
  pose proof (valid_sizes_ok c t Hc Hf Hv) as Hok.
  pose proof (so_len _ _ _ Hok) as HL.
  destruct (cfg_ok_facts c Hc) as (_ & Hnb & Hparts & _).
  pose proof Hp as (_ & Hsec & Hnuma & _).
  exists (num_base c * r + k). split; [exact Eg|].
  unfold policy_block, reg_base, cold_stride, hot_registers in Hblk.
  split; [|split].
  - intros He Hco Hs1. rewrite He, Hco, Hs1 in Hblk. cbn [andb] in Hblk.
    replace (sec_partition p) with 0 in Hblk by lia.
    change (0 + 2 * 1) with 2 in Hblk. change (2 * 1) with 2 in Hblk.
    cbn in Hblk. replace (s =? 0) with false in Hblk by lia.
    unfold num_classes. rewrite He. lia.
  - intros Hco Hs1. rewrite Hco, Hs1, andb_false_r in Hblk.
    replace (sec_partition p) with 0 in Hblk by lia.
    assert (Hb : num_base c * r = numa_partition p * num_base c).
    { rewrite <- Hblk. destruct (alloc_new p); [change (0+0) with 0|change (0+1) with 1; change (2*1) with 2]; cbn; lia. }
    rewrite Hb, Z.mul_add_distr_l. lia.
  - intros Hco Hs2 -> ->. rewrite Hco, Hs2, andb_false_r in Hblk.
    replace (numa_partition p) with 0 in Hblk by lia.
    assert (Hb : num_base c * r = num_base c * sec_partition p).
    { rewrite <- Hblk. assert (Hsp : sec_partition p = 0 \/ sec_partition p = 1) by lia.
      destruct Hsp as [-> | ->]; destruct (alloc_new p);
        [change (0+0) with 0|change (0+2) with 2; change (2*2) with 4
        |change (1+0) with 1|change (1+2) with 3; change (2*2) with 4]; cbn; lia. }
    rewrite Hb, Z.mul_add_distr_l. lia.
Qed.
Print Assumptions lookup_partition.

(** Class-size ranges: the sizes served by class [k] of the first partition are
    those in [(size of class k-1) + 1 .. size of class k]. *)
Theorem class_size_range_exact : forall c active full t m p s lo hi cl,
  cfg_ok c -> fits c t -> valid_size_classes c t = true ->
  init c active full t = Some m ->
  policy_ok c p -> align p <= 8 -> align_const p = true -> 0 < s ->
  get_size_class c m p s = Small cl ->
  class_to_size_range m cl = (lo, hi) -> lo <= s <= hi.
Proof.
  intros c active full t m p s lo hi cl Hc Hf Hv Hm Hp Hal Hac Hs Hg Hr.
  destruct (cfg_ok_facts c Hc) as (_ & Hnb & _ & _ & Hps & Hpow & _).
  assert (Hps8 : 8 <= page_size c).
  { unfold page_size. replace (page_shift c) with (3 + (page_shift c - 3)) by lia.
    rewrite Z.pow_add_r by lia. change (2^3) with 8.
    pose proof (Z.pow_pos_nonneg 2 (page_shift c - 3)). lia. }
  destruct (Z.le_gt_cases s (max_size c)) as [Hsm|Hgt].
  2:{ rewrite get_size_class_not_small in Hg by (auto; lia). discriminate. }
  destruct (init_ok c active full t Hc Hf Hv) as (m' & Em & Hmo).
  assert (m' = m) by congruence. subst m'.
  destruct (get_size_class_spec c active full t m p s Hc Hf Hv Hmo Hp ltac:(lia) ltac:(lia))
    as (r & k & Hrr & Hk & Hblk & Eg & Hsk & Halk & Hmin).
  assert (cl = num_base c * r + k) by congruence. subst cl.
  pose proof (valid_sizes_ok c t Hc Hf Hv) as Hok.
  pose proof (so_len _ _ _ Hok) as HL.
  unfold class_to_size_range in Hr. replace (num_base c * r + k =? 0) with false in Hr by nia.
  replace (num_base c * r + k - 1) with (num_base c * r + (k - 1)) in Hr by lia.
  rewrite (mo_size _ _ _ _ _ Hmo r k), (mo_size _ _ _ _ _ Hmo r (k-1)) in Hr by lia.
  pose proof (so_incr _ _ _ Hok k Hk) as Hi. cbv beta in Hi.
  replace (sz (tnth t k) <? sz (tnth t (k - 1)) + 1) with false in Hr by lia.
  injection Hr as <- <-. split; [|assumption].
  destruct (Z.eq_dec k 1) as [->|].
  - change (1 - 1) with 0. rewrite (so_zero _ _ _ Hok : sz (tnth t 0) = 0). lia.
  - destruct (Hmin (k - 1) ltac:(lia)) as [H|H]; [lia|].
    exfalso. apply H.
    pose proof (so_mod8 _ _ _ Hok (k-1) ltac:(lia)) as H8. cbv beta in H8.
    apply Z.mod_divide; [pose proof (is_pow2_pos _ (proj1 Hp)); lia|].
    apply (Z.divide_trans _ 8).
    + apply is_pow2_divide; [apply Hp|exists 3; lia|assumption].
    + apply Z.mod_divide; [lia|assumption].
Qed.
Print Assumptions class_size_range_exact.

(** ** C03 *)

(** All tables for a page shift. *)
Definition tables (sh : Z) : list (list sci) :=
  if sh =? 12 then tables_8_12 ++ tables_16_12
  else if sh =? 13 then tables_8_13 ++ tables_16_13
  else if sh =? 15 then tables_8_15 ++ tables_16_15
  else tables_8_18 ++ tables_16_18.

Definition tables16 (sh : Z) : list (list sci) :=
  if sh =? 12 then tables_16_12 else if sh =? 13 then tables_16_13
  else if sh =? 15 then tables_16_15 else tables_16_18.

Lemma cfg_cases c (P : cfg -> Prop) :
  (forall a b, P (cfg12 a b)) -> (forall a b, P (cfg13 a b)) ->
  (forall a b, P (cfg15 a b)) -> (forall a b, P (cfg18 a b)) -> cfg_ok c -> P c.
Proof. intros H1 H2 H3 H4 (a & b & _ & [->|[->|[->| ->]]]); auto. Qed.

Lemma forallb_In {A} (f : A -> bool) l : forallb f l = true -> forall x, In x l -> f x = true.
Proof. intros H. apply forallb_forall. exact H. Qed.

Theorem shipped_tables_accepted : forall c t,
  cfg_ok c -> In t (tables (page_shift c)) ->
  valid_size_classes c t = true /\ fits c t.
Proof.
  intros c t Hc. revert t.
  assert (H : forallb (fun t => valid_size_classes c t && (tlen t <=? num_base c))
                (tables (page_shift c)) = true).
  { revert Hc. apply cfg_cases with (P := fun c =>
      forallb (fun t => valid_size_classes c t && (tlen t <=? num_base c)) (tables (page_shift c)) = true);
    intros a b; vm_compute; reflexivity. }
  intros t Hin. pose proof (forallb_In _ _ H t Hin) as Ht. cbv beta in Ht.
  apply andb_true_iff in Ht. destruct Ht as (H1 & H2). split; [exact H1|]. left. lia.
Qed.
Print Assumptions shipped_tables_accepted.

(** With a shipped table, [new]-style lookups give the advertised alignment:
    the object size is always a multiple of 8 and, in the tables for a default
    new-alignment of 16, of 16 for every request of more than 8 bytes. *)
Theorem shipped_tables_alignment : forall c active full t,
  cfg_ok c -> In t (tables (page_shift c)) ->
  exists m, init c active full t = Some m /\
  forall p s, policy_ok c p -> align p <= 8 -> 0 <= s <= max_size c ->
  exists cl, get_size_class c m p s = Small cl /\
    (8 | class_to_size m cl) /\
    (In t (tables16 (page_shift c)) -> 8 < s -> (16 | class_to_size m cl)).
Proof.
  intros c active full t Hc Hin.
  destruct (shipped_tables_accepted c t Hc Hin) as (Hv & Hf).
  destruct (accepted_table_initialises c active full t Hc Hf Hv) as (m & Em).
  exists m. split; [exact Em|]. intros p s Hp Hal Hs.
  destruct (size_class_lookup c active full t m p s Hc Hf Hv Em Hp Hal ltac:(lia)) as (H & _).
  destruct (H ltac:(lia)) as (cl & E & _ & (B1 & B2 & _)).
  exists cl. split; [exact E|].
  split.
  - apply table_sizes_in in B1; [|assumption|assumption]. destruct B1 as (k & Hk & <-).
    apply Z.mod_divide; [lia|]. apply (so_mod8 _ _ _ (valid_sizes_ok c t Hc Hf Hv) k). lia.
  - intros H16 Hs8.
    assert (HB : forallb (fun t => forallb (fun x => (x <=? 8) || (x mod 16 =? 0)) (map sz t))
                   (tables16 (page_shift c)) = true).
    { revert Hc. apply cfg_cases with (P := fun c =>
        forallb (fun t => forallb (fun x => (x <=? 8) || (x mod 16 =? 0)) (map sz t))
                   (tables16 (page_shift c)) = true); intros a b; vm_compute; reflexivity. }
    pose proof (forallb_In _ _ HB t H16) as Ht. cbv beta in Ht.
    assert (Hx : In (class_to_size m cl) (map sz t)).
    { unfold table_sizes in B1. apply in_map_iff in B1. destruct B1 as (e & <- & Hine).
      apply in_map. rewrite <- (firstn_skipn (Z.to_nat (num_base c)) t). apply in_or_app. left.
      destruct (firstn (Z.to_nat (num_base c)) t); [contradiction|]. right. exact Hine. }
    pose proof (forallb_In _ _ Ht _ Hx) as Hfin. cbv beta in Hfin.
    apply Z.mod_divide; lia.
Qed.
Print Assumptions shipped_tables_alignment.

(** ** Finding: validation does not bound the number of entries when the
    expanded (hot/cold) classes are compiled out.  A 47-entry table for 4 KiB
    pages passes ValidSizeClasses; with one partition the copy loop of
    SetSizeClasses then writes past the array, and with two partitions the
    upper register overwrites the last class so that the largest small request
    gets class 0 (object size 0). *)
Definition t47 : list sci :=
  firstn 45 t_legacy_8_12 ++ [Sci 7680 28672 8; Sci 8192 16384 8].

Theorem table_length_unchecked_refuted :
  exists t, tlen t = num_base (cfg12 1 1) + 1 /\
    valid_size_classes (cfg12 1 1) t = true /\ set_size_classes (cfg12 1 1) t = None /\
    valid_size_classes (cfg12 1 2) t = true /\
    exists m, init (cfg12 1 2) false false t = Some m /\
      get_size_class (cfg12 1 2) m (Policy 1 true false true 0 0) 8192 = Small 0 /\
      class_to_size m 0 = 0.
Proof.
  exists t47. split; [reflexivity|]. split; [vm_compute; reflexivity|].
  split; [vm_compute; reflexivity|]. split; [vm_compute; reflexivity|].
  destruct (init (cfg12 1 2) false false t47) as [m|] eqn:E.
  - exists m. split; [reflexivity|].
    assert (H : match init (cfg12 1 2) false false t47 with
                | Some m => get_size_class (cfg12 1 2) m (Policy 1 true false true 0 0) 8192 = Small 0 /\
                            class_to_size m 0 = 0
                | None => False end) by (vm_compute; split; reflexivity).
    rewrite E in H. exact H.
  - assert (H : match init (cfg12 1 2) false false t47 with Some _ => True | None => False end)
      by (vm_compute; exact I).
    rewrite E in H. contradiction.
Qed.
Print Assumptions table_length_unchecked_refuted.

(** ** The hypotheses are met by concrete non-trivial cases *)

Example ex_cfg : cfg_ok (cfg13 2 1).
Proof. exists 2, 1. split; [lia|auto]. Qed.

Example ex_table : In t_def_16_13 (tables (page_shift (cfg13 2 1))).
Proof. cbn. tauto. Qed.

Example ex_policy : policy_ok (cfg13 2 1) (Policy 64 false false true 1 0).
Proof. split; [exists 6; split; [lia|reflexivity]|]. cbn. split; [lia|]. split; [lia|]. discriminate. Qed.

(** 100 bytes with alignment 64 are served by an object of 128 bytes. *)
Example ex_lookup : exists m cl,
  init (cfg12 1 1) false false t_def_16_12 = Some m /\
  get_size_class (cfg12 1 1) m (Policy 64 false false true 0 0) 100 = Small cl /\
  class_to_size m cl = 128.
Proof.
  destruct (init (cfg12 1 1) false false t_def_16_12) as [m|] eqn:E.
  - exists m.
    assert (H : match init (cfg12 1 1) false false t_def_16_12 with
                | Some m => exists cl, get_size_class (cfg12 1 1) m (Policy 64 false false true 0 0) 100 = Small cl
                             /\ class_to_size m cl = 128
                | None => False end) by (vm_compute; eexists; split; reflexivity).
    rewrite E in H. destruct H as (cl & H1 & H2). exists cl. auto.
  - assert (H : match init (cfg12 1 1) false false t_def_16_12 with Some _ => True | None => False end)
      by (vm_compute; exact I).
    rewrite E in H. contradiction.
Qed.
