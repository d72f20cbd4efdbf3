(** Lemmas about the size-class map: from the validation of a table to the
    lookup functions. *)
From Verif Require Import Base SizeMap SizeMapProofs.

(** ** Validation *)

Lemma is_aligned_to_mod v a : is_pow2 a -> is_aligned_to v a = true <-> v mod a = 0.
Proof.
  intros H. unfold is_aligned_to. rewrite (land_pow2_mod' v a H). lia.
Qed.

Lemma is_valid_class_facts c size pages nt :
  is_valid_class c size pages nt = true ->
  size <> 0 /\ size <= max_size c /\ size mod 8 = 0 /\ (1024 < size -> size mod 128 = 0) /\
  pages <> 0 /\ pages <= 32 /\ 1 <= (pages * page_size c) / size /\
  span_valid_class c size pages = true /\ hpaa_valid_class c size pages = true /\
  2 <= nt <= 128.
Proof.
  unfold is_valid_class, k_large_size, k_max_objects_to_move.
  destruct (Z.eqb_spec size 0); [discriminate|].
  destruct (Z.ltb_spec (max_size c) size); [discriminate|].
  destruct (is_aligned_to size _) eqn:Eal; cbn [negb]; [|discriminate].
  destruct (Z.eqb_spec pages 0); [discriminate|].
  destruct (Z.ltb_spec 32 pages); [discriminate|].
  destruct (Z.ltb_spec ((pages * page_size c) / size) 1); [discriminate|].
  destruct (span_valid_class c size pages); cbn [negb]; [|discriminate].
  destruct (hpaa_valid_class c size pages); cbn [negb]; [|discriminate].
  destruct (Z.ltb_spec nt 2); [discriminate|].
  destruct (Z.ltb_spec 128 nt); [discriminate|]. intros _.
  assert (H8 : is_pow2 8) by (exists 3; lia).
  assert (H128 : is_pow2 128) by (exists 7; lia).
  destruct (Z.ltb_spec 1024 size) as [Hl|Hl];
    rewrite is_aligned_to_mod in Eal by (unfold k_large_size_alignment, k_alignment; assumption);
    unfold k_large_size_alignment, k_alignment in Eal; repeat split; try lia.
Qed.

Lemma valid_entries_nth c n prev t :
  valid_entries c n prev t = true ->
  forall k, (k < n)%nat -> (k < length t)%nat ->
  valid_entry c (nth k (prev :: t) sci0) (nth k t sci0) = true.
Proof.
  revert prev t. induction n as [|n IH]; intros prev t H k Hk Hl; [lia|].
  destruct t as [|cur t]; [cbn in Hl; lia|].
  cbn [valid_entries] in H. apply andb_true_iff in H. destruct H as (H1 & H2).
  destruct k as [|k]; cbn [nth].
  - exact H1.
  - apply (IH cur t H2 k); [lia|cbn in Hl; lia].
Qed.

(** The entries of a table that the configuration uses. *)
Definition used_len (c : cfg) (t : list sci) : Z :=
  if expanded c && (num_base c <? tlen t) then num_base c else tlen t.

(** A table that fits the arrays. *)
Definition fits (c : cfg) (t : list sci) : Prop :=
  tlen t <= num_base c \/ (expanded c = true /\ tlen t <= num_classes c).

Lemma valid_sizes_ok c t :
  cfg_ok c -> fits c t -> valid_size_classes c t = true ->
  sizes_ok c (fun k => sz (tnth t k)) (used_len c t).
Proof.
  intros Hc Hfit H.
  destruct (cfg_ok_facts c Hc) as ((Hmx & _) & Hnb & _).
  unfold valid_size_classes in H. fold (used_len c t) in H.
  destruct t as [|h rest]; [discriminate|]. set (t := h :: rest) in *.
  set (L := used_len c t) in *.
  assert (HL : 1 <= L <= tlen t /\ L <= num_base c).
  { subst L. unfold used_len. destruct Hfit as [Hf|(He & Hf)].
    - replace (num_base c <? tlen t) with false by lia. rewrite andb_false_r.
      unfold tlen in *. subst t. cbn [length] in *. lia.
    - rewrite He. cbn [andb]. destruct (Z.ltb_spec (num_base c) (tlen t)); [lia|].
      unfold tlen in *. subst t. cbn [length] in *. lia. }
  destruct (negb (sz h =? 0) || negb (bytes h =? 0) || negb (ntm h =? 0)) eqn:E0; [discriminate|].
  apply andb_true_iff in H. destruct H as (Hent & Hlast).
  assert (Hent' : forall k, 1 <= k < L -> valid_entry c (tnth t (k - 1)) (tnth t k) = true).
  { intros k Hk. pose proof (valid_entries_nth _ _ _ _ Hent (Z.to_nat (k - 1))) as HH.
    unfold tnth. subst t. replace (Z.to_nat k) with (S (Z.to_nat (k - 1))) by lia.
    apply HH; [lia|]. unfold tlen in HL. cbn [length] in HL. lia. }
  assert (Hz : sz (tnth t 0) = 0) by (change (tnth t 0) with h; lia).
  assert (Hfacts : forall k, 1 <= k < L ->
      sz (tnth t (k-1)) < sz (tnth t k) <= max_size c /\ sz (tnth t k) mod 8 = 0 /\
      (1024 < sz (tnth t k) -> sz (tnth t k) mod 128 = 0)).
  { intros k Hk. specialize (Hent' k Hk). unfold valid_entry in Hent'.
    destruct (bytes_to_length_floor c (bytes (tnth t k)) * page_size c =? bytes (tnth t k)); cbn [negb] in Hent'; [|discriminate].
    destruct (Z.leb_spec (sz (tnth t k)) (sz (tnth t (k-1)))); [discriminate|].
    apply is_valid_class_facts in Hent'. intuition lia. }
  constructor; try (intros k Hk; destruct (Hfacts k Hk) as (F1 & F2 & F3); assumption || lia).
  - destruct (Z.eq_dec L 1) as [E|]; [|lia].
    rewrite E in Hlast. change (1 - 1) with 0 in Hlast. lia.
  - exact Hz.
  - lia.
Qed.

(** ** SetSizeClasses *)

Lemma copy_registers_spec nb n : forall i f r k,
  0 < nb -> 1 <= i -> 0 <= k < nb -> 0 <= r < i + Z.of_nat n ->
  (0 < r < i -> f (nb * r + k) = f k) ->
  copy_registers nb n i f (nb * r + k) = f k.
Proof.
  induction n as [|n IH]; intros i f r k Hnb Hi Hk Hr Hprev.
  - cbn. destruct (Z.eq_dec r 0) as [->|]; [f_equal; lia|apply Hprev; lia].
  - cbn [copy_registers].
    assert (E : copy_range f 0 (nb * i) nb k = f k) by (apply copy_range_out; nia).
    rewrite <- E. apply IH; try lia.
    intros Hr'. rewrite E. destruct (Z.eq_dec r i) as [->|Hne].
    + rewrite copy_range_in by lia. f_equal. lia.
    + rewrite copy_range_out by nia. apply Hprev. lia.
Qed.

Record map_ok (c : cfg) (t : list sci) (active full : bool) (m : sizemap) : Prop := {
  mo_size : forall r k, 0 <= r < num_classes c / num_base c -> 0 <= k < used_len c t ->
            class_to_size m (num_base c * r + k) = sz (tnth t k);
  mo_pages : forall r k, 0 <= r < num_classes c / num_base c -> 1 <= k < used_len c t ->
            class_to_pages m (num_base c * r + k) = bytes_to_length_floor c (bytes (tnth t k));
  mo_ntm : forall r k, 0 <= r < num_classes c / num_base c -> 1 <= k < used_len c t ->
            objects_to_move m (num_base c * r + k) = ntm (tnth t k);
  mo_array : forall i s, 0 <= i < hot_registers c + (if expanded c then sec_parts c else 0) ->
      0 <= s <= max_size c ->
      reg_is c (fun k => sz (tnth t k)) (used_len c t) (class_array m) i s
             (reg_base c active full i s)
}.

Lemma init_ok c active full t :
  cfg_ok c -> fits c t -> valid_size_classes c t = true ->
  exists m, init c active full t = Some m /\ map_ok c t active full m.
Proof.
  intros Hc Hfit Hv.
  pose proof (valid_sizes_ok c t Hc Hfit Hv) as Hok.
  pose proof (so_len _ _ _ Hok) as HL.
  destruct (cfg_ok_facts c Hc) as (Hmax & Hnb & Hparts & _).
  pose proof (num_regs c Hc) as Hnc.
  assert (Hregs : num_classes c / num_base c = normal_parts c + if expanded c then 1 else 0).
  { rewrite Hnc. rewrite Z.mul_comm. rewrite Z.div_mul by lia. reflexivity. }
  assert (Hnp : 1 <= normal_parts c) by (unfold normal_parts; nia).
  assert (Hlen : used_len c t <= tlen t).
  { unfold used_len. destruct (expanded c && (num_base c <? tlen t)) eqn:E; lia. }
  assert (Hncl : tlen t <= num_classes c).
  { destruct Hfit as [Hf|(_ & Hf)]; [|assumption]. rewrite Hnc. destruct (expanded c); nia. }
  unfold init, set_size_classes. rewrite Hv. cbn [negb].
  replace (num_classes c <? tlen t) with false by lia.
  assert (Hmk : forall g r k, 0 <= r < num_classes c / num_base c -> 0 <= k < num_base c ->
     copy_registers (num_base c) (Z.to_nat (num_classes c / num_base c - 1)) 1 (base_array t g)
       (num_base c * r + k) = base_array t g k).
  { intros g r k Hr Hk. apply copy_registers_spec; lia. }
  set (cts := copy_registers _ _ 1 (base_array t sz)).
  destruct (init_array_spec c active full (fun k => sz (tnth t k)) (used_len c t) cts Hc Hok)
    as (a & Ea & Ha).
  { intros r k Hr Hk. subst cts. rewrite Hmk by lia. unfold base_array.
    destruct (Z.eq_dec k 0) as [->|].
    - cbn. symmetry. apply (so_zero _ _ _ Hok).
    - replace ((1 <=? k) && (k <? tlen t)) with true by lia. reflexivity. }
  rewrite Ea. cbn [obind]. eexists. split; [reflexivity|].
  constructor; cbn [class_to_size class_to_pages objects_to_move class_array].
  - intros r k Hr Hk. subst cts. rewrite Hmk by lia. unfold base_array.
    destruct (Z.eq_dec k 0) as [->|].
    + cbn. symmetry. apply (so_zero _ _ _ Hok).
    + replace ((1 <=? k) && (k <? tlen t)) with true by lia. reflexivity.
  - intros r k Hr Hk. rewrite Hmk by lia. unfold base_array.
    replace ((1 <=? k) && (k <? tlen t)) with true by lia. reflexivity.
  - intros r k Hr Hk. rewrite Hmk by lia. unfold base_array.
    replace ((1 <=? k) && (k <? tlen t)) with true by lia. reflexivity.
  - exact Ha.
Qed.

(** ** Lookup *)

(** The block of classes a policy must be served from. *)
Definition policy_block (c : cfg) (active full : bool) (p : policy) (s : Z) : Z :=
  if expanded c && is_cold p
  then reg_base c active full (sec_partition p + cold_stride c) s
  else reg_base c active full (sec_partition p + (if alloc_new p then 0 else sec_parts c)) s
       + numa_partition p * num_base c.

Lemma policy_block_mult c active full p s :
  cfg_ok c -> policy_ok c p ->
  exists r, 0 <= r < num_classes c / num_base c /\ policy_block c active full p s = num_base c * r.
Proof.
  intros Hc (_ & Hsec & Hnuma & _).
  destruct (cfg_ok_facts c Hc) as (Hmax & Hnb & Hparts & _).
  pose proof (num_regs c Hc) as Hnc.
  assert (Hregs : num_classes c / num_base c = normal_parts c + if expanded c then 1 else 0).
  { rewrite Hnc. rewrite Z.mul_comm. rewrite Z.div_mul by lia. reflexivity. }
  rewrite Hregs. unfold policy_block, reg_base, expanded_start, normal_parts in *.
  set (act := (1 <? sec_parts c) && active).
  assert (Hact : act = true -> sec_parts c = 2 /\ numa_parts c = 1) by (subst act; lia).
  clearbody act.
  assert (Hex : expanded c && is_cold p = true -> expanded c = true) by (destruct (expanded c); auto).
  assert (D0 : exists r, 0 <= r < numa_parts c * sec_parts c + (if expanded c then 1 else 0) /\
              0 = num_base c * r) by (exists 0; split; [destruct (expanded c); nia|lia]).
  assert (Hrange : forall b, (exists r, 0 <= r < sec_parts c /\ b = num_base c * r) ->
     exists r, 0 <= r < numa_parts c * sec_parts c + (if expanded c then 1 else 0) /\
              b + numa_partition p * num_base c = num_base c * r).
  { intros b (r & Hr & ->). exists (r + numa_partition p). split; [destruct (expanded c); nia|nia]. }
  destruct (expanded c && is_cold p) eqn:Ecold.
  - rewrite (Hex eq_refl).
    set (X := if sec_partition p + cold_stride c =? 0 then _ else _).
    assert (HX : X = 0 \/ (X = num_base c /\ act = true) \/ X = num_base c * (numa_parts c * sec_parts c)).
    { subst X. repeat match goal with |- context [if ?b then _ else _] => destruct b eqn:? end; auto;
      try (right; left; split; [reflexivity|]; destruct act; (reflexivity || discriminate)). }
    destruct HX as [->|[(-> & Ha)| ->]].
    + exists 0. lia.
    + exists 1. specialize (Hact Ha). lia.
    + exists (numa_parts c * sec_parts c). split; [nia|reflexivity].
  - apply Hrange.
    set (i := sec_partition p + (if alloc_new p then 0 else sec_parts c)).
    assert (Hi : 0 <= i < 2 * sec_parts c) by (subst i; destruct (alloc_new p); lia).
    clearbody i.
    set (X := if i =? 0 then _ else _).
    assert (HX : X = 0 \/ (X = num_base c /\ act = true)).
    { subst X. unfold cold_stride, hot_registers.
      repeat match goal with |- context [if ?b then _ else _] => destruct b eqn:? end; auto;
      try (right; split; [reflexivity|]; destruct act; (reflexivity || discriminate)); lia. }
    destruct HX as [->|(-> & Ha)].
    + exists 0. lia.
    + exists 1. specialize (Hact Ha). lia.
Qed.

(** First class at or after [k] whose size is a multiple of [al]. *)
Lemma align_search_spec m al n cl :
  (exists j, 0 <= j < Z.of_nat n /\ is_aligned_to (class_to_size m (cl + j)) al = true) ->
  exists j, 0 <= j < Z.of_nat n /\ align_search m al n cl = Some (cl + j) /\
    is_aligned_to (class_to_size m (cl + j)) al = true /\
    forall i, 0 <= i < j -> is_aligned_to (class_to_size m (cl + i)) al = false.
Proof.
  revert cl. induction n as [|n IH]; intros cl (j & Hj & Hal); [lia|].
  cbn [align_search].
  destruct (is_aligned_to (class_to_size m cl) al) eqn:E.
  - exists 0. replace (cl + 0) with cl by lia. split; [lia|]. split; [reflexivity|].
    split; [exact E|]. intros; lia.
  - assert (j <> 0).
    { intros ->. replace (cl + 0) with cl in Hal by lia. congruence. }
    destruct (IH (cl + 1)) as (j' & H1 & H2 & H3 & H4).
    { exists (j - 1). replace (cl + 1 + (j - 1)) with (cl + j) by lia. split; [lia|assumption]. }
    exists (j' + 1). replace (cl + (j' + 1)) with (cl + 1 + j') by lia.
    split; [lia|]. split; [assumption|]. split; [assumption|].
    intros i Hi. destruct (Z.eq_dec i 0) as [->|].
    + replace (cl + 0) with cl by lia. exact E.
    + replace (cl + i) with (cl + 1 + (i - 1)) by lia. apply H4. lia.
Qed.

Lemma block_end N nb r : 0 < nb -> 0 <= r < N / nb -> nb * r + nb <= N.
Proof. intros H Hr. pose proof (Z.mul_div_le N nb H). nia. Qed.

Lemma get_size_class_spec c active full t m p s :
  cfg_ok c -> fits c t -> valid_size_classes c t = true ->
  map_ok c t active full m -> policy_ok c p -> align p <= page_size c ->
  0 <= s <= max_size c ->
  exists r k, 0 <= r < num_classes c / num_base c /\ 1 <= k < used_len c t /\
    policy_block c active full p s = num_base c * r /\
    get_size_class c m p s = Small (num_base c * r + k) /\
    s <= sz (tnth t k) /\ sz (tnth t k) mod (align p) = 0 /\
    (forall j, 1 <= j < k -> sz (tnth t j) < s \/ sz (tnth t j) mod (align p) <> 0).
Proof.
  intros Hc Hfit Hv Hm Hp Hal Hs.
  pose proof (valid_sizes_ok c t Hc Hfit Hv) as Hok.
  pose proof (so_len _ _ _ Hok) as HL.
  destruct (cfg_ok_facts c Hc) as (Hmax & Hnb & Hparts & Hmod & Hps & Hpow & Hm18).
  destruct (policy_block_mult c active full p s Hc Hp) as (r & Hr & Hblk).
  pose proof Hp as (Halp & Hsec & Hnuma & Hcold).
  unfold get_size_class. replace (page_size c <? align p) with false by lia.
  rewrite class_index_ci by assumption.
  set (cl := if expanded c && is_cold p then _ else _).
  assert (Hcl : exists k, least (fun k => sz (tnth t k)) (used_len c t) s k /\ cl = num_base c * r + k).
  { subst cl. rewrite <- Hblk. unfold policy_block.
    destruct (expanded c && is_cold p) eqn:Ec.
    - destruct (mo_array _ _ _ _ _ Hm (sec_partition p + cold_stride c) s) as (k & Hk & Ha).
      { apply andb_true_iff in Ec. destruct Ec as (-> & _). unfold cold_stride, hot_registers. lia. }
      { assumption. }
      exists k. split; [assumption|]. rewrite <- Ha. f_equal. lia.
    - destruct (mo_array _ _ _ _ _ Hm (sec_partition p + (if alloc_new p then 0 else sec_parts c)) s)
        as (k & Hk & Ha).
      { unfold hot_registers. destruct (alloc_new p), (expanded c); lia. }
      { assumption. }
      exists k. split; [assumption|].
      rewrite (Z.mul_comm (sec_partition p + _)). rewrite Ha. lia. }
  destruct Hcl as (k & Hk & Ecl). clearbody cl. subst cl.
  pose proof Hk as (Hk1 & Hk2 & Hk3).
  assert (Hsz : forall j, 0 <= j < used_len c t -> class_to_size m (num_base c * r + j) = sz (tnth t j))
    by (intros j Hj; apply (mo_size _ _ _ _ _ Hm); assumption).
  assert (Hmaxal : max_size c mod align p = 0).
  { assert (D : (align p | max_size c)).
    { apply (Z.divide_trans _ (page_size c)); [apply is_pow2_divide; assumption|].
      apply Z.mod_divide; [pose proof (is_pow2_pos _ Hpow); lia|assumption]. }
    apply Z.mod_divide; [pose proof (is_pow2_pos _ Halp); lia|assumption]. }
  destruct (align_const p && (align p <=? k_alignment)) eqn:Eac.
  - exists r, k. split; [assumption|]. split; [lia|]. split; [assumption|]. split; [reflexivity|].
    split; [assumption|]. split.
    + pose proof (so_mod8 _ _ _ Hok k ltac:(lia)) as H8. cbv beta in H8.
      assert (D : (align p | 8)).
      { apply is_pow2_divide; [assumption|exists 3; lia|unfold k_alignment in Eac; lia]. }
      apply Z.mod_divide; [pose proof (is_pow2_pos _ Halp); lia|].
      eapply Z.divide_trans; [exact D|]. apply Z.mod_divide; lia.
    + intros j Hj. left. apply Hk3. assumption.
  - clear Eac Hparts Hfit Hv Hcold. destruct (align_search_spec m (align p) (Z.to_nat (num_classes c - (num_base c * r + k)))
                (num_base c * r + k)) as (j & Hj & Es & Hja & Hjn).
    { exists (used_len c t - 1 - k).
      replace (num_base c * r + k + (used_len c t - 1 - k)) with (num_base c * r + (used_len c t - 1)) by lia.
      rewrite Hsz by lia. split.
      - pose proof (block_end _ _ _ Hnb Hr). lia.
      - apply is_aligned_to_mod; [assumption|]. rewrite (so_last _ _ _ Hok). assumption. }
    rewrite Es.
    assert (Hjk : k + j < used_len c t).
    { destruct (Z.lt_ge_cases (k + j) (used_len c t)) as [|Hge]; [assumption|].
      specialize (Hjn (used_len c t - 1 - k) ltac:(lia)).
      replace (num_base c * r + k + (used_len c t - 1 - k)) with (num_base c * r + (used_len c t - 1)) in Hjn by lia.
      rewrite Hsz in Hjn by lia.
      assert (E : is_aligned_to (sz (tnth t (used_len c t - 1))) (align p) = true).
      { apply is_aligned_to_mod; [assumption|]. pose proof (so_last _ _ _ Hok) as E. cbv beta in E.
        rewrite E. assumption. }
      congruence. }
    exists r, (k + j). split; [assumption|]. split; [lia|]. split; [assumption|].
    split; [f_equal; lia|].
    replace (num_base c * r + k + j) with (num_base c * r + (k + j)) in Hja by lia.
    rewrite Hsz in Hja by lia.
    split; [pose proof (so_mono _ _ _ Hok k (k + j) ltac:(lia) ltac:(lia) ltac:(lia)) as E; cbv beta in E; lia|].
    split; [apply is_aligned_to_mod; assumption|].
    intros i Hi. destruct (Z.lt_ge_cases i k) as [Hlt|Hge].
    + left. apply Hk3. lia.
    + right. specialize (Hjn (i - k) ltac:(lia)).
      replace (num_base c * r + k + (i - k)) with (num_base c * r + i) in Hjn by lia.
      rewrite Hsz in Hjn by lia. intros E.
      apply (proj2 (is_aligned_to_mod _ _ Halp)) in E. congruence.
Qed.

Lemma get_size_class_not_small c m p s :
  cfg_ok c -> 0 <= s ->
  page_size c < align p \/ max_size c < s ->
  get_size_class c m p s = NotSmall.
Proof.
  intros Hc Hs H. destruct (cfg_ok_facts c Hc) as ((Hmax & _) & _).
  unfold get_size_class. destruct (Z.ltb_spec (page_size c) (align p)); [reflexivity|].
  unfold class_index, k_large_size.
  replace (s <=? 1024) with false by lia. replace (s <=? max_size c) with false by lia. reflexivity.
Qed.
