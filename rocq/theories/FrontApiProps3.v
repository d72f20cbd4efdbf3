(** Properties C07 and C08: realloc and sized delete. *)
From Verif Require Import Base SizeMap SizeMapProofs SizeMapProofs2 Tables SizeMapProps FrontApi FrontApiProofs FrontApiProps FrontApiProps2.

(** ** Histories of calls *)

(** [reach_w c m w R]: the world [w] is reached from the empty heap by some
    history of calls; [R] is a ghost record of the size last requested for each
    live block. *)
Inductive reach_w (c : cfg) (m : sizemap) : world -> (Z -> Z) -> Prop :=
| rw_init e : reach_w c m (World (fun _ => None) e []) (fun _ => 0)
| rw_alloc w R p ret size o r n w' :       (* malloc, operator new, memalign, ... *)
    reach_w c m w R -> policy_ok c p -> u64 size -> outcome_ok w c size o -> placed c m p size o ->
    w_alloc c m p ret w size o = Some (r, n, w') ->
    reach_w c m w' (if r =? 0 then R else upd R r size)
| rw_calloc bi w R numa n elem o r w' :
    reach_w c m w R -> 0 <= numa < numa_parts c -> u64 n -> u64 elem -> outcome_ok w c (n * elem) o ->
    api_calloc bi c m numa w n elem o = Some (r, w') ->
    reach_w c m w' (if r =? 0 then R else upd R r (n * elem))
| rw_realloc w R numa ptr size ws o r w' :
    reach_w c m w R -> 0 <= numa < numa_parts c -> u64 size -> outcome_ok w c size o ->
    api_realloc c m numa w ptr size ws o = Some (r, w') ->
    reach_w c m w' (if r =? 0 then R else upd R r size)
| rw_free w R ptr w' : reach_w c m w R -> w_free w ptr = Some w' -> reach_w c m w' R
| rw_write w R a f : reach_w c m w R -> reach_w c m (write_data w a f) R   (* the program writes to a block *)
| rw_errno w R e : reach_w c m w R -> reach_w c m (set_errno w e) R.

Definition blocks_ok (m : sizemap) (w : world) (R : Z -> Z) : Prop :=
  forall a b, heap w a = Some b ->
    a <> 0 /\ 0 <= R a <= get_size m b /\ (snd (get_size_and_sampled m b) = false -> 0 < get_size m b).

Lemma get_size_set_data m b d : get_size_and_sampled m (set_data b d) = get_size_and_sampled m b.
Proof. reflexivity. Qed.

Lemma ceil_bytes_any c s : cfg_ok c -> u64 s ->
  length_in_bytes c (bytes_to_length_ceil c s) = 0 \/ s <= length_in_bytes c (bytes_to_length_ceil c s).
Proof.
  unfold u64. intros Hc Hs. pose proof (page_size_pos c Hc) as Hps.
  destruct (Z.le_gt_cases (s + page_size c) two64) as [H|H].
  - right. destruct (ceil_bytes c s Hc ltac:(lia) H) as (_ & H1 & _). lia.
  - left. unfold length_in_bytes. rewrite ceil_spec by (assumption || lia).
    destruct (cfg_ok_facts c Hc) as (_ & _ & _ & _ & H12 & _).
    assert (Hq : two64 = 2 ^ (64 - page_shift c) * page_size c).
    { unfold two64, page_size. rewrite <- Z.pow_add_r by lia. f_equal. lia. }
    replace ((s + page_size c - 1) / page_size c) with (2 ^ (64 - page_shift c)).
    + rewrite <- Hq. reflexivity.
    + apply (Z.div_unique _ _ _ (s + page_size c - 1 - two64)); [lia|]. rewrite Hq. lia.
Qed.

(** ** C07 *)

(** What realloc of a live block to a non-zero size does. *)
Definition realloc_outcome (m : sizemap) (w w' : world) (ptr size r : Z) (b : block) : Prop :=
  (* failure: the old block is intact, nothing was released *)
  (r = 0 /\ heap w' = heap w /\ errno w' = ENOMEM /\ trace w' = EvAlloc size 16 :: trace w) \/
  (* the old block is kept *)
  (r = ptr /\ w' = w /\ size <= get_size m b) \/
  (* a new block with the old contents; the old block is released, once *)
  (r <> 0 /\ r <> ptr /\ heap w r = None /\
   (exists b', heap w' r = Some b' /\ size <= get_size m b' /\
      (forall i, 0 <= i < Z.min (get_size m b) size -> b_data b' i = b_data b i)) /\
   heap w' ptr = None /\
   (forall q, q <> r -> q <> ptr -> heap w' q = heap w q) /\
   trace w' = EvFree ptr :: EvAlloc size 16 :: trace w).

Lemma realloc_step c active full t m numa w R ptr size ws o b :
  configured c active full t m -> blocks_ok m w R -> 0 <= numa < numa_parts c ->
  heap w ptr = Some b -> u64 size -> size <> 0 -> outcome_ok w c size o ->
  exists r w', api_realloc c m numa w ptr size ws o = Some (r, w') /\
    realloc_outcome m w w' ptr size r b /\
    (r <> ptr -> r <> 0 -> exists b', heap w' r = Some b' /\
       (snd (get_size_and_sampled m b') = false -> 0 < get_size m b')).
Proof.
  intros Hcf Hok Hn Hb Hs Hs0 Ho. pose proof Hcf as (Hc & _).
  destruct (Hok ptr b Hb) as (Hp0 & Hsz & Hpos).
  unfold api_realloc. replace (ptr =? 0) with false by lia. replace (size =? 0) with false by lia.
  unfold do_realloc. rewrite Hb. cbn [obind].
  destruct (get_size_and_sampled m b) as [old smp] eqn:Eg.
  assert (Eold : get_size m b = old) by (unfold get_size; rewrite Eg; reflexivity).
  cbn [snd] in Hpos. rewrite Eold in *.
  set (part := partition_from_pointer c ptr).
  assert (Hpart : 0 <= part).
  { unfold part, partition_from_pointer. destruct (_ =? 1); [lia|]. destruct (_ =? _); lia. }
  pose proof (malloc_policy_ok c numa Hc Hn) as Hmp.
  pose proof (in_partition_ok c _ part Hc Hmp Hpart) as Hip.
  pose proof (in_partition_with_token_ok c _ part Hc Hmp) as Hit.
  set (pt := in_partition_with_token c (malloc_policy c numa) part) in *.
  match goal with |- context [obind ?a _] =>
    assert (Hact : exists actual, a = Some actual /\ (actual = 0 \/ size <= actual)) end.
  { unfold u64 in Hs. destruct (lookup_cases c active full t m _ size Hcf Hip (proj1 Hs))
      as [(_ & _ & cl & E & _ & (_ & Hle & _))|(_ & E)]; rewrite E; eexists; (split; [reflexivity|]).
    - right. exact Hle.
    - apply ceil_bytes_any; assumption. }
  destruct Hact as (actual & Ea & Hact). rewrite Ea. cbn [obind].
  destruct (negb (actual =? old) || smp || ((size <=? max_size c) && ws) || is_guarded b) eqn:Ec.
  - destruct (w_alloc_sizes c active full t m pt false w size o Hcf Hit (proj1 Hs) Ho)
      as (r & n & w' & E & Htr & H).
    rewrite E. cbn [obind]. change (align pt) with 16 in Htr.
    destruct H as [(-> & _ & He & Hh)|(Hr & Hfr & He & (b' & Hb' & Hge & _ & Hps'))].
    + cbn [Z.eqb]. do 2 eexists. split; [reflexivity|]. split; [left; auto|]. intros _ H. contradiction.
    + replace (r =? 0) with false by lia.
      assert (Hrp : r <> ptr) by congruence.
      unfold write_data. rewrite Hb', upd_same. unfold w_free. cbn [heap errno trace].
      replace (ptr =? 0) with false by lia.
      rewrite upd_other, upd_other, Hb by congruence. cbn [obind].
      do 2 eexists. split; [reflexivity|]. cbn [heap errno trace]. split.
      * right. right. split; [assumption|]. split; [assumption|]. split; [assumption|].
        cbn [heap trace]. split.
        { eexists. rewrite upd_other, upd_same by assumption. split; [reflexivity|].
          split; [exact Hge|]. intros i Hi. unfold set_data, mem_copy. cbn [b_data].
          rewrite Eold in Hi.
          replace ((0 <=? i) && (i <? (if old <? size then old else size))) with true; [reflexivity|].
          symmetry. destruct (Z.ltb_spec old size); lia. }
        split; [apply upd_same|]. split; [|rewrite Htr; reflexivity].
        intros q Hq1 Hq2. rewrite !upd_other by assumption. reflexivity.
      * intros _ _. cbn [heap]. eexists. rewrite upd_other, upd_same by assumption.
        split; [reflexivity|]. exact Hps'.
  - do 2 eexists. split; [reflexivity|]. split; [|intros H; contradiction].
    right. left. split; [reflexivity|]. split; [reflexivity|]. rewrite Eold.
    apply orb_false_iff in Ec. destruct Ec as (Ec & _). apply orb_false_iff in Ec. destruct Ec as (Ec & _).
    apply orb_false_iff in Ec. destruct Ec as (Ec & Esm). subst smp. specialize (Hpos eq_refl).
    clear - Ec Hact Hpos. destruct (Z.eqb_spec actual old); [lia|discriminate].
Qed.

Lemma reach_w_blocks c active full t m w R :
  configured c active full t m -> reach_w c m w R -> blocks_ok m w R.
Proof.
  intros Hcf H. pose proof Hcf as (Hc & _).
  assert (Hfresh : forall w w' R r b size, blocks_ok m w R -> r <> 0 -> 0 <= size <= get_size m b ->
            (snd (get_size_and_sampled m b) = false -> 0 < get_size m b) ->
            heap w' = upd (heap w) r (Some b) -> blocks_ok m w' (upd R r size)).
  { intros w0 w1 R0 r b size Hok Hr Hge Hps Hh a b0 Hb0. rewrite Hh in Hb0.
    destruct (Z.eq_dec a r) as [->|Hne].
    - rewrite upd_same in Hb0. inversion Hb0; subst. rewrite upd_same. auto.
    - rewrite upd_other in Hb0 by assumption. rewrite upd_other by assumption. apply Hok. assumption. }
  induction H as [e|w R p ret size o r n w' H IH Hp Hs Ho Hpl E
                 |bi w R numa n elem o r w' H IH Hn Hu1 Hu2 Ho E
                 |w R numa ptr size ws o r w' H IH Hn Hs Ho E
                 |w R ptr w' H IH E|w R a f H IH|w R e H IH].
  - intros a b Hb. discriminate.
  - destruct (w_alloc_sizes c active full t m p ret w size o Hcf Hp (proj1 Hs) Ho)
      as (r1 & n1 & w1 & E1 & _ & Hr).
    rewrite E1 in E. inversion E; subst.
    destruct Hr as [(-> & _ & _ & Hh)|(Hr & _ & _ & (b & Hb & Hge & _ & Hps))].
    + cbn [Z.eqb]. intros a b Hb. rewrite Hh in Hb. apply IH; assumption.
    + replace (r =? 0) with false by lia. eapply Hfresh; eauto. unfold u64 in Hs. lia.
  - unfold u64 in *. destruct (Z.lt_ge_cases (n * elem) two64) as [Hlt|Hge].
    + unfold api_calloc in E. rewrite multiply_overflow_spec in E by assumption.
      replace (n * elem <? two64) with true in E by lia.
      assert (H0 : 0 <= n * elem) by nia.
      destruct (w_alloc_sizes c active full t m (malloc_policy c numa) false w (n * elem) o Hcf
                  (malloc_policy_ok c numa Hc Hn) H0 Ho)
        as (r1 & n1 & w1 & E1 & _ & Hr).
      rewrite E1 in E. cbn [obind] in E.
      destruct Hr as [(-> & _ & _ & Hh)|(Hr & _ & _ & (b & Hb & Hge & _ & Hps))].
      * cbn [Z.eqb] in E. inversion E; subst. cbn [Z.eqb]. intros a b Hb. rewrite Hh in Hb. apply IH; assumption.
      * replace (r1 =? 0) with false in E by lia. unfold write_data in E. rewrite Hb, upd_same in E.
        inversion E; subst. replace (r =? 0) with false by lia.
        intros a b0 Hb0. cbn [heap] in Hb0. destruct (Z.eq_dec a r) as [->|Hne].
        -- rewrite upd_same in Hb0. inversion Hb0; subst. rewrite upd_same.
           split; [exact Hr|]. split; [split; [exact H0|exact Hge]|exact Hps].
        -- rewrite upd_other in Hb0 by assumption. rewrite upd_other by assumption.
           rewrite upd_other in Hb0 by assumption. apply IH; assumption.
    + rewrite calloc_overflow in E by (unfold u64; lia). inversion E; subst. cbn [Z.eqb].
      intros a b Hb. apply IH. assumption.
  - unfold api_realloc in E. destruct (Z.eqb_spec ptr 0) as [->|Hp0].
    + unfold api_malloc in E.
      destruct (w_alloc_sizes c active full t m (malloc_policy c numa) false w size o Hcf
                  (malloc_policy_ok c numa Hc Hn) (proj1 Hs) Ho)
        as (r1 & n1 & w1 & E1 & _ & Hr).
      rewrite E1 in E. cbn [obind] in E. inversion E; subst.
      destruct Hr as [(-> & _ & _ & Hh)|(Hr & _ & _ & (b & Hb & Hge & _ & Hps))].
      * cbn [Z.eqb]. intros a b Hb. rewrite Hh in Hb. apply IH; assumption.
      * replace (r =? 0) with false by lia. eapply Hfresh; eauto. unfold u64 in Hs. lia.
    + destruct (Z.eqb_spec size 0) as [->|Hs0].
      * unfold w_free in E. replace (ptr =? 0) with false in E by lia.
        destruct (heap w ptr) as [b|] eqn:Eb; [|discriminate]. cbn [obind] in E. inversion E; subst.
        cbn [Z.eqb]. intros a b0 Hb0. cbn [heap] in Hb0. destruct (Z.eq_dec a ptr) as [->|Hne].
        -- rewrite upd_same in Hb0. discriminate.
        -- rewrite upd_other in Hb0 by assumption. apply IH; assumption.
      * destruct (heap w ptr) as [b|] eqn:Eb.
        2:{ unfold do_realloc in E. rewrite Eb in E. discriminate. }
        destruct (realloc_step c active full t m numa w R ptr size ws o b Hcf IH Hn Eb Hs Hs0 Ho)
          as (r1 & w1 & E1 & Hro & Hps).
        unfold api_realloc in E1. replace (ptr =? 0) with false in E1 by lia.
        replace (size =? 0) with false in E1 by lia. rewrite E1 in E. inversion E; subst.
        destruct Hro as [(-> & Hh & _)|[(-> & -> & Hge)|(Hr & Hrp & Hfr & (b' & Hb' & Hge & _) & Hnone & Hoth & _)]].
        -- cbn [Z.eqb]. intros a b0 Hb0. rewrite Hh in Hb0. apply IH; assumption.
        -- replace (ptr =? 0) with false by lia. intros a b0 Hb0. destruct (Z.eq_dec a ptr) as [->|Hne].
           ++ rewrite upd_same. destruct (IH ptr b0 Hb0) as (I1 & I2 & I3).
              assert (b0 = b) by congruence. subst b0. unfold u64 in Hs. repeat split; try lia; assumption.
           ++ rewrite upd_other by assumption. apply IH; assumption.
        -- replace (r =? 0) with false by lia. intros a b0 Hb0. destruct (Z.eq_dec a r) as [->|Hne].
           ++ destruct (Hps Hrp Hr) as (b2 & Hb2 & Hpos). rewrite upd_same.
              assert (b2 = b0) by congruence. assert (b' = b0) by congruence. subst b2 b'.
              unfold u64 in Hs. repeat split; try lia; assumption.
           ++ rewrite upd_other by assumption. destruct (Z.eq_dec a ptr) as [->|Hne2]; [congruence|].
              rewrite Hoth in Hb0 by assumption. apply IH; assumption.
  - unfold w_free in E. destruct (Z.eqb_spec ptr 0); [inversion E; subst; exact IH|].
    destruct (heap w ptr); inversion E; subst. intros a b0 Hb0. cbn [heap] in Hb0.
    destruct (Z.eq_dec a ptr) as [->|Hne].
    + rewrite upd_same in Hb0. discriminate.
    + rewrite upd_other in Hb0 by assumption. apply IH; assumption.
  - unfold write_data. destruct (heap w a) as [b|] eqn:Eb; [|exact IH].
    intros a0 b0 Hb0. cbn [heap] in Hb0. destruct (Z.eq_dec a0 a) as [->|Hne].
    + rewrite upd_same in Hb0. inversion Hb0; subst. exact (IH a b Eb).
    + rewrite upd_other in Hb0 by assumption. apply IH; assumption.
  - exact IH.
Qed.

(** Every live block of every history has at least the requested number of
    usable bytes. *)
Theorem usable_covers_request : forall c active full t m w R a b,
  configured c active full t m -> reach_w c m w R -> heap w a = Some b ->
  0 <= R a <= get_size m b.
Proof.
  intros c active full t m w R a b Hcf Hr Hb.
  destruct (reach_w_blocks c active full t m w R Hcf Hr a b Hb) as (_ & H & _). exact H.
Qed.
Print Assumptions usable_covers_request.

Theorem realloc_preserves : forall c active full t m numa w R ptr size ws o b,
  configured c active full t m -> reach_w c m w R -> 0 <= numa < numa_parts c ->
  heap w ptr = Some b -> u64 size -> size <> 0 -> outcome_ok w c size o ->
  exists r w', api_realloc c m numa w ptr size ws o = Some (r, w') /\
    realloc_outcome m w w' ptr size r b.
Proof.
  intros c active full t m numa w R ptr size ws o b Hcf Hr Hn Hb Hs H0 Ho.
  destruct (realloc_step c active full t m numa w R ptr size ws o b Hcf
    (reach_w_blocks _ _ _ _ _ _ _ Hcf Hr) Hn Hb Hs H0 Ho) as (r & w' & E & H & _). eauto.
Qed.
Print Assumptions realloc_preserves.

(** realloc(p, 0) releases p, once, and returns null; realloc(null, n) is malloc. *)
Theorem realloc_zero : forall c m numa w ptr ws o b,
  ptr <> 0 -> heap w ptr = Some b ->
  exists w', api_realloc c m numa w ptr 0 ws o = Some (0, w') /\
    heap w' ptr = None /\ (forall q, q <> ptr -> heap w' q = heap w q) /\
    trace w' = EvFree ptr :: trace w.
Proof.
  intros c m numa w ptr ws o b H0 Hb. unfold api_realloc, w_free.
  replace (ptr =? 0) with false by lia. cbn [Z.eqb]. rewrite Hb. cbn [obind].
  eexists. split; [reflexivity|]. cbn [heap trace]. split; [apply upd_same|].
  split; [|reflexivity]. intros q Hq. apply upd_other. assumption.
Qed.
Print Assumptions realloc_zero.

Theorem realloc_null : forall c m numa w size ws o,
  api_realloc c m numa w 0 size ws o = api_malloc c m numa w size o.
Proof. reflexivity. Qed.
Print Assumptions realloc_null.

(** ** C08 *)

(** The placement facts of a block that the sized delete relies on. *)
Definition user_pointer (ptr : Z) : Prop := 0 < ptr < 2 ^ 48.

Lemma lookup_block c active full t m p s :
  configured c active full t m -> policy_ok c p -> align p <= page_size c -> 0 <= s <= max_size c ->
  exists r k, 0 <= r < num_classes c / num_base c /\ 1 <= k < num_base c /\
    policy_block c active full p s = num_base c * r /\
    get_size_class c m p s = Small (num_base c * r + k).
Proof.
  intros (Hc & Hf & Hv & Hm) Hp Hal Hs.
  destruct (init_ok c active full t Hc Hf Hv) as (m' & Em & Hmo).
  assert (m' = m) by congruence. subst m'.
  destruct (get_size_class_spec c active full t m p s Hc Hf Hv Hmo Hp Hal Hs)
    as (r & k & Hr & Hk & Hblk & Eg & _).
  pose proof (so_len _ _ _ (valid_sizes_ok c t Hc Hf Hv)) as HL.
  exists r, k. repeat split; try lia; try assumption.
Qed.

(** Same block of classes, same alignment, and a size between the requested and
    the allocated one: the same class. *)
Lemma same_block_same_class c active full t m p p' s s' cl :
  configured c active full t m -> policy_ok c p -> policy_ok c p' -> align p' = align p ->
  0 <= s -> get_size_class c m p s = Small cl -> s <= s' <= class_to_size m cl ->
  policy_block c active full p' s' = policy_block c active full p s ->
  get_size_class c m p' s' = Small cl.
Proof.
  intros (Hc & Hf & Hv & Hm) Hp Hp' Hal Hs E Hs' Hblk.
  destruct (init_ok c active full t Hc Hf Hv) as (m' & Em & Hmo).
  assert (m' = m) by congruence. subst m'.
  assert (Hap : align p <= page_size c).
  { destruct (Z.le_gt_cases (align p) (page_size c)); [assumption|].
    rewrite get_size_class_not_small in E by auto. discriminate. }
  assert (Hsm : s <= max_size c).
  { destruct (Z.le_gt_cases s (max_size c)); [assumption|].
    rewrite get_size_class_not_small in E by auto. discriminate. }
  pose proof (valid_sizes_ok c t Hc Hf Hv) as Hok. pose proof (so_len _ _ _ Hok) as HL.
  destruct (cfg_ok_facts c Hc) as (_ & Hnb & _).
  destruct (get_size_class_spec c active full t m p s Hc Hf Hv Hmo Hp Hap ltac:(lia))
    as (r & k & Hr & Hk & Hb & Eg & Hge & Hd & Hmin).
  assert (cl = num_base c * r + k) by congruence. subst cl.
  rewrite (mo_size _ _ _ _ _ Hmo r k) in Hs' by lia.
  pose proof (so_max _ _ _ Hok k Hk) as Hle. cbv beta in Hle.
  destruct (get_size_class_spec c active full t m p' s' Hc Hf Hv Hmo Hp' ltac:(lia) ltac:(lia))
    as (r' & k' & Hr' & Hk' & Hb' & Eg' & Hge' & Hd' & Hmin').
  rewrite Eg'. f_equal. rewrite Hal in Hd', Hmin'.
  assert (r' = r).
  { apply (Z.mul_reg_l _ _ (num_base c)); [lia|]. congruence. }
  subst r'. f_equal.
  destruct (Z.lt_trichotomy k' k) as [Hlt|[->|Hlt]]; [|reflexivity|].
  - destruct (Hmin k' ltac:(lia)); [lia|contradiction].
  - destruct (Hmin' k ltac:(lia)); [lia|contradiction].
Qed.

(** How many partitions the process runs with: the security partitions when
    they are on (they are only compiled in without NUMA), else the NUMA nodes in use. *)
Definition partitions_ok (c : cfg) (active full : bool) (numa_active : Z) : Prop :=
  1 <= numa_active <= numa_parts c /\
  (active = true -> sec_parts c = 2) /\ (full = true -> active = true).

(** The class an allocation got has spans with a definite tag. *)
Lemma class_block_tag c active numa_active r k :
  cfg_ok c -> 0 <= r -> 1 <= k < num_base c ->
  memory_tag_from_size_class c (active_partitions c active numa_active) (num_base c * r + k) =
    if expanded c && (normal_parts c <=? r) then Some tag_cold
    else if active_partitions c active numa_active =? 1 then Some tag_normal_p0
    else multi_normal_tag r.
Proof.
  intros Hc Hr Hk. destruct (cfg_ok_facts c Hc) as (_ & Hnb & _).
  unfold memory_tag_from_size_class, is_expanded_class, expanded_start.
  replace (num_base c * normal_parts c <=? num_base c * r + k) with (normal_parts c <=? r) by nia.
  destruct (expanded c && _); [reflexivity|]. destruct (_ =? 1); [reflexivity|].
  f_equal. symmetry. apply (Z.div_unique _ _ r k); lia.
Qed.

(** Decide the tests on numerals. *)
Ltac ztests :=
  repeat match goal with
  | |- context [Z.eqb ?a ?b] => let v := eval vm_compute in (Z.eqb a b) in
      match v with true => idtac | false => idtac end; change (Z.eqb a b) with v; cbv iota
  | |- context [Z.ltb ?a ?b] => let v := eval vm_compute in (Z.ltb a b) in
      match v with true => idtac | false => idtac end; change (Z.ltb a b) with v; cbv iota
  | |- context [Z.modulo ?a ?b] => let v := eval vm_compute in (Z.modulo a b) in
      match v with Z0 => idtac | Zpos _ => idtac end; change (Z.modulo a b) with v
  | |- context [Z.div ?a ?b] => let v := eval vm_compute in (Z.div a b) in
      match v with Z0 => idtac | Zpos _ => idtac end; change (Z.div a b) with v
  | H : context [Z.eqb ?a ?b] |- _ => let v := eval vm_compute in (Z.eqb a b) in
      match v with true => idtac | false => idtac end; change (Z.eqb a b) with v in H; cbv iota in H
  | H : context [Z.ltb ?a ?b] |- _ => let v := eval vm_compute in (Z.ltb a b) in
      match v with true => idtac | false => idtac end; change (Z.ltb a b) with v in H; cbv iota in H
  | H : context [andb ?a ?b] |- _ => let v := eval vm_compute in (andb a b) in
      match v with true => idtac | false => idtac end; change (andb a b) with v in H; cbv iota in H
  | |- context [andb ?a ?b] => let v := eval vm_compute in (andb a b) in
      match v with true => idtac | false => idtac end; change (andb a b) with v; cbv iota
  end.

Lemma policy_block_hot c active full numa_active p pf s s' r :
  cfg_ok c -> policy_ok c p -> policy_ok c pf -> partitions_ok c active full numa_active ->
  numa_partition p < numa_active -> alloc_new pf = alloc_new p ->
  0 <= r -> policy_block c active full p s = num_base c * r -> r < normal_parts c ->
  r < active_partitions c active numa_active /\ r < 2 /\
  policy_block c active full
    (in_partition c (access_as pf false)
       (if normal_parts c =? 1 then 0 else if active_partitions c active numa_active =? 1 then 0 else r)) s'
  = num_base c * r.
Proof.
  intros Hc (_ & Hsec & Hnu & Hcn) _ (Hna & Hact & Hful) Hnp Han Hr0 Hb Hr.
  destruct (cfg_ok_facts c Hc) as (_ & Hnb & Hparts & _).
  unfold policy_block, reg_base, in_partition, access_as, expanded_start, normal_parts,
    active_partitions, cold_stride, hot_registers in *.
  cbn [is_cold alloc_new sec_partition numa_partition] in *. rewrite Han, andb_false_r.
  assert (Hmul : forall x y, num_base c * x = num_base c * y -> x = y) by (intros x y Hxy; apply (Z.mul_reg_l _ _ (num_base c)); [lia|exact Hxy]).
  destruct Hparts as [(E1 & E2)|[(E1 & E2)|(E1 & E2)]]; unfold normal_parts in *; rewrite E1, E2 in *.
  all: try (assert (active = false) by (destruct active; [exfalso; specialize (Hact eq_refl); lia|reflexivity]); subst active).
  all: assert (Hr2 : r = 0 \/ r = 1) by lia.
  all: assert (Hn2 : numa_partition p = 0 \/ numa_partition p = 1) by lia.
  all: assert (Hs2 : sec_partition p = 0 \/ sec_partition p = 1) by lia.
  all: clear E1 E2 Hact Hcn.
  all: destruct Hr2 as [-> | ->]; [|try (exfalso; lia)].
  all: destruct Hn2 as [En|En]; rewrite En in *; try (exfalso; lia).
  all: destruct Hs2 as [Es|Es]; rewrite Es in *; try (exfalso; lia).
  all: try destruct active; destruct full; try (exfalso; discriminate (Hful eq_refl)).
  all: destruct (alloc_new p), (expanded c && is_cold p).
  all: try (assert (Hv : numa_active = 1 \/ numa_active = 2) by lia; destruct Hv as [-> | ->]).
  all: destruct (s =? 0).
  all: ztests; try (exfalso; clear - Hb Hnb Hr Hnp; lia); (split; [clear; lia|split; [clear; lia|clear - Hb Hnb; lia]]).
Qed.

Lemma policy_block_cold c active full numa_active p s r :
  cfg_ok c -> policy_ok c p -> partitions_ok c active full numa_active ->
  0 <= r -> policy_block c active full p s = num_base c * r -> normal_parts c <= r ->
  expanded c = true /\ is_cold p = true /\ s <> 0 /\ r = normal_parts c.
Proof.
  intros Hc (_ & Hsec & Hnu & Hcn) (Hna & Hact & Hful) Hr0 Hb Hr.
  destruct (cfg_ok_facts c Hc) as (_ & Hnb & Hparts & _).
  unfold policy_block, reg_base, expanded_start, normal_parts, cold_stride, hot_registers in *.
  assert (Hn2 : numa_partition p = 0 \/ numa_partition p = 1) by lia.
  assert (Hs2 : sec_partition p = 0 \/ sec_partition p = 1) by lia.
  destruct Hparts as [(E1 & E2)|[(E1 & E2)|(E1 & E2)]]; rewrite E1, E2 in *; clear E1 E2 Hact Hcn.
  all: destruct Hn2 as [En|En]; rewrite En in *; try (exfalso; lia).
  all: destruct Hs2 as [Es|Es]; rewrite Es in *; try (exfalso; lia).
  all: destruct active, full; try (exfalso; discriminate (Hful eq_refl)).
  all: destruct (alloc_new p), (expanded c), (is_cold p).
  all: destruct (Z.eqb_spec s 0).
  all: ztests; try (exfalso; clear - Hb Hr Hr0 Hnb; nia); repeat split; try assumption; try (clear - Hb Hnb; nia).
Qed.

(** A sized delete of a block of a class puts the block on the free list of that
    very class: the class is recomputed from the size passed to delete and from the
    tag of the address only, and any size from the requested one up to the usable
    one is accepted (what C++14 sized delete and size-returning new need).
    [p] is the policy of the allocation, [pf] the one of the deallocation: it has
    the same alignment and the same family (new/malloc), nothing else is needed. *)
Theorem sized_delete_same_class : forall c active full numa_active t m p pf s s' cl ptr,
  configured c active full t m -> partitions_ok c active full numa_active ->
  policy_ok c p -> numa_partition p < numa_active ->
  policy_ok c pf -> align pf = align p -> alloc_new pf = alloc_new p ->
  0 <= s -> get_size_class c m p s = Small cl ->
  user_pointer ptr -> (8 | ptr) ->
  memory_tag_from_size_class c (active_partitions c active numa_active) cl = Some (get_memory_tag ptr) ->
  s <= s' <= class_to_size m cl ->
  do_free_with_size c m pf ptr s' = FreeClass cl.
Proof.
  intros c active full na t m p pf s s' cl ptr Hcf Hpt Hp Hnp Hpf Hal Han Hs E Hu H8 Htag Hs'.
  pose proof Hcf as (Hc & _). unfold user_pointer in Hu.
  destruct (cfg_ok_facts c Hc) as (_ & Hnb & Hparts & _).
  destruct (lookup_cases c active full t m p s Hcf Hp Hs) as [(Hap & Hsx & _)|(_ & E')]; [|congruence].
  destruct (lookup_block c active full t m p s Hcf Hp Hap ltac:(lia)) as (r & k & Hr & Hk & Hb & E').
  assert (cl = num_base c * r + k) by congruence. subst cl. clear E'.
  rewrite class_block_tag in Htag by (assumption || lia).
  destruct (good_ptr_masks ptr ltac:(lia) H8) as (M1 & M2).
  unfold do_free_with_size. rewrite M1, M2.
  destruct (Z.lt_ge_cases r (normal_parts c)) as [Hrn|Hrn].
  - replace (normal_parts c <=? r) with false in Htag by lia. rewrite andb_false_r in Htag.
    destruct (policy_block_hot c active full na p pf s s' r Hc Hp Hpf Hpt Hnp Han (proj1 Hr) Hb Hrn)
      as (Hra & Hr2 & Hb').
    assert (Htg : get_memory_tag ptr = 4 \/ get_memory_tag ptr = 6).
    { unfold multi_normal_tag in Htag.
      destruct (_ =? 1); [left; unfold tag_normal_p0 in Htag; congruence|].
      unfold tag_normal_p0, tag_normal_p1 in Htag. destruct (r =? 0); [left; congruence|].
      destruct (r =? 1); [right; congruence|discriminate]. }
    replace (Z.land (get_memory_tag ptr) 4) with 4 by (destruct Htg as [-> | ->]; reflexivity).
    change (negb (Z.shiftl 4 42 =? k_normal_mask)) with false. cbv iota.
    unfold fast_free_with_size. cbn [is_cold access_as orb].
    match goal with |- context [in_partition c _ ?k] => set (part := k) end.
    assert (Hpart : part = if normal_parts c =? 1 then 0 else if active_partitions c active na =? 1 then 0 else r).
    { unfold part, partition_from_pointer_fast. destruct (normal_parts c =? 1); [reflexivity|].
      unfold multi_normal_tag, tag_normal_p0, tag_normal_p1 in Htag.
      destruct (_ =? 1); [replace (get_memory_tag ptr) with 4 by congruence; reflexivity|].
      destruct (Z.eqb_spec r 0) as [->|]; [replace (get_memory_tag ptr) with 4 by congruence; reflexivity|].
      destruct (Z.eqb_spec r 1) as [->|]; [|discriminate].
      replace (get_memory_tag ptr) with 6 by congruence. reflexivity. }
    rewrite Hpart.
    match goal with |- context [in_partition c ?q ?k] => set (p' := in_partition c q k) in * end.
    assert (Hp' : policy_ok c p').
    { apply in_partition_ok; [assumption| |destruct (normal_parts c =? 1); [lia|]; destruct (active_partitions c active na =? 1); lia].
      destruct Hpf as (P1 & P2 & P3 & P4). split; [exact P1|]. split; [exact P2|]. split; [exact P3|]. intros H; discriminate H. }
    rewrite (same_block_same_class c active full t m p p' s s' (num_base c * r + k)); try assumption; try reflexivity.
    congruence.
  - destruct (policy_block_cold c active full na p s r Hc Hp Hpt (proj1 Hr) Hb Hrn) as (Hex & Hcold & Hs0 & ->).
    rewrite Hex in Htag. replace (normal_parts c <=? normal_parts c) with true in Htag by lia.
    cbn [andb] in Htag. unfold tag_cold in Htag. assert (Htg : get_memory_tag ptr = 2) by congruence.
    rewrite Htg. change (negb (Z.shiftl (Z.land 2 4) 42 =? k_normal_mask)) with true. cbv iota.
    replace (ptr =? 0) with false by lia.
    change (negb (Z.shiftl 2 42 =? k_cold_mask)) with false. cbv iota.
    unfold fast_free_with_size. cbn [is_cold access_as orb].
    match goal with |- context [in_partition c ?q ?k] => set (p' := in_partition c q k) in * end.
    assert (Hp' : policy_ok c p').
    { apply in_partition_ok; [assumption| |lia].
      destruct Hpf as (P1 & P2 & P3 & P4). split; [exact P1|]. split; [exact P2|]. split; [exact P3|]. intros _.
      cbn [alloc_new access_as]. rewrite Han. apply Hp. assumption. }
    assert (Hz : sec_partition p' = 0).
    { unfold p', in_partition. cbn [sec_partition]. rewrite Z.mod_0_l by lia. cbn [Z.sub]. rewrite Z.div_0_l by lia.
      destruct (_ =? 1); reflexivity. }
    rewrite (same_block_same_class c active full t m p p' s s' (num_base c * normal_parts c + k)); try assumption; try reflexivity.
    rewrite Hb. unfold policy_block. rewrite Hex, Hz. cbn [is_cold in_partition access_as p' andb].
    unfold reg_base, cold_stride, hot_registers. rewrite Z.add_0_l.
    replace (2 * sec_parts c =? 0) with false by lia.
    replace (2 * sec_parts c <? sec_parts c) with false by lia.
    replace (2 * sec_parts c =? sec_parts c) with false by lia.
    rewrite Z.ltb_irrefl, Z.eqb_refl. replace (s' =? 0) with false by lia. reflexivity.
Qed.
Print Assumptions sized_delete_same_class.

(** The hypothesis on the tag is never vacuous: the class of every allocation has one. *)
Theorem class_tag_defined : forall c active full numa_active t m p s cl,
  configured c active full t m -> partitions_ok c active full numa_active ->
  policy_ok c p -> numa_partition p < numa_active ->
  0 <= s -> get_size_class c m p s = Small cl ->
  exists tag, memory_tag_from_size_class c (active_partitions c active numa_active) cl = Some tag /\
    (tag = tag_normal_p0 \/ tag = tag_normal_p1 \/ tag = tag_cold).
Proof.
  intros c active full na t m p s cl Hcf Hpt Hp Hnp Hs E. pose proof Hcf as (Hc & _).
  destruct (lookup_cases c active full t m p s Hcf Hp Hs) as [(Hap & Hsx & _)|(_ & E')]; [|congruence].
  destruct (lookup_block c active full t m p s Hcf Hp Hap ltac:(lia)) as (r & k & Hr & Hk & Hb & E').
  assert (cl = num_base c * r + k) by congruence. subst cl.
  rewrite class_block_tag by (assumption || lia).
  destruct (Z.lt_ge_cases r (normal_parts c)) as [Hrn|Hrn].
  - replace (normal_parts c <=? r) with false by lia. rewrite andb_false_r.
    destruct (policy_block_hot c active full na p p s s r Hc Hp Hp Hpt Hnp eq_refl (proj1 Hr) Hb Hrn)
      as (Hra & Hr2 & _).
    destruct (_ =? 1); [eexists; split; [reflexivity|auto]|]. unfold multi_normal_tag.
    destruct (Z.eqb_spec r 0); [eexists; split; [reflexivity|auto]|].
    replace (r =? 1) with true by lia. eexists; split; [reflexivity|auto].
  - destruct (policy_block_cold c active full na p s r Hc Hp Hpt (proj1 Hr) Hb Hrn) as (Hex & _ & _ & ->).
    rewrite Hex. replace (normal_parts c <=? normal_parts c) with true by lia.
    eexists; split; [reflexivity|auto].
Qed.
Print Assumptions class_tag_defined.

Lemma not_small_stays c active full t m p p' s s' :
  configured c active full t m -> policy_ok c p -> align p' = align p -> 0 <= s <= s' ->
  get_size_class c m p s = NotSmall -> get_size_class c m p' s' = NotSmall.
Proof.
  intros Hcf Hp Hal Hs E.
  destruct (lookup_cases c active full t m p s Hcf Hp (proj1 Hs)) as [(_ & _ & cl & E' & _)|(Hx & _)]; [congruence|].
  apply get_size_class_not_small; [apply Hcf|lia|]. destruct Hx; [left; rewrite Hal; assumption|right; lia].
Qed.

(** A sized delete of a block that has a span of its own (a large or over-aligned
    block, or a sampled one) always goes to the path that returns the span. *)
Theorem sized_delete_pages : forall c active full t m p pf s s' ptr,
  configured c active full t m -> policy_ok c p ->
  align pf = align p -> 0 <= s <= s' -> user_pointer ptr -> (8 | ptr) ->
  get_size_class c m p s = NotSmall \/ is_sampled_memory ptr = true ->
  do_free_with_size c m pf ptr s' = FreePages.
Proof.
  intros c active full t m p pf s s' ptr Hcf Hp Hal Hs Hu H8 Hor. unfold user_pointer in Hu.
  destruct (good_ptr_masks ptr ltac:(lia) H8) as (M1 & M2).
  unfold do_free_with_size. destruct (is_sampled_memory ptr) eqn:Es.
  - assert (Ht : get_memory_tag ptr = 0 \/ get_memory_tag ptr = 1).
    { unfold is_sampled_memory, tag_sampled_p1 in Es. apply Z.eqb_eq in Es.
      pose proof (get_memory_tag_land ptr) as Hl.
      assert (Hrg : 0 <= get_memory_tag ptr < 8).
      { rewrite Hl. change 7 with (Z.ones 3). rewrite Z.land_ones by lia. apply Z.mod_pos_bound. lia. }
      assert (Hc8 : forall x, 0 <= x < 8 -> Z.ldiff x 1 = 0 -> x = 0 \/ x = 1).
      { intros x Hx. assert (Hx' : x = 0 \/ x = 1 \/ x = 2 \/ x = 3 \/ x = 4 \/ x = 5 \/ x = 6 \/ x = 7) by lia.
        destruct Hx' as [->|[->|[->|[->|[->|[->|[->| ->]]]]]]]; cbn; auto; discriminate. }
      apply Hc8; assumption. }
    assert (N1 : Z.land ptr k_normal_or_bad <> k_normal_mask) by (apply not_normal; destruct Ht as [-> | ->]; reflexivity).
    assert (N2 : Z.land ptr k_tag_or_bad <> k_cold_mask) by (apply not_cold; destruct Ht as [-> | ->]; discriminate).
    apply Z.eqb_neq in N1, N2. rewrite N1, N2. cbn [negb]. replace (ptr =? 0) with false by lia.
    unfold handle_sampled_or_illformed. rewrite Es. reflexivity.
  - destruct Hor as [E|E]; [|discriminate].
    pose proof (fun p' Hal' => not_small_stays c active full t m p p' s s' Hcf Hp Hal' Hs E) as Hns.
    destruct (negb (Z.land ptr k_normal_or_bad =? k_normal_mask)).
    + replace (ptr =? 0) with false by lia.
      destruct (negb (Z.land ptr k_tag_or_bad =? k_cold_mask)).
      * unfold handle_sampled_or_illformed. rewrite Es.
        rewrite (land_high ptr) by lia. cbn [Z.eqb negb]. rewrite Hns by assumption. reflexivity.
      * unfold fast_free_with_size. rewrite Hns by assumption. reflexivity.
    + unfold fast_free_with_size. rewrite Hns by assumption. reflexivity.
Qed.
Print Assumptions sized_delete_pages.

(** On that path a correct size is never reported as mismatched: the requested
    size always passes, and after a size-returning allocation so does every size
    from the requested one to the returned one. *)
Theorem sized_pages_check_accepts : forall c active full t m p ret size o a b n s',
  configured c active full t m -> policy_ok c p -> 0 <= size -> size + page_size c <= two64 ->
  fast_alloc c m p ret size o = AllocOk a b n -> b_class b = 0 ->
  s' = size \/ ret = true /\ size <= s' <= n ->
  sized_pages_check c p ret b s' = true.
Proof.
  intros c active full t m p ret size o a b n s' Hcf Hp Hs Hb E Hcl Hs'.
  pose proof Hcf as (Hc & _). pose proof (page_size_pos c Hc) as Hps.
  unfold fast_alloc in E.
  destruct (lookup_cases c active full t m p size Hcf Hp Hs)
    as [(Ha & Hx & cl & E1 & Hcl' & (_ & Hge & _))|(Hx & E1)]; rewrite E1 in E.
  - destruct o; inversion E; subst; cbn [b_class] in Hcl; [lia| |];
      unfold sized_pages_check; cbn [b_sample s_requested s_allocated]; destruct ret;
      destruct Hs' as [->|(Hr & Hs')]; try discriminate; lia.
  - set (k := length_in_bytes c (Z.max (bytes_to_length_ceil c size) 1)) in *.
    assert (Hk : size <= k /\ 0 < k /\ k - page_size c < Z.max size 1 /\ k < two64 /\ page_size c <= k /\
                 (size = 0 -> k = page_size c)).
    { destruct (ceil_bytes c size Hc Hs Hb) as (C1 & C2 & C3 & C4). subst k.
      destruct (Z.le_gt_cases 1 (bytes_to_length_ceil c size)) as [H1|H1].
      - rewrite Z.max_l by lia. assert (page_size c <= length_in_bytes c (bytes_to_length_ceil c size)) by (rewrite C1; nia).
        repeat split; lia.
      - assert (size = 0) by nia. subst size. rewrite Z.max_r by lia.
        unfold length_in_bytes. rewrite wrap64_small by (unfold two64 in *; lia). unfold two64 in *. lia. }
    clearbody k. destruct Hk as (K1 & K2 & K3 & K4 & K5 & K6).
    destruct o; inversion E; subst; unfold sized_pages_check; cbn [b_sample b_span_bytes s_requested s_allocated].
    + rewrite wrap64_small by (unfold two64 in *; lia).
      destruct (Z.eq_dec s' 0) as [->|Hne].
      * assert (size = 0) by lia. subst size. rewrite (K6 eq_refl).
        assert (page_size c < align p).
        { destruct Hx as [Hx|Hx]; [exact Hx|]. exfalso. destruct (cfg_ok_facts c Hc) as ((Hm1 & _) & _). lia. }
        replace (page_size c <? align p) with true by lia. rewrite Z.eqb_refl. cbn [andb negb]. lia.
      * replace ((s' <? n - (page_size c - 1)) || (n <? s')) with false by lia. reflexivity.
    + destruct ret; destruct Hs' as [->|(Hr & Hs')]; try discriminate; lia.
    + destruct ret; destruct Hs' as [->|(Hr & Hs')]; try discriminate; lia.
Qed.
Print Assumptions sized_pages_check_accepts.

(** ** Concrete cases *)

(** 8 KiB pages, one partition, cold classes, the shipped table: malloc(300000)
    then realloc to 500000, with the contents written in between. *)
Example front_history : exists t m b w R,
  configured (cfg13 1 1) false false t m /\ reach_w (cfg13 1 1) m w R /\
  heap w (2 ^ 44 + 2 ^ 20) = Some b /\ R (2 ^ 44 + 2 ^ 20) = 500000 /\ get_size m b = 507904 /\
  b_data b 299999 = 7 /\ heap w (2 ^ 44) = None /\
  trace w = [EvFree (2 ^ 44); EvAlloc 500000 16; EvAlloc 300000 16].
Proof.
  set (c := cfg13 1 1).
  assert (Hc : cfg_ok c) by (exists 1, 1; split; [lia|auto]).
  assert (Hin : In t_def_8_13 (tables (page_shift c))) by (cbn; tauto).
  destruct (shipped_tables_accepted c _ Hc Hin) as (Hv & Hf).
  destruct (accepted_table_initialises c false false _ Hc Hf Hv) as (m & Em).
  assert (Hcf : configured c false false t_def_8_13 m) by (repeat split; assumption).
  assert (Hp : policy_ok c (malloc_policy c 0)) by (apply malloc_policy_ok; [assumption|cbn; lia]).
  set (w0 := World (fun _ => None) 0 []).
  set (d0 := fun _ : Z => 7).
  set (w1 := World (upd (fun _ => None) (2 ^ 44) (Some (Block 0 303104 None d0))) 0 [EvAlloc 300000 16]).
  assert (R1 : reach_w c m w1 (upd (fun _ => 0) (2 ^ 44) 300000)).
  { apply (rw_alloc c m w0 (fun _ => 0) (malloc_policy c 0) false 300000 (Plain (2 ^ 44) d0) (2 ^ 44) 303104).
    - constructor.
    - exact Hp.
    - unfold u64, two64. lia.
    - cbn. unfold two64, page_size. cbn. repeat split; lia.
    - cbn. exists 2147483648. reflexivity.
    - reflexivity. }
  set (d2 := mem_copy (fun _ : Z => 0) d0 303104).
  set (w2 := World (upd (upd (upd (heap w1) (2 ^ 44 + 2 ^ 20) (Some (Block 0 507904 None (fun _ => 0))))
                      (2 ^ 44 + 2 ^ 20) (Some (Block 0 507904 None d2))) (2 ^ 44) None) 0
               [EvFree (2 ^ 44); EvAlloc 500000 16; EvAlloc 300000 16]).
  assert (R2 : reach_w c m w2 (upd (upd (fun _ => 0) (2 ^ 44) 300000) (2 ^ 44 + 2 ^ 20) 500000)).
  { apply (rw_realloc c m w1 _ 0 (2 ^ 44) 500000 false (Plain (2 ^ 44 + 2 ^ 20) (fun _ => 0)) (2 ^ 44 + 2 ^ 20)).
    - exact R1.
    - cbn. lia.
    - unfold u64, two64. lia.
    - cbn. unfold two64, page_size. cbn. repeat split; lia.
    - reflexivity. }
  exists t_def_8_13, m, (Block 0 507904 None d2), w2, (upd (upd (fun _ => 0) (2 ^ 44) 300000) (2 ^ 44 + 2 ^ 20) 500000).
  split; [exact Hcf|]. split; [exact R2|]. repeat split; reflexivity.
Qed.

(** Two active partitions and cold classes: a cold 100-byte block and a block of
    partition 1 are each given back to their own class by an unadorned sized delete. *)
Example sized_delete_case : exists t m cl cl',
  configured (cfg13 1 2) false false t m /\ partitions_ok (cfg13 1 2) false false 2 /\
  get_size_class (cfg13 1 2) m (access_as (cpp_policy (cfg13 1 2) 1) true) 100 = Small cl /\
  get_size_class (cfg13 1 2) m (cpp_policy (cfg13 1 2) 1) 100 = Small cl' /\
  cl <> cl' /\ 100 <= class_to_size m cl /\
  do_free_with_size (cfg13 1 2) m (cpp_policy (cfg13 1 2) 0) (2 * 2 ^ 42 + 64) 100 = FreeClass cl /\
  do_free_with_size (cfg13 1 2) m (cpp_policy (cfg13 1 2) 0) (6 * 2 ^ 42 + 64) 100 = FreeClass cl'.
Proof.
  set (c := cfg13 1 2).
  assert (Hc : cfg_ok c) by (exists 1, 2; split; [lia|auto]).
  assert (Hin : In t_def_8_13 (tables (page_shift c))) by (cbn; tauto).
  destruct (shipped_tables_accepted c _ Hc Hin) as (Hv & Hf).
  destruct (accepted_table_initialises c false false _ Hc Hf Hv) as (m & Em).
  assert (Hcf : configured c false false t_def_8_13 m) by (repeat split; assumption).
  assert (Hpt : partitions_ok c false false 2) by (split; [cbn; lia|split; discriminate]).
  assert (Hp0 : policy_ok c (cpp_policy c 0)) by (apply cpp_policy_ok; [assumption|cbn; lia]).
  assert (Hp1 : policy_ok c (cpp_policy c 1)) by (apply cpp_policy_ok; [assumption|cbn; lia]).
  assert (Hpc : policy_ok c (access_as (cpp_policy c 1) true)).
  { destruct Hp1 as (P1 & P2 & P3 & _). split; [exact P1|]. split; [exact P2|]. split; [exact P3|]. reflexivity. }
  destruct (lookup_block c false false _ m _ 100 Hcf Hpc ltac:(cbv; discriminate) ltac:(cbv; split; discriminate))
    as (r & k & Hr & Hk & Hb & E).
  destruct (lookup_block c false false _ m _ 100 Hcf Hp1 ltac:(cbv; discriminate) ltac:(cbv; split; discriminate))
    as (r' & k' & Hr' & Hk' & Hb' & E').
  change (policy_block c false false (access_as (cpp_policy c 1) true) 100) with (86 * 2) in Hb.
  change (policy_block c false false (cpp_policy c 1) 100) with (86 * 1) in Hb'.
  change (num_base c) with 86 in *. assert (r = 2) by lia. assert (r' = 1) by lia. subst r r'.
  destruct (lookup_cases c false false _ m _ 100 Hcf Hpc ltac:(lia)) as [(_ & _ & cl & E2 & _ & (_ & Hge & _))|(_ & E2)];
    [|congruence].
  destruct (lookup_cases c false false _ m _ 100 Hcf Hp1 ltac:(lia)) as [(_ & _ & cl' & E2' & _ & (_ & Hge' & _))|(_ & E2')];
    [|congruence].
  assert (cl = 86 * 2 + k) by congruence. assert (cl' = 86 * 1 + k') by congruence. subst cl cl'.
  exists t_def_8_13, m, (86 * 2 + k), (86 * 1 + k').
  split; [exact Hcf|]. split; [exact Hpt|]. split; [exact E|]. split; [exact E'|]. split; [lia|]. split; [exact Hge|].
  assert (T2 := class_block_tag c false 2 2 k Hc ltac:(lia) Hk).
  assert (T1 := class_block_tag c false 2 1 k' Hc ltac:(lia) Hk'). change (num_base c) with 86 in *.
  split.
  - apply (sized_delete_same_class c false false 2 t_def_8_13 m (access_as (cpp_policy c 1) true) (cpp_policy c 0) 100 100);
      [exact Hcf|exact Hpt|exact Hpc|reflexivity|exact Hp0|reflexivity|reflexivity|clear; lia|exact E|split; reflexivity
      |exists (2 * 2 ^ 39 + 8); reflexivity|exact T2|clear - Hge; lia].
  - apply (sized_delete_same_class c false false 2 t_def_8_13 m (cpp_policy c 1) (cpp_policy c 0) 100 100);
      [exact Hcf|exact Hpt|exact Hp1|reflexivity|exact Hp0|reflexivity|reflexivity|clear; lia|exact E'|split; reflexivity
      |exists (6 * 2 ^ 39 + 8); reflexivity|exact T1|clear - Hge'; lia].
Qed.
