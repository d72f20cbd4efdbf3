(** Property C25: the address-to-owner map. *)
From Verif Require Import Base PageMap.

(** ** The specification: what the last operation on a page says *)

Inductive op :=
| OpEnsure (al : Z -> bool) (start n : Z)   (* reserve; [al]: which metadata allocations succeed *)
| OpSet (k s : Z)                           (* page k belongs to span s *)
| OpRegister (first last s sc : Z)          (* pages first..last belong to span s of class sc *)
| OpUnregister (first last : Z)
| OpSetHuge (k v : Z).                      (* the tracker of k's hugepage is v *)

(** Arguments that the types of the C++ allow: span pointers have 48 bits, classes 16,
    page numbers [pm_bits]. *)
Definition op_ok (c : pmcfg) (o : op) : Prop :=
  match o with
  | OpEnsure _ start n => 0 <= start /\ 1 <= n /\ start + n <= 2 ^ 63
  | OpSet k s => 0 <= k < 2 ^ pm_bits c /\ 0 <= s < 2 ^ 48
  | OpRegister f l s sc => 0 <= f /\ f <= l /\ l < 2 ^ pm_bits c /\ 0 <= s < 2 ^ 48 /\ 0 <= sc < 2 ^ 16
  | OpUnregister f l => 0 <= f /\ f <= l /\ l < 2 ^ pm_bits c
  | OpSetHuge k v => 0 <= k < 2 ^ pm_bits c
  end.

(** The most recent operation is at the head. *)
Fixpoint owner (h : list op) (k : Z) : Z :=
  match h with
  | [] => 0
  | OpSet k' s :: h => if k =? k' then s else owner h k
  | OpRegister f l s _ :: h => if (f <=? k) && (k <=? l) then s else owner h k
  | _ :: h => owner h k
  end.
Fixpoint class_of (h : list op) (k : Z) : Z :=
  match h with
  | [] => 0
  | OpRegister f l _ sc :: h => if (f <=? k) && (k <=? l) then sc else class_of h k
  | OpUnregister f l :: h => if (f <=? k) && (k <=? l) then 0 else class_of h k
  | _ :: h => class_of h k
  end.
(** The class stored beside the owner: unregistering does not clear it. *)
Fixpoint packed_class_of (h : list op) (k : Z) : Z :=
  match h with
  | [] => 0
  | OpSet k' _ :: h => if k =? k' then 0 else packed_class_of h k
  | OpRegister f l _ sc :: h => if (f <=? k) && (k <=? l) then sc else packed_class_of h k
  | _ :: h => packed_class_of h k
  end.
Definition hugepage_of (c : pmcfg) (k : Z) : Z := k / 2 ^ (huge_page_shift - pm_page_shift c).
Fixpoint tracker (c : pmcfg) (h : list op) (k : Z) : Z :=
  match h with
  | [] => 0
  | OpSetHuge k' v :: h => if hugepage_of c k =? hugepage_of c k' then v else tracker c h k
  | _ :: h => tracker c h k
  end.

(** One operation on the map; [None]: a null dereference. *)
Definition pm_step (c : pmcfg) (m : pmap) (o : op) : option pmap :=
  match o with
  | OpEnsure al start n => let? (_, m) := pm_ensure c al m start n in Some m
  | OpSet k s => pm_set c m k s
  | OpRegister f l s sc => pm_register (Z.to_nat (l - f + 1)) c m f s sc
  | OpUnregister f l => pm_unregister (Z.to_nat (l - f + 1)) c m f
  | OpSetHuge k v => pm_set_hugepage c m k v
  end.

Inductive reach (c : pmcfg) : pmap -> list op -> Prop :=
| r_init : reach c pm0 []
| r_step m h o m' : reach c m h -> op_ok c o -> pm_step c m o = Some m' -> reach c m' (o :: h).

(** ** Indices *)


Lemma pm_facts c : pm_ok c ->
  0 < leaf_bits c /\ mid_bits c = leaf_bits c /\ 0 < root_bits c /\
  pm_bits c = root_bits c + mid_bits c + leaf_bits c /\ pm_bits c <= 62 /\
  0 <= leaf_bits c - leaf_huge_bits c <= leaf_bits c /\
  leaf_bits c - leaf_huge_bits c = huge_page_shift - pm_page_shift c.
Proof.
  unfold pm_ok, leaf_huge_bits, root_bits. intros. assert (mid_bits c = leaf_bits c) by reflexivity. lia.
Qed.

Lemma pow2_pos n : 0 <= n -> 0 < 2 ^ n.
Proof. intros. apply Z.pow_pos_nonneg; lia. Qed.

Lemma i1_div c k : pm_ok c -> i1 c k = k / (mid_length c * leaf_length c).
Proof.
  intros H. destruct (pm_facts c H) as (H1 & H2 & _).
  unfold i1, mid_length, leaf_length. rewrite Z.shiftr_div_pow2 by lia.
  rewrite Z.pow_add_r by lia. reflexivity.
Qed.
Lemma i2_mod c k : pm_ok c -> i2 c k = (k / leaf_length c) mod mid_length c.
Proof.
  intros H. destruct (pm_facts c H) as (H1 & H2 & _).
  unfold i2, mid_length, leaf_length. rewrite Z.shiftr_div_pow2 by lia. apply land_pow2_mod. lia.
Qed.
Lemma i3_mod c k : pm_ok c -> i3 c k = k mod leaf_length c.
Proof.
  intros H. destruct (pm_facts c H) as (H1 & _). unfold i3, leaf_length. apply land_pow2_mod. lia.
Qed.

Lemma lengths c : pm_ok c -> 0 < leaf_length c /\ 0 < mid_length c /\ 0 < root_length c /\
  2 ^ pm_bits c = root_length c * (mid_length c * leaf_length c).
Proof.
  intros H. destruct (pm_facts c H) as (H1 & H2 & H3 & H4 & H5 & _).
  unfold leaf_length, mid_length, root_length.
  split; [apply pow2_pos; lia|]. split; [apply pow2_pos; lia|]. split; [apply pow2_pos; lia|].
  rewrite H4, !Z.pow_add_r by lia. ring.
Qed.

(** A page number is determined by its leaf and its index in the leaf. *)
Lemma same_leaf c k k' : pm_ok c -> (i1 c k = i1 c k' /\ i2 c k = i2 c k') <-> k / leaf_length c = k' / leaf_length c.
Proof.
  intros H. destruct (lengths c H) as (L & M & _). rewrite !i1_div, !i2_mod by assumption.
  assert (E : forall x, x / (mid_length c * leaf_length c) = x / leaf_length c / mid_length c).
  { intros x. rewrite Z.div_div by lia. reflexivity. }
  rewrite !E. split.
  - intros (E1 & E2). rewrite (Z.div_mod (k / leaf_length c) (mid_length c)) by lia.
    rewrite (Z.div_mod (k' / leaf_length c) (mid_length c)) by lia. congruence.
  - intros E1. rewrite E1. auto.
Qed.

Lemma page_split c k k' : pm_ok c -> k / leaf_length c = k' / leaf_length c -> i3 c k = i3 c k' -> k = k'.
Proof.
  intros H E1 E3. destruct (lengths c H) as (L & _). rewrite !i3_mod in E3 by assumption.
  rewrite (Z.div_mod k (leaf_length c)), (Z.div_mod k' (leaf_length c)) by lia. congruence.
Qed.

Lemma huge_split c k k' : pm_ok c -> k / leaf_length c = k' / leaf_length c ->
  (i_huge c k = i_huge c k' <-> hugepage_of c k = hugepage_of c k').
Proof.
  intros H E1. destruct (pm_facts c H) as (P1 & _ & _ & _ & _ & P2 & P3). destruct (lengths c H) as (L & _).
  unfold i_huge, hugepage_of. rewrite P3 in *. set (s := huge_page_shift - pm_page_shift c) in *.
  rewrite !Z.shiftr_div_pow2, !i3_mod by (assumption || lia).
  assert (E : leaf_length c = 2 ^ (leaf_bits c - s) * 2 ^ s).
  { unfold leaf_length. rewrite <- Z.pow_add_r by lia. f_equal. lia. }
  pose proof (pow2_pos s ltac:(lia)). pose proof (pow2_pos (leaf_bits c - s) ltac:(lia)).
  assert (D : forall x, x / 2 ^ s = 2 ^ (leaf_bits c - s) * (x / leaf_length c) + x mod leaf_length c / 2 ^ s).
  { intros x. rewrite (Z.div_mod x (leaf_length c)) at 1 by lia. rewrite E at 1.
    rewrite (Z.mul_comm (2 ^ (leaf_bits c - s) * 2 ^ s)), Z.mul_assoc, Z.div_add_l by lia. lia. }
  rewrite (D k), (D k'), E1. lia.
Qed.

Lemma huge_other_leaf c k k' : pm_ok c -> k / leaf_length c <> k' / leaf_length c -> hugepage_of c k <> hugepage_of c k'.
Proof.
  intros H Hne E. apply Hne. destruct (pm_facts c H) as (P1 & _ & _ & _ & _ & P2 & P3). rewrite P3 in P2.
  unfold hugepage_of in E. set (s := huge_page_shift - pm_page_shift c) in *.
  assert (E2 : leaf_length c = 2 ^ s * 2 ^ (leaf_bits c - s)).
  { unfold leaf_length. rewrite <- Z.pow_add_r by lia. f_equal. lia. }
  pose proof (pow2_pos s ltac:(lia)). pose proof (pow2_pos (leaf_bits c - s) ltac:(lia)).
  rewrite E2, <- !Z.div_div by lia. congruence.
Qed.

Lemma in_range_shift c k : pm_ok c -> 0 <= k -> (0 <? Z.shiftr k (pm_bits c)) = negb (k <? 2 ^ pm_bits c).
Proof.
  intros H Hk. destruct (pm_facts c H) as (P1 & P2 & P3 & P4 & _).
  pose proof (pow2_pos (pm_bits c) ltac:(lia)). rewrite Z.shiftr_div_pow2 by lia.
  destruct (Z.ltb_spec k (2 ^ pm_bits c)).
  - rewrite Z.div_small by lia. reflexivity.
  - cbn [negb]. apply Z.ltb_lt. apply Z.div_str_pos. lia.
Qed.

Lemma i1_range c k : pm_ok c -> 0 <= k -> (i1 c k < root_length c <-> k < 2 ^ pm_bits c).
Proof.
  intros H Hk. destruct (lengths c H) as (L & M & R & E). rewrite i1_div, E by assumption.
  split; intros.
  - pose proof (Z.mul_succ_div_gt k (mid_length c * leaf_length c) ltac:(nia)). nia.
  - apply Z.div_lt_upper_bound; nia.
Qed.

(** ** Packing *)

Lemma packed_span_pack s sc : 0 <= s < 2 ^ 48 -> 0 <= sc -> packed_span (pack s sc) = s.
Proof.
  intros Hs Hc. unfold packed_span, pack. rewrite Z.land_lor_distr_l.
  replace (Z.land (Z.shiftl sc 48) (2 ^ 48 - 1)) with 0.
  - rewrite Z.lor_0_l, land_pow2_mod by lia. apply Z.mod_small. assumption.
  - symmetry. rewrite land_pow2_mod, Z.shiftl_mul_pow2 by lia. apply Z.mod_mul. lia.
Qed.
Lemma packed_class_pack s sc : 0 <= s < 2 ^ 48 -> 0 <= sc -> packed_class (pack s sc) = sc.
Proof.
  intros Hs Hc. unfold packed_class, pack. rewrite Z.shiftr_lor.
  rewrite Z.shiftr_shiftl_l by lia. change (48 - 48) with 0. rewrite Z.shiftl_0_r.
  rewrite (Z.shiftr_div_pow2 s) by lia. rewrite Z.div_small by assumption. apply Z.lor_0_r.
Qed.

(** ** The invariant *)

(** The tree represents the four maps. *)
Definition rep (c : pmcfg) (m : pmap) (own cls pcl trk : Z -> Z) : Prop :=
  (forall k, 0 <= k < 2 ^ pm_bits c ->
     match leaf_of c m k with
     | Some l => l_class l (i3 c k) = cls k /\ l_packed l (i3 c k) = pack (own k) (pcl k) /\ l_huge l (i_huge c k) = trk k
     | None => cls k = 0 /\ own k = 0 /\ pcl k = 0 /\ trk k = 0
     end) /\
  (forall j, root_length c <= j -> m j = None).

Lemma rep_ext c m own cls pcl trk own' cls' pcl' trk' :
  rep c m own cls pcl trk ->
  (forall k, own' k = own k) -> (forall k, cls' k = cls k) -> (forall k, pcl' k = pcl k) -> (forall k, trk' k = trk k) ->
  rep c m own' cls' pcl' trk'.
Proof.
  intros (H1 & H2) E1 E2 E3 E4. split; [|exact H2]. intros k Hk. specialize (H1 k Hk).
  rewrite E1, E2, E3, E4. exact H1.
Qed.

Lemma ranges c h : (forall o, In o h -> op_ok c o) -> forall k,
  0 <= owner h k < 2 ^ 48 /\ 0 <= packed_class_of h k < 2 ^ 16 /\ 0 <= class_of h k < 2 ^ 16.
Proof.
  intros H k. induction h as [|o h IH]; [cbn; lia|].
  specialize (IH (fun o Ho => H o (or_intror Ho))). pose proof (H o (or_introl eq_refl)) as Ho.
  destruct o; cbn in *; try assumption; try (destruct (k =? k0); lia); destruct ((_ <=? _) && (_ <=? _)); lia.
Qed.

Lemma with_leaf_spec c m k f m' : pm_ok c -> with_leaf c m k f = Some m' ->
  exists l, leaf_of c m k = Some l /\
    (forall k', k' / leaf_length c = k / leaf_length c -> leaf_of c m k' = Some l /\ leaf_of c m' k' = Some (f l)) /\
    (forall k', k' / leaf_length c <> k / leaf_length c -> leaf_of c m' k' = leaf_of c m k') /\
    (forall j, m' j = None <-> m j = None).
Proof.
  intros Hc. unfold with_leaf, leaf_of. destruct (m (i1 c k)) as [n|] eqn:En; [|discriminate].
  destruct (n (i2 c k)) as [l|] eqn:El; [|discriminate]. intros H. inversion H; subst; clear H.
  exists l. split; [reflexivity|]. split; [|split].
  - intros k' E. apply same_leaf in E; [|assumption]. destruct E as (-> & ->).
    rewrite En, El, !upd_same. auto.
  - intros k' E. rewrite <- same_leaf in E by assumption.
    destruct (Z.eq_dec (i1 c k') (i1 c k)) as [E1|E1].
    + rewrite E1, upd_same, En. rewrite upd_other by tauto. reflexivity.
    + rewrite upd_other by assumption. reflexivity.
  - intros j. destruct (Z.eq_dec j (i1 c k)) as [->|E].
    + rewrite upd_same, En. split; discriminate.
    + rewrite upd_other by assumption. reflexivity.
Qed.

(** A store that changes only the entries of page [k] in the first two arrays. *)
Lemma rep_store c m k f m' own cls pcl trk vc vo vp :
  pm_ok c -> rep c m own cls pcl trk -> 0 <= k < 2 ^ pm_bits c ->
  with_leaf c m k f = Some m' ->
  (forall l i, l_class (f l) i = if i =? i3 c k then (match vc with Some v => v | None => l_class l i end) else l_class l i) ->
  (forall l i, l_packed (f l) i = if i =? i3 c k then (match vo with Some s => pack s vp | None => l_packed l i end) else l_packed l i) ->
  (forall l i, l_huge (f l) i = l_huge l i) ->
  rep c m' (match vo with Some s => upd own k s | None => own end)
           (match vc with Some v => upd cls k v | None => cls end)
           (match vo with Some _ => upd pcl k vp | None => pcl end) trk.
Proof.
  intros Hc (H1 & H2) Hk E Fc Fp Fh.
  destruct (with_leaf_spec c m k f m' Hc E) as (l & El & Hin & Hout & Hnone).
  split.
  - intros k' Hk'. specialize (H1 k' Hk').
    destruct (Z.eq_dec (k' / leaf_length c) (k / leaf_length c)) as [Ed|Ed].
    + destruct (Hin k' Ed) as (El1 & El2). rewrite El1 in H1. rewrite El2. rewrite Fc, Fp, Fh.
      destruct H1 as (A & B & C).
      destruct (Z.eq_dec k' k) as [->|Hne].
      * rewrite Z.eqb_refl. destruct vc, vo; rewrite ?upd_same; auto.
      * assert (i3 c k' <> i3 c k) by (intros X; apply Hne; eapply page_split; eauto).
        replace (i3 c k' =? i3 c k) with false by lia.
        destruct vc, vo; rewrite ?upd_other by assumption; auto.
    + rewrite Hout by assumption.
      assert (k' <> k) by congruence.
      destruct (leaf_of c m k'); destruct vc, vo; rewrite ?upd_other by assumption; auto.
  - intros j Hj. apply Hnone. apply H2. assumption.
Qed.

Lemma rep_set c m k s m' own cls pcl trk :
  pm_ok c -> rep c m own cls pcl trk -> 0 <= k < 2 ^ pm_bits c -> pm_set c m k s = Some m' ->
  rep c m' (upd own k s) cls (upd pcl k 0) trk.
Proof.
  intros Hc H Hk E.
  apply (rep_store c m k _ m' own cls pcl trk None (Some s) 0 Hc H Hk E); cbn; try reflexivity.
  intros l i. destruct (_ =? _); reflexivity.
Qed.
Lemma rep_set_with_class c m k s sc m' own cls pcl trk :
  pm_ok c -> rep c m own cls pcl trk -> 0 <= k < 2 ^ pm_bits c -> pm_set_with_class c m k s sc = Some m' ->
  rep c m' (upd own k s) (upd cls k sc) (upd pcl k sc) trk.
Proof.
  intros Hc H Hk E.
  apply (rep_store c m k _ m' own cls pcl trk (Some sc) (Some s) sc Hc H Hk E); cbn; reflexivity.
Qed.
Lemma rep_clear_class c m k m' own cls pcl trk :
  pm_ok c -> rep c m own cls pcl trk -> 0 <= k < 2 ^ pm_bits c -> pm_clear_class c m k = Some m' ->
  rep c m' own (upd cls k 0) pcl trk.
Proof.
  intros Hc H Hk E.
  apply (rep_store c m k _ m' own cls pcl trk (Some 0) None 0 Hc H Hk E); cbn; try reflexivity.
  intros l i. destruct (_ =? _); reflexivity.
Qed.

Lemma rep_set_hugepage c m k v m' own cls pcl trk :
  pm_ok c -> rep c m own cls pcl trk -> 0 <= k < 2 ^ pm_bits c -> pm_set_hugepage c m k v = Some m' ->
  rep c m' own cls pcl (fun k' => if hugepage_of c k' =? hugepage_of c k then v else trk k').
Proof.
  intros Hc (H1 & H2) Hk E.
  destruct (with_leaf_spec c m k _ m' Hc E) as (l & El & Hin & Hout & Hnone).
  split.
  - intros k' Hk'. specialize (H1 k' Hk').
    destruct (Z.eq_dec (k' / leaf_length c) (k / leaf_length c)) as [Ed|Ed].
    + destruct (Hin k' Ed) as (El1 & El2). rewrite El1 in H1. rewrite El2. cbn [l_class l_packed l_huge].
      destruct H1 as (A & B & C). split; [assumption|]. split; [assumption|].
      pose proof (huge_split c k' k Hc Ed) as Hs.
      destruct (Z.eqb_spec (hugepage_of c k') (hugepage_of c k)) as [X|X].
      * apply Hs in X. rewrite X. apply upd_same.
      * rewrite upd_other by tauto. assumption.
    + rewrite Hout by assumption.
      pose proof (huge_other_leaf c k' k Hc Ed). replace (hugepage_of c k' =? hugepage_of c k) with false by lia.
      exact H1.
  - intros j Hj. apply Hnone. apply H2. assumption.
Qed.

Definition in_run (p : Z) (cnt : nat) (k : Z) : bool := (p <=? k) && (k <? p + Z.of_nat cnt).

Lemma rep_register cnt : forall c m p s sc m' own cls pcl trk,
  pm_ok c -> rep c m own cls pcl trk -> 0 <= p -> p + Z.of_nat cnt <= 2 ^ pm_bits c ->
  pm_register cnt c m p s sc = Some m' ->
  rep c m' (fun k => if in_run p cnt k then s else own k) (fun k => if in_run p cnt k then sc else cls k)
           (fun k => if in_run p cnt k then sc else pcl k) trk.
Proof.
  induction cnt as [|cnt IH]; intros c m p s sc m' own cls pcl trk Hc H Hp Hl E; cbn [pm_register] in E.
  - inversion E; subst. eapply rep_ext; [exact H| | | |]; intros k; unfold in_run;
      try replace ((p <=? k) && (k <? p + Z.of_nat 0)) with false by lia; reflexivity.
  - destruct (pm_set_with_class c m p s sc) as [m1|] eqn:E1; [|discriminate]. cbn [obind] in E.
    assert (Hp' : 0 <= p < 2 ^ pm_bits c) by lia.
    pose proof (rep_set_with_class _ _ _ _ _ _ _ _ _ _ Hc H Hp' E1) as R1.
    assert (Hq : 0 <= p + 1) by lia. assert (Hq' : p + 1 + Z.of_nat cnt <= 2 ^ pm_bits c) by lia.
    pose proof (IH _ _ _ _ _ _ _ _ _ _ Hc R1 Hq Hq' E) as R2.
    assert (Hx : forall (v : Z) (g : Z -> Z) k, (if in_run p (S cnt) k then v else g k) = (if in_run (p + 1) cnt k then v else upd g p v k)).
    { intros v g k. unfold in_run, upd. destruct (Z.eqb_spec k p) as [->|].
      - replace ((p <=? p) && (p <? p + Z.of_nat (S cnt))) with true by lia. destruct (_ && _); reflexivity.
      - replace ((p <=? k) && (k <? p + Z.of_nat (S cnt))) with ((p + 1 <=? k) && (k <? p + 1 + Z.of_nat cnt)) by lia.
        reflexivity. }
    eapply rep_ext; [exact R2| | | |]; intros k; try apply Hx. reflexivity.
Qed.

Lemma rep_unregister cnt : forall c m p m' own cls pcl trk,
  pm_ok c -> rep c m own cls pcl trk -> 0 <= p -> p + Z.of_nat cnt <= 2 ^ pm_bits c ->
  pm_unregister cnt c m p = Some m' ->
  rep c m' own (fun k => if in_run p cnt k then 0 else cls k) pcl trk.
Proof.
  induction cnt as [|cnt IH]; intros c m p m' own cls pcl trk Hc H Hp Hl E; cbn [pm_unregister] in E.
  - inversion E; subst. eapply rep_ext; [exact H| | | |]; intros k; unfold in_run;
      try replace ((p <=? k) && (k <? p + Z.of_nat 0)) with false by lia; reflexivity.
  - destruct (pm_clear_class c m p) as [m1|] eqn:E1; [|discriminate]. cbn [obind] in E.
    assert (Hp' : 0 <= p < 2 ^ pm_bits c) by lia.
    pose proof (rep_clear_class _ _ _ _ _ _ _ _ Hc H Hp' E1) as R1.
    assert (Hq : 0 <= p + 1) by lia. assert (Hq' : p + 1 + Z.of_nat cnt <= 2 ^ pm_bits c) by lia.
    pose proof (IH _ _ _ _ _ _ _ _ Hc R1 Hq Hq' E) as R2.
    eapply rep_ext; [exact R2| | | |]; intros k; try reflexivity.
    unfold in_run, upd. destruct (Z.eqb_spec k p) as [->|].
    + replace ((p <=? p) && (p <? p + Z.of_nat (S cnt))) with true by lia. destruct (_ && _); reflexivity.
    + replace ((p <=? k) && (k <? p + Z.of_nat (S cnt))) with ((p + 1 <=? k) && (k <? p + 1 + Z.of_nat cnt)) by lia.
      reflexivity.
Qed.

(** ** Ensure *)

(** A new node or leaf changes nothing; leaves are never removed. *)
Lemma rep_new_leaf c m key own cls pcl trk :
  pm_ok c -> rep c m own cls pcl trk -> 0 <= key < 2 ^ pm_bits c ->
  forall n, m (i1 c key) = Some n -> n (i2 c key) = None ->
  let m' := upd m (i1 c key) (Some (upd n (i2 c key) (Some leaf0))) in
  rep c m' own cls pcl trk /\ (forall k, leaf_of c m k <> None -> leaf_of c m' k <> None).
Proof.
  intros Hc (H1 & H2) Hk n En El m'.
  assert (Hl : forall k, leaf_of c m' k = if k / leaf_length c =? key / leaf_length c then Some leaf0 else leaf_of c m k).
  { intros k. unfold leaf_of, m'. destruct (Z.eqb_spec (k / leaf_length c) (key / leaf_length c)) as [E|E].
    - apply same_leaf in E; [|assumption]. destruct E as (-> & ->). rewrite !upd_same. reflexivity.
    - rewrite <- same_leaf in E by assumption. destruct (Z.eq_dec (i1 c k) (i1 c key)) as [E1|E1].
      + rewrite E1, upd_same, En, upd_other by tauto. reflexivity.
      + rewrite upd_other by assumption. reflexivity. }
  assert (Hnone : forall k, k / leaf_length c = key / leaf_length c -> leaf_of c m k = None).
  { intros k E. apply same_leaf in E; [|assumption]. destruct E as (E1 & E2). unfold leaf_of. rewrite E1, En, E2. exact El. }
  split.
  - split.
    + intros k Hk'. rewrite Hl. destruct (Z.eqb_spec (k / leaf_length c) (key / leaf_length c)) as [E|E].
      * specialize (H1 k Hk'). rewrite (Hnone k E) in H1. destruct H1 as (-> & -> & -> & ->). repeat split.
      * apply H1. assumption.
    + intros j Hj. unfold m'. rewrite upd_other; [apply H2; assumption|].
      pose proof (proj2 (i1_range c key Hc ltac:(lia)) ltac:(lia)). lia.
  - intros k Hne. rewrite Hl. destruct (_ =? _); [discriminate|assumption].
Qed.

Lemma rep_new_node c m key own cls pcl trk :
  pm_ok c -> rep c m own cls pcl trk -> 0 <= key < 2 ^ pm_bits c -> m (i1 c key) = None ->
  rep c (upd m (i1 c key) (Some node0)) own cls pcl trk /\
  (forall k, leaf_of c (upd m (i1 c key) (Some node0)) k = leaf_of c m k).
Proof.
  intros Hc (H1 & H2) Hk En.
  assert (Hl : forall k, leaf_of c (upd m (i1 c key) (Some node0)) k = leaf_of c m k).
  { intros k. unfold leaf_of. destruct (Z.eq_dec (i1 c k) (i1 c key)) as [E|E].
    - rewrite E, upd_same, En. reflexivity.
    - rewrite upd_other by assumption. reflexivity. }
  split; [|exact Hl]. split.
  - intros k Hk'. rewrite Hl. apply H1. assumption.
  - intros j Hj. rewrite upd_other; [apply H2; assumption|].
    pose proof (proj2 (i1_range c key Hc ltac:(lia)) ltac:(lia)). lia.
Qed.

Lemma next_key c key : pm_ok c -> 0 <= key < 2 ^ pm_bits c ->
  wrap64 (Z.shiftl (Z.shiftr key (leaf_bits c) + 1) (leaf_bits c)) = (key / leaf_length c + 1) * leaf_length c.
Proof.
  intros Hc Hk. destruct (pm_facts c Hc) as (P1 & P2 & P3 & P4 & P5 & _). destruct (lengths c Hc) as (L & M & R & E).
  rewrite Z.shiftl_mul_pow2, Z.shiftr_div_pow2 by lia. fold (leaf_length c). unfold wrap64. apply Z.mod_small.
  assert (2 ^ pm_bits c <= 2 ^ 62) by (apply Z.pow_le_mono_r; lia).
  pose proof (Z.mul_div_le key (leaf_length c) L). pose proof (Z.div_pos key (leaf_length c) ltac:(lia) L).
  assert (leaf_length c <= 2 ^ 62) by (apply Z.pow_le_mono_r; lia).
  unfold two64. split; [nia|]. change (2 ^ 64) with (4 * 2 ^ 62). nia.
Qed.

Lemma ensure_loop_spec fuel : forall c al i m key last own cls pcl trk,
  pm_ok c -> rep c m own cls pcl trk -> 0 <= key -> last < 2 ^ 63 ->
  (key <= last -> last / leaf_length c - key / leaf_length c + 1 <= Z.of_nat fuel) ->
  exists ok m', ensure_loop fuel c al i m key last = Some (ok, m') /\
    rep c m' own cls pcl trk /\
    (forall k, leaf_of c m k <> None -> leaf_of c m' k <> None) /\
    (ok = true -> forall k, key <= k <= last -> leaf_of c m' k <> None) /\
    (ok = false -> 2 ^ pm_bits c <= last \/ exists j, al j = false).
Proof.
  induction fuel as [|fuel IH]; intros c al i m key last own cls pcl trk Hc Hrep Hk Hl Hf;
    cbn [ensure_loop]; destruct (lengths c Hc) as (L & M & R & EL).
  - destruct (Z.leb_spec key last) as [H|H].
    + exfalso. specialize (Hf H). pose proof (Z.div_le_mono key last (leaf_length c) L H). lia.
    + do 2 eexists. split; [reflexivity|]. repeat split; auto; try apply Hrep; intros; try discriminate; lia.
  - destruct (Z.leb_spec key last) as [H|H].
    2:{ do 2 eexists. split; [reflexivity|]. repeat split; auto; try apply Hrep; intros; try discriminate; lia. }
    specialize (Hf H).
    destruct (Z.leb_spec (root_length c) (i1 c key)) as [Hr|Hr].
    { do 2 eexists. split; [reflexivity|]. split; [assumption|]. split; [auto|]. split; [discriminate|].
      intros _. left. pose proof (proj2 (i1_range c key Hc Hk)). lia. }
    assert (Hkr : 0 <= key < 2 ^ pm_bits c) by (split; [lia|apply (i1_range c key Hc Hk); lia]).
    assert (Hnode : exists m1 i1' n, (match m (i1 c key) with
          | Some _ => (true, i, m)
          | None => if al i then (true, i + 1, upd m (i1 c key) (Some node0)) else (false, i, m)
          end = (true, i1', m1) /\ m1 (i1 c key) = Some n /\ rep c m1 own cls pcl trk /\ (forall k, leaf_of c m1 k = leaf_of c m k))
        \/ (match m (i1 c key) with
          | Some _ => (true, i, m)
          | None => if al i then (true, i + 1, upd m (i1 c key) (Some node0)) else (false, i, m)
          end = (false, i, m) /\ al i = false)).
    { destruct (m (i1 c key)) as [n|] eqn:En.
      - exists m, i, n. left. auto.
      - destruct (al i) eqn:Ea.
        + exists (upd m (i1 c key) (Some node0)), (i + 1), node0. left. split; [reflexivity|].
          split; [apply upd_same|]. apply rep_new_node; assumption.
        + exists m, i, node0. right. auto. }
    destruct Hnode as (m1 & i' & n & [(-> & En & Hrep1 & Hl1)|(-> & Ha)]); cbn [negb].
    2:{ do 2 eexists. split; [reflexivity|]. split; [assumption|]. split; [auto|]. split; [discriminate|]. eauto. }
    rewrite En.
    assert (Hgo : forall i2' m2, rep c m2 own cls pcl trk -> (forall k, leaf_of c m k <> None -> leaf_of c m2 k <> None) ->
      leaf_of c m2 key <> None ->
      exists ok m', ensure_loop fuel c al i2' m2 (wrap64 (Z.shiftl (Z.shiftr key (leaf_bits c) + 1) (leaf_bits c))) last = Some (ok, m') /\
        rep c m' own cls pcl trk /\
        (forall k, leaf_of c m k <> None -> leaf_of c m' k <> None) /\
        (ok = true -> forall k, key <= k <= last -> leaf_of c m' k <> None) /\
        (ok = false -> 2 ^ pm_bits c <= last \/ exists j, al j = false)).
    { intros i2' m2 Hrep2 Hmono Hkey. rewrite next_key by assumption.
      set (nk := (key / leaf_length c + 1) * leaf_length c).
      assert (Hnk : nk / leaf_length c = key / leaf_length c + 1) by (apply Z.div_mul; lia).
      assert (Hnk0 : key < nk) by (unfold nk; pose proof (Z.mul_succ_div_gt key (leaf_length c) L); lia).
      assert (Hsame : forall k, key <= k < nk -> k / leaf_length c = key / leaf_length c).
      { intros k Hkk. apply Z.le_antisymm; [|apply Z.div_le_mono; lia].
        apply Z.lt_succ_r. apply Z.div_lt_upper_bound; [lia|]. unfold nk in Hkk. lia. }
      assert (Hf2 : nk <= last -> last / leaf_length c - nk / leaf_length c + 1 <= Z.of_nat fuel) by (rewrite Hnk; lia).
      destruct (IH c al i2' m2 nk last own cls pcl trk Hc Hrep2 ltac:(lia) Hl Hf2)
        as (ok & m' & E & H1 & H2 & H3 & H4).
      exists ok, m'. split; [exact E|]. split; [assumption|]. split; [auto|]. split; [|assumption].
      intros Hok k Hkk. destruct (Z.lt_ge_cases k nk) as [Hlt|Hge]; [|apply H3; [assumption|lia]].
      apply H2. assert (Hs : k / leaf_length c = key / leaf_length c) by (apply Hsame; lia).
      apply same_leaf in Hs; [|assumption]. destruct Hs as (S1 & S2). unfold leaf_of in *. rewrite S1, S2. exact Hkey. }
    destruct (n (i2 c key)) as [l|] eqn:El; cbn [negb].
    + apply Hgo; [assumption|intros k; rewrite Hl1; auto|]. unfold leaf_of. rewrite En, El. discriminate.
    + destruct (al i') eqn:Ea; cbn [negb].
      * destruct (rep_new_leaf c m1 key own cls pcl trk Hc Hrep1 Hkr n En El) as (R1 & R2).
        apply Hgo; [exact R1|intros k Hne; apply R2; rewrite Hl1; exact Hne|].
        unfold leaf_of. rewrite !upd_same. discriminate.
      * do 2 eexists. split; [reflexivity|]. split; [assumption|].
        split; [intros k; rewrite Hl1; auto|]. split; [discriminate|]. eauto.
Qed.

Lemma ensure_spec c al m start n own cls pcl trk :
  pm_ok c -> rep c m own cls pcl trk -> 0 <= start -> 1 <= n -> start + n <= 2 ^ 63 ->
  exists ok m', pm_ensure c al m start n = Some (ok, m') /\
    rep c m' own cls pcl trk /\
    (forall k, leaf_of c m k <> None -> leaf_of c m' k <> None) /\
    (ok = true -> forall k, start <= k < start + n -> leaf_of c m' k <> None) /\
    (ok = false -> 2 ^ pm_bits c < start + n \/ exists j, al j = false).
Proof.
  intros Hc Hrep H1 H2 H3. unfold pm_ensure.
  assert (Hw : wrap64 (start + n - 1) = start + n - 1) by (unfold wrap64, two64; apply Z.mod_small; lia).
  rewrite Hw. destruct (lengths c Hc) as (L & _).
  pose proof (Z.div_le_mono start (start + n - 1) (leaf_length c) L ltac:(lia)).
  destruct (ensure_loop_spec (Z.to_nat ((start + n - 1) / leaf_length c - start / leaf_length c + 1)) c al 0 m start (start + n - 1)
    own cls pcl trk Hc Hrep H1 ltac:(lia) ltac:(lia)) as (ok & m' & E & A1 & A2 & A3 & A4).
  exists ok, m'. split; [exact E|]. split; [assumption|]. split; [assumption|]. split.
  - intros Hok k Hk. apply A3; [assumption|lia].
  - intros Hok. destruct (A4 Hok); [left; lia|auto].
Qed.

Lemma reach_rep c m h : pm_ok c -> reach c m h ->
  rep c m (owner h) (class_of h) (packed_class_of h) (tracker c h) /\ (forall o, In o h -> op_ok c o).
Proof.
  intros Hc H. induction H as [|m h o m' H IH Hok E].
  - split; [|intros o []]. split; [|reflexivity]. intros k Hk. cbn. auto.
  - destruct IH as (IH & Hall). split; [|intros o' [<-|Ho']; auto].
    destruct o as [al start n|k s|f l s sc|f l|k v]; cbn [pm_step op_ok] in *.
    + destruct (ensure_spec c al m start n _ _ _ _ Hc IH (proj1 Hok) (proj1 (proj2 Hok)) (proj2 (proj2 Hok)))
        as (ok & m1 & E1 & R & _). rewrite E1 in E. cbn in E. inversion E; subst. exact R.
    + eapply rep_ext; [eapply rep_set; [exact Hc|exact IH|apply Hok|exact E]| | | |]; intros k'; cbn; try reflexivity.
    + assert (O1 : 0 <= f) by lia. assert (O2 : f + Z.of_nat (Z.to_nat (l - f + 1)) <= 2 ^ pm_bits c) by lia.
      eapply rep_ext; [exact (rep_register _ _ _ _ _ _ _ _ _ _ _ Hc IH O1 O2 E)| | | |]; intros k'; cbn; try reflexivity;
        unfold in_run; replace (k' <? f + Z.of_nat (Z.to_nat (l - f + 1))) with (k' <=? l) by lia; reflexivity.
    + assert (O1 : 0 <= f) by lia. assert (O2 : f + Z.of_nat (Z.to_nat (l - f + 1)) <= 2 ^ pm_bits c) by lia.
      eapply rep_ext; [exact (rep_unregister _ _ _ _ _ _ _ _ _ Hc IH O1 O2 E)| | | |]; intros k'; cbn; try reflexivity;
        unfold in_run; replace (k' <? f + Z.of_nat (Z.to_nat (l - f + 1))) with (k' <=? l) by lia; reflexivity.
    + eapply rep_ext; [eapply rep_set_hugepage; [exact Hc|exact IH|apply Hok|exact E]| | | |]; intros k'; cbn; reflexivity.
Qed.

(** ** C25 *)

(** Every lookup returns what the last operation on that page said, for every
    page number, in and out of the address space. *)
Theorem pagemap_last_write : forall c m h k,
  pm_ok c -> reach c m h -> 0 <= k ->
  pm_get c m k = (if k <? 2 ^ pm_bits c then owner h k else 0) /\
  pm_sizeclass c m k = (if k <? 2 ^ pm_bits c then class_of h k else 0) /\
  pm_get_with_class true c m k =
    Some (if k <? 2 ^ pm_bits c then (owner h k, packed_class_of h k) else (0, 0)) /\
  (pm_has_leaf c m k = true ->
     pm_get_existing c m k = Some (owner h k) /\
     pm_get_with_class false c m k = Some (owner h k, packed_class_of h k) /\
     pm_get_hugepage c m k = Some (tracker c h k)) /\
  (pm_has_leaf c m k = false -> owner h k = 0 \/ 2 ^ pm_bits c <= k).
Proof.
  intros c m h k Hc Hr Hk. destruct (reach_rep c m h Hc Hr) as ((H1 & H2) & Hall).
  pose proof (ranges c h Hall k) as (B1 & B2 & B3).
  unfold pm_get, pm_sizeclass, pm_get_with_class, pm_has_leaf, pm_get_existing, pm_get_hugepage.
  rewrite in_range_shift by assumption. cbn [andb].
  destruct (Z.ltb_spec k (2 ^ pm_bits c)) as [Hlt|Hge]; cbn [negb].
  - specialize (H1 k ltac:(lia)).
    pose proof (proj2 (i1_range c k Hc Hk) Hlt) as Hi. replace (root_length c <=? i1 c k) with false by lia.
    unfold leaf_of in *. destruct (m (i1 c k)) as [n|]; [destruct (n (i2 c k)) as [l|]|].
    + destruct H1 as (-> & -> & ->). rewrite packed_span_pack, packed_class_pack by lia.
      repeat split; intros; try discriminate.
    + destruct H1 as (-> & -> & -> & ->). repeat split; intros; auto; discriminate.
    + destruct H1 as (-> & -> & -> & ->). repeat split; intros; auto; discriminate.
  - repeat split; intros; auto; discriminate.
Qed.
Print Assumptions pagemap_last_write.

Lemma has_leaf_iff c m k : pm_ok c -> 0 <= k < 2 ^ pm_bits c -> (pm_has_leaf c m k = true <-> leaf_of c m k <> None).
Proof.
  intros Hc Hk. unfold pm_has_leaf, leaf_of. rewrite in_range_shift by (assumption || lia).
  replace (k <? 2 ^ pm_bits c) with true by lia. cbn [negb].
  pose proof (proj2 (i1_range c k Hc ltac:(lia)) ltac:(lia)). replace (root_length c <=? i1 c k) with false by lia.
  destruct (m (i1 c k)) as [n|]; [destruct (n (i2 c k))|]; split; congruence.
Qed.

(** Reserving a range makes its pages usable, or fails because the range leaves the
    address space or metadata memory ran out; either way it changes no lookup and
    never makes a page unusable. *)
Theorem pagemap_ensure : forall c m h al start n,
  pm_ok c -> reach c m h -> op_ok c (OpEnsure al start n) ->
  exists ok m', pm_ensure c al m start n = Some (ok, m') /\ reach c m' (OpEnsure al start n :: h) /\
    (ok = true -> start + n <= 2 ^ pm_bits c /\ forall k, start <= k < start + n -> pm_has_leaf c m' k = true) /\
    (ok = false -> 2 ^ pm_bits c < start + n \/ exists j, al j = false) /\
    (forall k, 0 <= k -> pm_has_leaf c m k = true -> pm_has_leaf c m' k = true) /\
    (forall k, 0 <= k -> pm_get c m' k = pm_get c m k /\ pm_sizeclass c m' k = pm_sizeclass c m k).
Proof.
  intros c m h al start n Hc Hr Hok. destruct (reach_rep c m h Hc Hr) as (Hrep & _). pose proof Hok as (O1 & O2 & O3).
  destruct (ensure_spec c al m start n _ _ _ _ Hc Hrep O1 O2 O3) as (ok & m' & E & R & Hmono & Hyes & Hno).
  assert (Hr' : reach c m' (OpEnsure al start n :: h)).
  { econstructor; [exact Hr|exact Hok|]. cbn. rewrite E. reflexivity. }
  exists ok, m'. split; [exact E|]. split; [exact Hr'|].
  assert (Hin : ok = true -> start + n <= 2 ^ pm_bits c).
  { intros Hk. specialize (Hyes Hk). destruct (Z.le_gt_cases (start + n) (2 ^ pm_bits c)); [assumption|].
    exfalso. apply (Hyes (start + n - 1) ltac:(lia)). unfold leaf_of.
    destruct R as (_ & R2). rewrite R2; [reflexivity|].
    pose proof (proj1 (i1_range c (start + n - 1) Hc ltac:(lia))). lia. }
  split.
  { intros Hk. split; [auto|]. intros k Hkk. apply has_leaf_iff; [assumption|specialize (Hin Hk); lia|]. apply Hyes; assumption. }
  split; [exact Hno|]. split.
  - intros k Hk Hl. destruct (Z.lt_ge_cases k (2 ^ pm_bits c)) as [Hlt|Hge].
    + apply has_leaf_iff; [assumption|lia|]. apply Hmono. apply has_leaf_iff; [assumption|lia|assumption].
    + exfalso. unfold pm_has_leaf in Hl. rewrite in_range_shift in Hl by assumption.
      replace (k <? 2 ^ pm_bits c) with false in Hl by lia. discriminate.
  - intros k Hk. destruct (pagemap_last_write c m h k Hc Hr Hk) as (A1 & A2 & _).
    destruct (pagemap_last_write c m' _ k Hc Hr' Hk) as (B1 & B2 & _). rewrite A1, A2, B1, B2. auto.
Qed.
Print Assumptions pagemap_ensure.

(** Every operation on reserved pages goes through. *)
Definition op_pages (o : op) (k : Z) : Prop :=
  match o with
  | OpEnsure _ _ _ => False
  | OpSet k' _ | OpSetHuge k' _ => k = k'
  | OpRegister f l _ _ | OpUnregister f l => f <= k <= l
  end.

Lemma with_leaf_some c m k f : leaf_of c m k <> None -> with_leaf c m k f <> None.
Proof.
  unfold leaf_of, with_leaf. destruct (m (i1 c k)) as [n|]; [|congruence]. destruct (n (i2 c k)); congruence.
Qed.
Lemma with_leaf_mono c m k f m' k' : pm_ok c -> with_leaf c m k f = Some m' -> leaf_of c m k' <> None -> leaf_of c m' k' <> None.
Proof.
  intros Hc E Hne. destruct (with_leaf_spec c m k f m' Hc E) as (l & _ & Hin & Hout & _).
  destruct (Z.eq_dec (k' / leaf_length c) (k / leaf_length c)) as [Ed|Ed].
  - destruct (Hin k' Ed) as (_ & ->). discriminate.
  - rewrite Hout by assumption. assumption.
Qed.

Theorem pagemap_ops_succeed : forall c m h o,
  pm_ok c -> reach c m h -> op_ok c o ->
  (forall k, op_pages o k -> pm_has_leaf c m k = true) ->
  exists m', pm_step c m o = Some m' /\ reach c m' (o :: h).
Proof.
  intros c m h o Hc Hr Hok Hp.
  enough (X : pm_step c m o <> None).
  { destruct (pm_step c m o) as [m'|] eqn:E; [|congruence]. exists m'. split; [reflexivity|]. econstructor; eauto. }
  destruct o as [al start n|k s|f l s sc|f l|k v]; cbn [pm_step op_pages op_ok] in *.
  - destruct (pagemap_ensure c m h al start n Hc Hr Hok) as (ok & m' & E & _). rewrite E. discriminate.
  - apply with_leaf_some. apply has_leaf_iff; [assumption|apply Hok|]. apply Hp. reflexivity.
  - assert (Hl : forall k, f <= k < f + Z.of_nat (Z.to_nat (l - f + 1)) -> leaf_of c m k <> None).
    { intros k Hk. apply has_leaf_iff; [assumption|lia|]. apply Hp. lia. }
    clear Hp Hr Hok. set (cnt := Z.to_nat (l - f + 1)) in *. clearbody cnt. revert m f Hl.
    induction cnt as [|cnt IH]; intros m f Hl; cbn [pm_register]; [discriminate|].
    destruct (pm_set_with_class c m f s sc) as [m1|] eqn:E1.
    2:{ exfalso. revert E1. apply with_leaf_some. apply Hl. lia. }
    cbn [obind]. apply IH. intros k Hk. eapply with_leaf_mono; [exact Hc|exact E1|]. apply Hl. lia.
  - assert (Hl : forall k, f <= k < f + Z.of_nat (Z.to_nat (l - f + 1)) -> leaf_of c m k <> None).
    { intros k Hk. apply has_leaf_iff; [assumption|lia|]. apply Hp. lia. }
    clear Hp Hr Hok. set (cnt := Z.to_nat (l - f + 1)) in *. clearbody cnt. revert m f Hl.
    induction cnt as [|cnt IH]; intros m f Hl; cbn [pm_unregister]; [discriminate|].
    destruct (pm_clear_class c m f) as [m1|] eqn:E1.
    2:{ exfalso. revert E1. apply with_leaf_some. apply Hl. lia. }
    cbn [obind]. apply IH. intros k Hk. eapply with_leaf_mono; [exact Hc|exact E1|]. apply Hl. lia.
  - apply with_leaf_some. apply has_leaf_iff; [assumption|apply Hok|]. apply Hp. reflexivity.
Qed.
Print Assumptions pagemap_ops_succeed.

(** The two copies of the class agree as long as the program sets owners only on
    pages without a class and does not look at the class of a page between
    unregistering it and giving it a new owner. *)
Fixpoint settled (h : list op) (k : Z) : Prop :=
  match h with
  | [] => True
  | OpSet k' _ :: h => if k =? k' then class_of h k = 0 else settled h k
  | OpRegister f l _ _ :: h => if (f <=? k) && (k <=? l) then True else settled h k
  | OpUnregister f l :: h => if (f <=? k) && (k <=? l) then False else settled h k
  | _ :: h => settled h k
  end.

Theorem pagemap_class_copies : forall c m h k,
  pm_ok c -> reach c m h -> 0 <= k < 2 ^ pm_bits c -> settled h k ->
  pm_get_with_class true c m k = Some (pm_get c m k, pm_sizeclass c m k).
Proof.
  intros c m h k Hc Hr Hk Hs. destruct (pagemap_last_write c m h k Hc Hr ltac:(lia)) as (-> & -> & -> & _).
  replace (k <? 2 ^ pm_bits c) with true by lia. do 2 f_equal.
  clear m Hr Hk. revert Hs. induction h as [|o h IH]; [reflexivity|].
  destruct o; cbn; try assumption.
  - destruct (k =? k0); [intros ->; reflexivity|exact IH].
  - destruct (_ && _); [reflexivity|exact IH].
  - destruct (_ && _); [intros []|exact IH].
Qed.
Print Assumptions pagemap_class_copies.

(** Without that discipline they do not: unregistering leaves the old class in the
    word that GetDescriptorAndSizeClass reads. *)
Theorem pagemap_stale_class_refuted : forall c,
  pm_ok c -> exists m h, reach c m h /\
    pm_sizeclass c m 5 = 0 /\ pm_get_with_class true c m 5 = Some (4096, 7).
Proof.
  intros c Hc. destruct (pm_facts c Hc) as (P1 & P2 & P3 & P4 & P5 & _). destruct (lengths c Hc) as (L & M & R & EL).
  assert (H8 : 8 <= 2 ^ pm_bits c) by (change 8 with (2 ^ 3); apply Z.pow_le_mono_r; lia).
  destruct (pagemap_ensure c pm0 [] (fun _ => true) 0 8 Hc (r_init c) ltac:(cbn; lia))
    as (ok & m1 & _ & R1 & Hyes & Hno & _).
  destruct ok; [|exfalso; destruct (Hno eq_refl) as [|(j & ?)]; [lia|discriminate]].
  destruct (Hyes eq_refl) as (_ & Hl).
  destruct (pagemap_ops_succeed c m1 _ (OpRegister 4 6 4096 7) Hc R1 ltac:(cbn; lia)) as (m2 & _ & R2).
  { cbn. intros k Hk. apply Hl. lia. }
  assert (H5 : forall k, 4 <= k <= 6 -> pm_has_leaf c m2 k = true).
  { intros k Hk. destruct (pagemap_last_write c m2 _ k Hc R2 ltac:(lia)) as (_ & _ & _ & _ & X).
    destruct (pm_has_leaf c m2 k); [reflexivity|]. exfalso. specialize (X eq_refl). cbn [owner] in X.
    replace ((4 <=? k) && (k <=? 6)) with true in X by lia. lia. }
  destruct (pagemap_ops_succeed c m2 _ (OpUnregister 4 6) Hc R2 ltac:(cbn; lia)) as (m3 & _ & R3).
  { cbn. intros k Hk. apply H5. lia. }
  exists m3. eexists. split; [exact R3|].
  destruct (pagemap_last_write c m3 _ 5 Hc R3 ltac:(lia)) as (_ & -> & -> & _).
  replace (5 <? 2 ^ pm_bits c) with true by lia. split; reflexivity.
Qed.
Print Assumptions pagemap_stale_class_refuted.

(** The configurations of the code meet [pm_ok]: 48-bit addresses, pages of 4 KiB to 256 KiB. *)
Example pm_ok_shipped : Forall pm_ok [PmCfg 36 12; PmCfg 35 13; PmCfg 33 15; PmCfg 30 18].
Proof. repeat constructor; cbn; try (intros; discriminate); cbv; congruence. Qed.

(** ** The page iterator *)

Lemma first_from_spec n : forall p i,
  match first_from n p i with
  | Some r => exists j, i <= j < i + Z.of_nat n /\ p j = Some r /\ forall j', i <= j' < j -> p j' = None
  | None => forall j, i <= j < i + Z.of_nat n -> p j = None
  end.
Proof.
  induction n as [|n IH]; intros p i; cbn [first_from]; [lia|].
  destruct (p i) as [r|] eqn:E.
  - exists i. repeat split; try lia; assumption.
  - specialize (IH p (i + 1)). destruct (first_from n p (i + 1)) as [r|].
    + destruct IH as (j & Hj & Hp & Hb). exists j. repeat split; try lia; [assumption|].
      intros j' Hj'. destruct (Z.eq_dec j' i) as [->|]; [assumption|]. apply Hb. lia.
    + intros j Hj. destruct (Z.eq_dec j i) as [->|]; [assumption|]. apply IH. lia.
Qed.

Lemma compose_page c j1 j2 j3 : pm_ok c -> 0 <= j1 -> 0 <= j2 < mid_length c -> 0 <= j3 < leaf_length c ->
  Z.lor (Z.lor (Z.shiftl j1 (leaf_bits c + mid_bits c)) (Z.shiftl j2 (leaf_bits c))) j3
  = (j1 * mid_length c + j2) * leaf_length c + j3.
Proof.
  intros Hc H1 H2 H3. destruct (pm_facts c Hc) as (P1 & P2 & _).
  assert (Hor : forall a b n, 0 <= n -> 0 <= b < 2 ^ n -> Z.lor (Z.shiftl a n) b = a * 2 ^ n + b).
  { intros a b n Hn Hb. rewrite Z.shiftl_mul_pow2 by lia.
    assert (E : Z.land (a * 2 ^ n) b = 0).
    { apply Z.bits_inj'. intros i Hi. rewrite Z.land_spec, Z.bits_0.
      destruct (Z.lt_ge_cases i n).
      - rewrite Z.mul_pow2_bits_low by assumption. reflexivity.
      - rewrite <- (Z.mod_small b (2 ^ n)) by assumption. rewrite Z.mod_pow2_bits_high by lia. apply andb_false_r. }
    rewrite <- Z.lxor_lor by assumption. symmetry. apply Z.add_nocarry_lxor. assumption. }
  unfold mid_length, leaf_length in *.
  replace (Z.shiftl j1 (leaf_bits c + mid_bits c)) with (Z.shiftl (Z.shiftl j1 (mid_bits c)) (leaf_bits c)).
  2:{ rewrite Z.shiftl_shiftl by lia. f_equal; lia. }
  rewrite <- Z.shiftl_lor. rewrite (Hor j1 j2) by lia. rewrite Hor by lia. reflexivity.
Qed.

Lemma lex_le L x y x' y' : 0 < L -> 0 <= y < L -> 0 <= y' < L ->
  (x * L + y <= x' * L + y' <-> x < x' \/ x = x' /\ y <= y').
Proof. intros. split; intros; [|nia]. destruct (Z.lt_trichotomy x x') as [|[|]]; [lia|nia|nia]. Qed.

Lemma lex_lt_top L x y t : 0 < L -> 0 <= y < L -> (x * L + y < t * L <-> x < t).
Proof. intros. split; intros; nia. Qed.

Definition page_of (c : pmcfg) (j1 j2 j3 : Z) : Z := (j1 * mid_length c + j2) * leaf_length c + j3.

(** The iterator finds the next page that has an owner, whatever the tree looks like. *)
Theorem pagemap_next_page : forall c m h k,
  pm_ok c -> reach c m h -> 0 <= k < 2 ^ pm_bits c ->
  match pm_next c m k with
  | Some k' => k < k' < 2 ^ pm_bits c /\ owner h k' <> 0 /\ forall j, k < j < k' -> owner h j = 0
  | None => forall j, k < j < 2 ^ pm_bits c -> owner h j = 0
  end.
Proof.
  intros c m h k Hc Hr Hk. destruct (reach_rep c m h Hc Hr) as ((H1 & H2) & Hall).
  destruct (pm_facts c Hc) as (P1 & P2 & P3 & P4 & P5 & _). destruct (lengths c Hc) as (L & M & R & EL).
  assert (Hown : forall j1 j2 j3, 0 <= j1 < root_length c -> 0 <= j2 < mid_length c -> 0 <= j3 < leaf_length c ->
    owner h (page_of c j1 j2 j3) =
    match m j1 with None => 0 | Some n => match n j2 with None => 0 | Some l => packed_span (l_packed l j3) end end).
  { intros j1 j2 j3 J1 J2 J3. unfold page_of. set (q := (j1 * mid_length c + j2) * leaf_length c + j3).
    assert (E3 : i3 c q = j3). { rewrite i3_mod by assumption. unfold q. rewrite Z.add_comm, Z.mod_add by lia. apply Z.mod_small. assumption. }
    assert (Eq : q / leaf_length c = j1 * mid_length c + j2).
    { unfold q. rewrite Z.div_add_l, (Z.div_small j3) by lia. lia. }
    assert (E2 : i2 c q = j2). { rewrite i2_mod, Eq, Z.add_comm, Z.mod_add by (assumption || lia). apply Z.mod_small. assumption. }
    assert (E1 : i1 c q = j1).
    { rewrite i1_div by assumption. rewrite (Z.mul_comm (mid_length c)), <- Z.div_div, Eq, Z.div_add_l, (Z.div_small j2) by lia. lia. }
    assert (Hq : 0 <= q < 2 ^ pm_bits c).
    { split; [unfold q; nia|]. apply i1_range; [assumption|unfold q; nia|lia]. }
    specialize (H1 q Hq). pose proof (ranges c h Hall q) as (B1 & B2 & _). unfold leaf_of in H1. rewrite E1, E2 in H1.
    destruct (m j1) as [n|]; [|apply H1]. destruct (n j2) as [l|]; [|apply H1].
    rewrite E3 in H1. destruct H1 as (_ & -> & _). rewrite packed_span_pack by lia. reflexivity. }
  assert (Hw : wrap64 (k + 1) = k + 1).
  { unfold wrap64, two64. apply Z.mod_small. assert (2 ^ pm_bits c <= 2 ^ 62) by (apply Z.pow_le_mono_r; lia). lia. }
  unfold pm_next. rewrite Hw. set (nk := k + 1).
  set (a := i1 c nk). set (b := i2 c nk). set (d := i3 c nk).
  assert (Hb : 0 <= b < mid_length c) by (unfold b; rewrite i2_mod by assumption; apply Z.mod_pos_bound; assumption).
  assert (Hd : 0 <= d < leaf_length c) by (unfold d; rewrite i3_mod by assumption; apply Z.mod_pos_bound; assumption).
  assert (Ha : 0 <= a) by (unfold a; rewrite i1_div by assumption; apply Z.div_pos; lia).
  assert (Enk : nk = page_of c a b d).
  { unfold page_of, a, b, d. rewrite i1_div, i2_mod, i3_mod by assumption.
    rewrite (Z.mul_comm (mid_length c)), <- Z.div_div by lia.
    pose proof (Z.div_mod nk (leaf_length c) ltac:(lia)). pose proof (Z.div_mod (nk / leaf_length c) (mid_length c) ltac:(lia)). nia. }
  (* every page is a triple of indices; pages from [nk] on are the triples that the loops scan *)
  assert (Hscan : forall j1 j2 j3, 0 <= j2 < mid_length c -> 0 <= j3 < leaf_length c ->
    (nk <= page_of c j1 j2 j3 <->
     a <= j1 /\ (if j1 =? a then b else 0) <= j2 /\ (if (j1 =? a) && (j2 =? b) then d else 0) <= j3)).
  { intros j1 j2 j3 J2 J3. rewrite Enk. unfold page_of. clear - L M Hb Hd J2 J3.
    pose proof (lex_le (leaf_length c) (a * mid_length c + b) d (j1 * mid_length c + j2) j3 L Hd J3) as X1.
    pose proof (lex_le (mid_length c) a b j1 j2 M Hb J2) as X2.
    assert (X3 : a * mid_length c + b = j1 * mid_length c + j2 -> a = j1 /\ b = j2).
    { intros E. pose proof (proj1 X2 ltac:(lia)). pose proof (proj1 (lex_le (mid_length c) j1 j2 a b M J2 Hb) ltac:(lia)). lia. }
    assert (X4 : a = j1 -> b = j2 -> a * mid_length c + b = j1 * mid_length c + j2) by (intros; subst; reflexivity).
    rewrite X1. clear X1. revert X2 X3 X4. generalize (a * mid_length c + b) (j1 * mid_length c + j2). intros u v X2 X3 X4.
    destruct (Z.eqb_spec j1 a) as [->|]; cbn [andb]; [|lia].
    destruct (Z.eqb_spec j2 b) as [->|]; lia. }
  assert (Hpage : forall q, 0 <= q -> exists j1 j2 j3, 0 <= j1 /\ 0 <= j2 < mid_length c /\ 0 <= j3 < leaf_length c /\
     q = page_of c j1 j2 j3).
  { intros q Hq. exists (q / leaf_length c / mid_length c), ((q / leaf_length c) mod mid_length c), (q mod leaf_length c).
    pose proof (Z.div_mod q (leaf_length c) ltac:(lia)). pose proof (Z.div_mod (q / leaf_length c) (mid_length c) ltac:(lia)).
    pose proof (Z.div_pos q (leaf_length c) Hq L).
    split; [apply Z.div_pos; lia|]. split; [apply Z.mod_pos_bound; lia|]. split; [apply Z.mod_pos_bound; lia|]. unfold page_of. nia. }
  assert (Hroot : forall j1 j2 j3, 0 <= j2 < mid_length c -> 0 <= j3 < leaf_length c ->
     (page_of c j1 j2 j3 < 2 ^ pm_bits c <-> j1 < root_length c)).
  { intros j1 j2 j3 J2 J3. unfold page_of. rewrite EL, Z.mul_assoc, lex_lt_top, lex_lt_top by assumption. reflexivity. }
  (* the three nested loops *)
  assert (Hk0 : 0 <= k) by lia. clear Enk EL P1 P2 P3 P4 P5 Hw H1 H2 Hr Hk. clearbody a b d.
  set (p3 := fun j1 j2 l j3 => if packed_span (l_packed l j3) =? 0 then None
     else Some (Z.lor (Z.lor (Z.shiftl j1 (leaf_bits c + mid_bits c)) (Z.shiftl j2 (leaf_bits c))) j3)).
  assert (S3 : forall j1 j2 l n, 0 <= j1 < root_length c -> 0 <= j2 < mid_length c -> m j1 = Some n -> n j2 = Some l ->
    let s3 := if (j1 =? a) && (j2 =? b) then d else 0 in
    match first_from (Z.to_nat (leaf_length c - s3)) (p3 j1 j2 l) s3 with
    | Some r => exists j3, s3 <= j3 < leaf_length c /\ r = page_of c j1 j2 j3 /\ owner h r <> 0 /\
        forall j3', s3 <= j3' < j3 -> owner h (page_of c j1 j2 j3') = 0
    | None => forall j3', s3 <= j3' < leaf_length c -> owner h (page_of c j1 j2 j3') = 0
    end).
  { clear Hscan Hpage Hroot. intros j1 j2 l n J1 J2 Em En s3. assert (Hs3 : 0 <= s3 < leaf_length c) by (unfold s3; destruct (_ && _); lia).
    pose proof (first_from_spec (Z.to_nat (leaf_length c - s3)) (p3 j1 j2 l) s3) as F.
    assert (Hz : forall j3, 0 <= j3 < leaf_length c -> p3 j1 j2 l j3 = None -> owner h (page_of c j1 j2 j3) = 0).
    { intros j3 J3. rewrite Hown, Em, En by assumption. unfold p3. destruct (Z.eqb_spec (packed_span (l_packed l j3)) 0); [auto|discriminate]. }
    destruct (first_from _ _ _) as [r|].
    - destruct F as (j3 & J3 & Ep & Hbef). exists j3. split; [lia|].
      assert (Eo := Hown j1 j2 j3 J1 J2 ltac:(lia)). rewrite Em, En in Eo. unfold p3 in Ep.
      destruct (Z.eqb_spec (packed_span (l_packed l j3)) 0); [discriminate|]. inversion Ep; subst r. clear Ep.
      rewrite compose_page by (assumption || lia). fold (page_of c j1 j2 j3). split; [reflexivity|]. split; [congruence|].
      intros j3' J3'. apply Hz; [lia|]. apply Hbef. assumption.
    - intros j3' J3'. apply Hz; [lia|]. apply F. lia. }
  set (p2 := fun j1 (n : Z -> option leaf) j2 => match n j2 with None => None | Some l =>
     first_from (Z.to_nat (leaf_length c - (if (j1 =? a) && (j2 =? b) then d else 0))) (p3 j1 j2 l) (if (j1 =? a) && (j2 =? b) then d else 0) end).
  set (s2 := fun j1 => if j1 =? a then b else 0).
  set (s3 := fun j1 j2 => if (j1 =? a) && (j2 =? b) then d else 0).
  assert (Hs2 : forall j1, 0 <= s2 j1 < mid_length c) by (intros j1; unfold s2; destruct (_ =? _); lia).
  assert (Hs3 : forall j1 j2, 0 <= s3 j1 j2 < leaf_length c) by (intros j1 j2; unfold s3; destruct (_ && _); lia).
  assert (S2 : forall j1 n, 0 <= j1 < root_length c -> m j1 = Some n ->
    match first_from (Z.to_nat (mid_length c - s2 j1)) (p2 j1 n) (s2 j1) with
    | Some r => exists j2 j3, s2 j1 <= j2 < mid_length c /\ s3 j1 j2 <= j3 < leaf_length c /\
        r = page_of c j1 j2 j3 /\ owner h r <> 0 /\
        forall j2' j3', s2 j1 <= j2' < mid_length c -> s3 j1 j2' <= j3' < leaf_length c ->
          page_of c j1 j2' j3' < r -> owner h (page_of c j1 j2' j3') = 0
    | None => forall j2' j3', s2 j1 <= j2' < mid_length c -> s3 j1 j2' <= j3' < leaf_length c ->
          owner h (page_of c j1 j2' j3') = 0
    end).
  { clear Hscan Hpage Hroot. intros j1 n J1 Em. pose proof (Hs2 j1) as Hs2'.
    pose proof (first_from_spec (Z.to_nat (mid_length c - s2 j1)) (p2 j1 n) (s2 j1)) as F.
    assert (Hz : forall j2, s2 j1 <= j2 < mid_length c -> p2 j1 n j2 = None -> forall j3, s3 j1 j2 <= j3 < leaf_length c ->
       owner h (page_of c j1 j2 j3) = 0).
    { intros j2 J2 Ep j3 J3. unfold p2 in Ep. pose proof (Hs3 j1 j2). destruct (n j2) as [l|] eqn:En.
      - pose proof (S3 j1 j2 l n J1 ltac:(lia) Em En) as X. cbv zeta in X. rewrite Ep in X. apply X. exact J3.
      - rewrite Hown, Em, En by lia. reflexivity. }
    destruct (first_from _ _ _) as [r|].
    - destruct F as (j2 & J2 & Ep & Hbef). unfold p2 in Ep. destruct (n j2) as [l|] eqn:En; [|discriminate].
      pose proof (S3 j1 j2 l n J1 ltac:(lia) Em En) as X. cbv zeta in X. rewrite Ep in X.
      destruct X as (j3 & J3 & -> & Ho & Hbef3). pose proof (Hs3 j1 j2) as Hs3'. fold (s3 j1 j2) in J3, Hbef3.
      exists j2, j3. split; [lia|]. split; [exact J3|]. split; [reflexivity|]. split; [exact Ho|].
      intros j2' j3' J2' J3' Hlt. pose proof (Hs3 j1 j2').
      destruct (Z.lt_trichotomy j2' j2) as [Y|[Y|Y]].
      + apply Hz; [lia|apply Hbef; lia|assumption].
      + subst j2'. apply Hbef3. unfold page_of in Hlt. lia.
      + exfalso. apply Z.lt_nge in Hlt. apply Hlt. unfold page_of. apply lex_le; lia.
    - intros j2' j3' J2' J3'. apply Hz; [assumption| |assumption]. apply F. lia. }
  set (p1 := fun j1 => match m j1 with None => None | Some n =>
     first_from (Z.to_nat (mid_length c - s2 j1)) (p2 j1 n) (s2 j1) end).
  change (match first_from (Z.to_nat (root_length c - a)) p1 a with
  | Some k' => k < k' < 2 ^ pm_bits c /\ owner h k' <> 0 /\ forall j, k < j < k' -> owner h j = 0
  | None => forall j, k < j < 2 ^ pm_bits c -> owner h j = 0
  end).
  pose proof (first_from_spec (Z.to_nat (root_length c - a)) p1 a) as F.
  assert (Hz : forall j1, a <= j1 < root_length c -> p1 j1 = None -> forall j2 j3, s2 j1 <= j2 < mid_length c -> s3 j1 j2 <= j3 < leaf_length c ->
     owner h (page_of c j1 j2 j3) = 0).
  { intros j1 J1 Ep j2 j3 J2 J3. pose proof (Hs3 j1 j2). pose proof (Hs2 j1). unfold p1 in Ep. destruct (m j1) as [n|] eqn:Em.
    - pose proof (S2 j1 n ltac:(lia) Em) as X. rewrite Ep in X. apply X; assumption.
    - rewrite Hown, Em by lia. reflexivity. }
  destruct (first_from _ p1 a) as [r|].
  - destruct F as (j1 & J1 & Ep & Hbef). unfold p1 in Ep. destruct (m j1) as [n|] eqn:Em; [|discriminate].
    assert (J1' : a <= j1 < root_length c) by (clear - J1; lia). clear J1.
    assert (J1 : 0 <= j1 < root_length c) by (clear - J1' Ha; lia).
    pose proof (S2 j1 n J1 Em) as X. rewrite Ep in X. clear Ep S2 S3.
    destruct X as (j2 & j3 & J2 & J3 & Er & Ho & Hbef2). pose proof (Hs2 j1) as B2. pose proof (Hs3 j1 j2) as B3.
    assert (J2' : 0 <= j2 < mid_length c) by (clear - B2 J2; lia). assert (J3' : 0 <= j3 < leaf_length c) by (clear - B3 J3; lia).
    assert (Hge : nk <= r) by (rewrite Er; apply Hscan; [exact J2'|exact J3'|]; split; [exact (proj1 J1')|split; [exact (proj1 J2)|exact (proj1 J3)]]).
    assert (Hlt : r < 2 ^ pm_bits c) by (rewrite Er; apply Hroot; [exact J2'|exact J3'|exact (proj2 J1)]).
    split; [unfold nk in Hge; lia|]. split; [exact Ho|].
    intros j Hj. assert (Hj0 : 0 <= j) by (clear - Hj Hk0; lia). destruct (Hpage j Hj0) as (q1 & q2 & q3 & Q1 & Q2 & Q3 & Eq).
    assert (Hnj : nk <= j) by (unfold nk; lia). rewrite Eq in Hnj. apply Hscan in Hnj; [|assumption|assumption].
    destruct Hnj as (N1 & N2 & N3). fold (s2 q1) in N2. fold (s3 q1 q2) in N3.
    destruct (Z.lt_trichotomy q1 j1) as [Y|[Y|Y]].
    + rewrite Eq. apply Hz; [clear - N1 Y J1'; lia|apply Hbef; clear - N1 Y; lia|clear - N2 Q2; lia|clear - N3 Q3; lia].
    + subst q1. rewrite Eq. apply Hbef2; [lia|lia|]. rewrite <- Eq. lia.
    + exfalso. destruct Hj as (_ & Hj). apply Z.lt_nge in Hj. apply Hj. rewrite Er, Eq. unfold page_of. clear - L M J2' J3' Q2 Q3 Y. apply lex_le; [lia|lia|lia|]. left. apply Z.lt_nge. intros Z0. apply lex_le in Z0; lia.
  - intros j Hj. assert (Hj0 : 0 <= j) by (clear - Hj Hk0; lia). destruct (Hpage j Hj0) as (q1 & q2 & q3 & Q1 & Q2 & Q3 & Eq).
    assert (Hnj : nk <= j) by (unfold nk; lia). rewrite Eq in Hnj. apply Hscan in Hnj; [|assumption|assumption].
    destruct Hnj as (N1 & N2 & N3). fold (s2 q1) in N2. fold (s3 q1 q2) in N3.
    assert (q1 < root_length c) by (apply (Hroot q1 q2 q3 Q2 Q3); lia).
    rewrite Eq. apply Hz; [lia|apply F; lia|lia|lia].
Qed.
Print Assumptions pagemap_next_page.
