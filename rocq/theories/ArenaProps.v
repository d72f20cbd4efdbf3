(** Property C27: memory for tcmalloc's own data structures. *)
From Verif Require Import Base Ranges Arena ArenaProofs.

(** ** The world: one arena shared by any number of object allocators *)

(** Allocator [i] serves objects of size [fst (ty i)] and alignment [snd (ty i)]. *)
Record world := World { w_arena : arena; w_moa : Z -> moa }.

(** Types that hold at least a pointer (a free object stores the free-list link). *)
Definition types_ok (ty : Z -> Z * Z) : Prop :=
  forall i, 8 <= fst (ty i) < 2 ^ 62 /\ is_pow2 (snd (ty i)) /\ 8 <= snd (ty i) <= 2 ^ 62.

Definition obj_range (ty : Z -> Z * Z) (o : Z * Z) : Z * Z := (snd o, fst (ty (fst o))).

Fixpoint remove1 (o : Z * Z) (l : list (Z * Z)) : list (Z * Z) :=
  match l with
  | [] => []
  | x :: l => if (fst x =? fst o) && (snd x =? snd o) then l else x :: remove1 o l
  end.

(** What has happened: [ob] ranges obtained from the system, [dir] blocks handed out
    directly, [objs] live objects (allocator, address), [da] and [dn] the sums of the
    adjustments made by UpdateAllocatedAndNonresident. *)
Inductive reach (c : acfg) (ty : Z -> Z * Z) : world -> list (Z * Z) -> list (Z * Z) -> list (Z * Z) -> Z -> Z -> Prop :=
| r_init m : reach c ty (World (arena0 m) (fun _ => moa0)) [] [] [] 0 0
| r_alloc s ms ob dir objs da dn bytes align reply p used s' :
    reach c ty (World s ms) ob dir objs da dn -> req_ok bytes align ->
    ar_alloc c s bytes align reply = Some (p, used, s') ->
    (used = true -> exists g, reply = Some g /\ reply_ok c ob bytes align g) ->
    reach c ty (World s' ms) (if used then match reply with Some g => g :: ob | None => ob end else ob)
      ((p, bytes) :: dir) objs da dn
| r_new s ms ob dir objs da dn i reply p used s' o' :
    reach c ty (World s ms) ob dir objs da dn ->
    mo_new c s (ms i) (fst (ty i)) (snd (ty i)) reply = Some (p, used, s', o') ->
    (used = true -> exists g, reply = Some g /\ reply_ok c ob (fst (ty i)) (snd (ty i)) g) ->
    reach c ty (World s' (upd ms i o')) (if used then match reply with Some g => g :: ob | None => ob end else ob)
      dir ((i, p) :: objs) da dn
| r_delete s ms ob dir objs da dn i p s' o' :
    reach c ty (World s ms) ob dir objs da dn -> In (i, p) objs ->
    mo_delete s (ms i) p = (s', o') ->
    reach c ty (World s' (upd ms i o')) ob dir (remove1 (i, p) objs) da dn
| r_write s ms ob dir objs da dn w v r :
    (* whoever holds a block stores into a word that overlaps it *)
    reach c ty (World s ms) ob dir objs da dn ->
    w mod 8 = 0 -> In r (dir ++ map (obj_range ty) objs) -> (exists x, in_rng r x /\ w <= x < w + 8) ->
    reach c ty (World (ar_write s w v) ms) ob dir objs da dn
| r_update s ms ob dir objs da dn a n :
    reach c ty (World s ms) ob dir objs da dn ->
    reach c ty (World (ar_update s a n) ms) ob dir objs (da + a) (dn + n).

(** ** Invariant *)

Definition of (i : Z) (l : list (Z * Z)) : list (Z * Z) := filter (fun o => fst o =? i) l.
Fixpoint ochain (m : Z -> Z) (p : Z) (l : list (Z * Z)) : Prop :=
  match l with
  | [] => p = 0
  | o :: l => p = snd o /\ snd o <> 0 /\ ochain m (m (snd o)) l
  end.

Record winv (c : acfg) (ty : Z -> Z * Z) (s : arena) (ms : Z -> moa) (ob dir objs : list (Z * Z)) (da dn : Z)
  (fl wA wU dead : list (Z * Z)) : Prop := {
  w_a : ainv s ob fl wA wU (dir ++ map (obj_range ty) (objs ++ dead)) da dn;
  w_al : Forall (fun o => snd o mod snd (ty (fst o)) = 0) (objs ++ dead);
  w_chain : forall i, ochain (amem s) (mo_free (ms i)) (of i dead);
  w_use : forall i, mo_in_use (ms i) = Z.of_nat (length (of i objs));
  w_tot : forall i, mo_total (ms i) = Z.of_nat (length (of i objs)) + Z.of_nat (length (of i dead))
}.

Lemma ochain_ext m m' l : forall p, (forall o, In o l -> m' (snd o) = m (snd o)) -> ochain m p l -> ochain m' p l.
Proof.
  induction l as [|o l IH]; intros p H C; [exact C|]. cbn in *. destruct C as (-> & C2 & C3).
  rewrite (H o (or_introl eq_refl)). split; [reflexivity|]. split; [assumption|]. apply IH; auto.
Qed.

Lemma of_In i l o : In o (of i l) <-> In o l /\ fst o = i.
Proof. unfold of. rewrite filter_In. split; intros (A & B); split; auto; lia. Qed.
Lemma of_length_le i l : (length (of i l) <= length l)%nat.
Proof. unfold of. induction l as [|o l IH]; cbn; [lia|]. destruct (fst o =? i); cbn; lia. Qed.

Lemma remove1_perm o l : In o l -> Permutation l (o :: remove1 o l).
Proof.
  induction l as [|x l IH]; intros H; [destruct H|]. cbn.
  destruct ((fst x =? fst o) && (snd x =? snd o)) eqn:E.
  - assert (x = o) by (destruct x, o; cbn in *; f_equal; lia). subst. apply Permutation_refl.
  - destruct H as [->|H]; [lia|]. rewrite (IH H) at 1. apply perm_swap.
Qed.

Lemma of_remove1 i o l : In o l -> Z.of_nat (length (of i (remove1 o l))) = Z.of_nat (length (of i l)) - (if fst o =? i then 1 else 0).
Proof.
  intros H. pose proof (remove1_perm o l H) as P.
  assert (E : length (of i l) = length (of i (o :: remove1 o l))).
  { unfold of. clear - P. induction P; cbn; repeat destruct (_ =? _); cbn; lia. }
  rewrite E. unfold of. cbn. destruct (fst o =? i); cbn [length]; lia.
Qed.

Lemma count_bound c ty s ms ob dir objs da dn fl wA wU dead : types_ok ty -> winv c ty s ms ob dir objs da dn fl wA wU dead ->
  Z.of_nat (length (objs ++ dead)) <= 2 ^ 48.
Proof.
  intros Ht I. pose proof (i_total _ _ _ _ _ _ _ _ (w_a _ _ _ _ _ _ _ _ _ _ _ _ _ I)) as (T1 & T2 & T3 & T4 & T5 & T6).
  rewrite rsum_app in *. destruct (i_pos _ _ _ _ _ _ _ _ (w_a _ _ _ _ _ _ _ _ _ _ _ _ _ I)) as (P1 & _). rewrite !Forall_app in P1.
  destruct P1 as (_ & _ & P1 & _). pose proof (rsum_nonneg _ P1).
  pose proof (i_avail _ _ _ _ _ _ _ _ (w_a _ _ _ _ _ _ _ _ _ _ _ _ _ I)).
  assert (Z.of_nat (length (objs ++ dead)) <= rsum (map (obj_range ty) (objs ++ dead))); [|lia].
  generalize (objs ++ dead). clear - Ht. intros l. induction l as [|o l IH]; [cbn; lia|].
  cbn [map length]. rewrite rsum_cons. cbn [obj_range snd]. specialize (Ht (fst o)). lia.
Qed.

(** A word that a held block overlaps is not the link word of a free object. *)
Lemma dead_sep c ty s ms ob dir objs da dn fl wA wU dead o r x : types_ok ty -> winv c ty s ms ob dir objs da dn fl wA wU dead ->
  In o dead -> In r (dir ++ map (obj_range ty) objs) -> in_rng r x -> in_rng (obj_range ty o) x -> False.
Proof.
  intros Ht I Ho Hr X1 X2. pose proof (i_nodup _ _ _ _ _ _ _ _ (w_a _ _ _ _ _ _ _ _ _ _ _ _ _ I)) as N.
  apply (Permutation_NoDup (l' := (rngs ((free_area s, free_avail s) :: fl ++ wU ++ wA)) ++ rngs (dir ++ map (obj_range ty) objs) ++ rngs (map (obj_range ty) dead))) in N.
  2:{ rewrite map_app. rcount. }
  apply NoDup_app_iff in N. destruct N as (_ & N & _). apply NoDup_app_iff in N. destruct N as (_ & _ & N).
  apply (N x); apply rngs_In; [eauto|]. exists (obj_range ty o). split; [apply in_map; assumption|assumption].
Qed.
Lemma dead_nodup c ty s ms ob dir objs da dn fl wA wU dead : types_ok ty -> winv c ty s ms ob dir objs da dn fl wA wU dead ->
  ForallOrdPairs (fun o o' => snd o <> snd o') (objs ++ dead).
Proof.
  intros Ht I. pose proof (i_nodup _ _ _ _ _ _ _ _ (w_a _ _ _ _ _ _ _ _ _ _ _ _ _ I)) as N.
  rewrite rngs_cons, !rngs_app in N. repeat (apply NoDup_app_iff in N; destruct N as (_ & N & _)).
  apply rngs_NoDup_apart in N. revert N. generalize (objs ++ dead). clear - Ht. intros l.
  induction l as [|o l IH]; intros N; constructor; inversion N as [|? ? N1 N2]; subst; auto.
  rewrite Forall_forall in *. intros o' Ho' E. apply (N1 (obj_range ty o') (in_map _ _ _ Ho') (snd o)); unfold in_rng, obj_range; cbn; pose proof (Ht (fst o)); pose proof (Ht (fst o')); lia.
Qed.

Lemma reach_inv c ty s ms ob dir objs da dn : acfg_ok c -> types_ok ty -> reach c ty (World s ms) ob dir objs da dn ->
  exists fl wA wU dead, winv c ty s ms ob dir objs da dn fl wA wU dead.
Proof.
  intros Hc Ht H. remember (World s ms) as w eqn:Ew. revert s ms Ew.
  induction H as [m|s ms ob dir objs da dn bytes align reply p used s' H IH Hr E Hrep|s ms ob dir objs da dn i reply p used s' o' H IH E Hrep
    |s ms ob dir objs da dn i p s' o' H IH Hin E|s ms ob dir objs da dn w v r H IH Hw Hr Hx|s ms ob dir objs da dn a n H IH];
    intros s1 ms1 Ew; inversion Ew; subst; clear Ew.
  - exists [], [], [], []. constructor; cbn; try reflexivity; auto using ainv0.
  - destruct (IH _ _ eq_refl) as (fl & wA & wU & dead & I).
    destruct (ar_alloc_spec c s ob fl wA wU _ da dn bytes align reply p used s1 Hc Hr (w_a _ _ _ _ _ _ _ _ _ _ _ _ _ I) E Hrep)
      as (_ & fl' & wA' & wU' & I' & Sh).
    exists fl', wA', wU', dead. constructor; try apply I; [exact I'|].
    intros j. eapply ochain_ext; [|apply (w_chain _ _ _ _ _ _ _ _ _ _ _ _ _ I)]. intros o Ho. apply of_In in Ho. destruct Ho as (Ho & _).
    pose proof (w_al _ _ _ _ _ _ _ _ _ _ _ _ _ I) as Al. rewrite Forall_forall in Al. specialize (Al o ltac:(apply in_or_app; tauto)). cbn in Al.
    destruct (Ht (fst o)) as (T1 & T2 & T3).
    apply (Sh _ (obj_range ty o)).
    + apply Z.mod_divide in Al; [|lia]. apply Z.mod_divide; [lia|]. eapply Z.divide_trans; [|exact Al]. apply is_pow2_divide; [apply pow2_8|assumption|lia].
    + apply in_or_app. right. apply in_map, in_or_app. tauto.
    + cbn. lia.
    + cbn. lia.
  - destruct (IH _ _ eq_refl) as (fl & wA & wU & dead & I). unfold mo_new in E. pose proof (count_bound _ _ _ _ _ _ _ _ _ _ _ _ _ Ht I) as Cb.
    destruct (Ht i) as (T1 & T2 & T3). rewrite app_length in Cb. pose proof (of_length_le i objs). pose proof (of_length_le i dead).
    pose proof (w_use _ _ _ _ _ _ _ _ _ _ _ _ _ I i) as Eu. pose proof (w_tot _ _ _ _ _ _ _ _ _ _ _ _ _ I i) as Et.
    pose proof (w_chain _ _ _ _ _ _ _ _ _ _ _ _ _ I i) as Ch.
    destruct (Z.eqb_spec (mo_free (ms i)) 0) as [E0|E0].
    + destruct (ar_alloc c s (fst (ty i)) (snd (ty i)) reply) as [[[p1 used1] s2]|] eqn:Ea; [|discriminate]. cbn [obind] in E. inversion E; subst; clear E.
      destruct (ar_alloc_spec c s ob fl wA wU _ da dn (fst (ty i)) (snd (ty i)) reply p used s1 Hc ltac:(split; [lia|split; [assumption|lia]]) (w_a _ _ _ _ _ _ _ _ _ _ _ _ _ I) Ea Hrep)
        as (Hal & fl' & wA' & wU' & I' & Sh).
      exists fl', wA', wU', dead. constructor.
      * eapply ainv_held; [|exact I']. cbn [app map]. apply Permutation_middle.
      * constructor; [exact Hal|apply I].
      * intros j. cbn [of filter]. assert (Ej : mo_free (upd ms i (Moa (mo_free (ms i)) (wrap64 (mo_in_use (ms i) + 1)) (wrap64 (mo_total (ms i) + 1))) j) = mo_free (ms j)).
        { unfold upd. destruct (Z.eqb_spec j i); [subst; reflexivity|reflexivity]. }
        cbn [mo_free mo_in_use mo_total] in *. rewrite Ej.
        eapply ochain_ext; [|apply (w_chain _ _ _ _ _ _ _ _ _ _ _ _ _ I)]. intros o Ho. apply of_In in Ho. destruct Ho as (Ho & _).
        pose proof (w_al _ _ _ _ _ _ _ _ _ _ _ _ _ I) as Al. rewrite Forall_forall in Al. specialize (Al o ltac:(apply in_or_app; tauto)). cbn in Al.
        destruct (Ht (fst o)) as (T1' & T2' & T3').
        apply (Sh _ (obj_range ty o)).
        -- apply Z.mod_divide in Al; [|lia]. apply Z.mod_divide; [lia|]. eapply Z.divide_trans; [|exact Al]. apply is_pow2_divide; [apply pow2_8|assumption|lia].
        -- apply in_or_app. right. apply in_map, in_or_app. tauto.
        -- cbn. lia.
        -- cbn. lia.
      * intros j. cbn [of filter fst mo_in_use mo_total mo_free]. unfold upd. rewrite (Z.eqb_sym i j). destruct (Z.eqb_spec j i) as [->|Hj].
        -- cbn [mo_in_use length]. rewrite Eu, wrap64_small by lia. unfold of. lia.
        -- apply I.
      * intros j. cbn [of filter fst mo_in_use mo_total mo_free]. unfold upd. rewrite (Z.eqb_sym i j). destruct (Z.eqb_spec j i) as [->|Hj].
        -- cbn [mo_total length]. rewrite Et, wrap64_small by lia. unfold of. lia.
        -- apply I.
    + inversion E; subst; clear E.
      destruct (of i dead) as [|o l] eqn:Eo; [cbn in Ch; contradiction|]. cbn [ochain] in Ch. destruct Ch as (C1 & C2 & C3).
      assert (Hof : In o dead /\ fst o = i) by (apply of_In; rewrite Eo; left; reflexivity). destruct Hof as (Hod & Hoi).
      set (dead' := remove1 o dead). pose proof (remove1_perm o dead Hod) as P. fold dead' in P.
      assert (Eo' : o = (i, mo_free (ms i))) by (destruct o; cbn in *; congruence).
      assert (Hof : forall j, of j dead' = if j =? i then l else of j dead).
      { intros j. unfold dead'. clear - Eo Hoi. revert Eo. induction dead as [|x d IHd]; cbn [of filter]; intros Eo; [discriminate|].
        cbn [remove1]. destruct (Z.eqb_spec (fst x) i) as [Hx|Hx].
        - inversion Eo; subst x. rewrite !Z.eqb_refl. cbn [andb]. rewrite Hoi. rewrite (Z.eqb_sym i j).
          destruct (Z.eqb_spec j i) as [Ej|Ej]; [rewrite Ej; unfold of; reflexivity || congruence|reflexivity].
        - replace (fst x =? fst o) with false by lia. cbn [andb of filter]. specialize (IHd Eo). unfold of in IHd. rewrite IHd.
          destruct (Z.eqb_spec j i) as [Ej|Ej]; [rewrite Ej; replace (fst x =? i) with false by lia; reflexivity|reflexivity]. }
      exists fl, wA, wU, dead'.
      assert (Pm : Permutation (objs ++ dead) (((i, mo_free (ms i)) :: objs) ++ dead')).
      { rewrite <- Eo'. cbn [app]. rewrite P. symmetry. apply Permutation_middle. }
      constructor.
      * eapply ainv_held; [|apply I]. apply Permutation_app_head, Permutation_map. exact Pm.
      * eapply Permutation_Forall; [exact Pm|apply I].
      * intros j. rewrite Hof. unfold upd. destruct (Z.eqb_spec j i) as [->|Hj]; [cbn [mo_free]; rewrite C1; exact C3|apply I].
      * intros j. cbn [of filter fst]. unfold upd. rewrite (Z.eqb_sym i j). destruct (Z.eqb_spec j i) as [->|Hj]; [|apply I].
        cbn [mo_in_use length]. rewrite Eu, wrap64_small by lia. unfold of. lia.
      * intros j. rewrite Hof. cbn [of filter fst]. unfold upd. rewrite (Z.eqb_sym i j). destruct (Z.eqb_spec j i) as [->|Hj]; [|apply I].
        cbn [mo_total length] in *. rewrite Et. unfold of. lia.
  - destruct (IH _ _ eq_refl) as (fl & wA & wU & dead & I). unfold mo_delete in E. inversion E; subst; clear E.
    pose proof (remove1_perm _ _ Hin) as P. destruct (Ht i) as (T1 & T2 & T3).
    pose proof (count_bound _ _ _ _ _ _ _ _ _ _ _ _ _ Ht I) as Cb. rewrite app_length in Cb. pose proof (of_length_le i objs).
    pose proof (w_al _ _ _ _ _ _ _ _ _ _ _ _ _ I) as Al. rewrite Forall_forall in Al.
    assert (Hp8 : p mod 8 = 0).
    { specialize (Al (i, p) ltac:(apply in_or_app; tauto)). cbn in Al. apply Z.mod_divide in Al; [|lia]. apply Z.mod_divide; [lia|].
      eapply Z.divide_trans; [|exact Al]. apply is_pow2_divide; [apply pow2_8|assumption|lia]. }
    assert (Hp0 : p <> 0).
    { destruct (i_piece _ _ _ _ _ _ _ _ (obj_range ty (i, p)) (w_a _ _ _ _ _ _ _ _ _ _ _ _ _ I)) as (K & _); [|cbn; lia|cbn in K; lia].
      rewrite !in_app_iff. do 4 right. apply in_map, in_or_app. tauto. }
    assert (Pm : Permutation (objs ++ dead) (remove1 (i, p) objs ++ (i, p) :: dead)).
    { rewrite P at 1. cbn [app]. apply Permutation_middle. }
    exists fl, wA, wU, ((i, p) :: dead). constructor.
    + eapply ainv_held; [apply Permutation_app_head, Permutation_map; exact Pm|].
      eapply write_ainv; [apply I|assumption| |].
      * apply in_or_app. right. apply in_map, in_or_app. left. exact Hin.
      * exists p. unfold in_rng, obj_range. cbn. lia.
    + eapply Permutation_Forall; [exact Pm|apply I].
    + intros j. cbn [of filter fst ar_write amem]. unfold upd at 2. rewrite (Z.eqb_sym i j).
      assert (Hext : forall q, ochain (amem s) q (of j dead) -> ochain (upd (amem s) p (mo_free (ms i))) q (of j dead)).
      { intros q. apply ochain_ext. intros o Ho. apply of_In in Ho. destruct Ho as (Ho & _). apply upd_other. intros E.
        apply (dead_sep _ _ _ _ _ _ _ _ _ _ _ _ _ o (obj_range ty (i, p)) p Ht I Ho); unfold in_rng, obj_range; cbn; try lia.
        - apply in_or_app. right. apply (in_map (obj_range ty) _ (i, p)). exact Hin.
        - specialize (Ht (fst o)). lia. }
      destruct (Z.eqb_spec j i) as [->|Hj].
      * cbn [mo_free ochain snd]. split; [reflexivity|]. split; [assumption|]. rewrite upd_same. apply Hext. apply I.
      * apply Hext. apply I.
    + intros j. rewrite of_remove1 by assumption. cbn [fst]. unfold upd. rewrite (Z.eqb_sym i j). destruct (Z.eqb_spec j i) as [->|Hj].
      * cbn [mo_in_use]. assert (0 < length (of i objs))%nat.
        { assert (Hx : In (i, p) (of i objs)) by (apply of_In; auto). destruct (of i objs); [destruct Hx|cbn; lia]. }
        rewrite (w_use _ _ _ _ _ _ _ _ _ _ _ _ _ I), wrap64_small by lia. reflexivity.
      * rewrite (w_use _ _ _ _ _ _ _ _ _ _ _ _ _ I). lia.
    + intros j. rewrite of_remove1 by assumption. cbn [of filter fst]. unfold upd. rewrite (Z.eqb_sym i j). destruct (Z.eqb_spec j i) as [->|Hj].
      * cbn [mo_total length]. rewrite (w_tot _ _ _ _ _ _ _ _ _ _ _ _ _ I). unfold of. lia.
      * rewrite (w_tot _ _ _ _ _ _ _ _ _ _ _ _ _ I). unfold of. lia.
  - destruct (IH _ _ eq_refl) as (fl & wA & wU & dead & I). exists fl, wA, wU, dead. constructor; try apply I.
    + eapply write_ainv; [apply I|assumption| |exact Hx]. rewrite map_app. rewrite !in_app_iff in *. tauto.
    + intros j. cbn [ar_write amem]. eapply ochain_ext; [|apply I]. intros o Ho. apply of_In in Ho. destruct Ho as (Ho & _).
      apply upd_other. intros E. destruct Hx as (x & X1 & X2).
      apply (dead_sep _ _ _ _ _ _ _ _ _ _ _ _ _ o r x Ht I Ho Hr X1). unfold in_rng, obj_range. cbn. specialize (Ht (fst o)). lia.
  - destruct (IH _ _ eq_refl) as (fl & wA & wU & dead & I). exists fl, wA, wU, dead. constructor; try apply I.
    apply update_ainv. apply I.
Qed.

(** ** Theorems *)

(** Blocks and live objects are pairwise apart, and every byte of them was obtained
    from the system. *)
Theorem arena_blocks_apart : forall c ty s ms ob dir objs da dn,
  acfg_ok c -> types_ok ty -> reach c ty (World s ms) ob dir objs da dn ->
  ForallOrdPairs apart (dir ++ map (obj_range ty) objs) /\
  (forall r x, In r (dir ++ map (obj_range ty) objs) -> in_rng r x -> exists g, In g ob /\ in_rng g x) /\
  (forall i p, In (i, p) objs -> p <> 0 /\ p mod snd (ty i) = 0).
Proof.
  intros c ty s ms ob dir objs da dn Hc Ht H. destruct (reach_inv _ _ _ _ _ _ _ _ _ Hc Ht H) as (fl & wA & wU & dead & I).
  pose proof (w_a _ _ _ _ _ _ _ _ _ _ _ _ _ I) as A. split; [|split].
  - pose proof (i_nodup _ _ _ _ _ _ _ _ A) as N.
    apply (Permutation_NoDup (l' := (rngs ((free_area s, free_avail s) :: fl ++ wU ++ wA)) ++ rngs (dir ++ map (obj_range ty) objs) ++ rngs (map (obj_range ty) dead))) in N.
    2:{ rewrite map_app. rcount. }
    apply NoDup_app_iff in N. destruct N as (_ & N & _). apply NoDup_app_iff in N. destruct N as (N & _ & _). apply rngs_NoDup_apart. assumption.
  - intros r x Hr Hx. apply rngs_In. apply (Permutation_in _ (i_perm _ _ _ _ _ _ _ _ A)). apply rngs_In. exists r. split; [|assumption].
    right. rewrite map_app. rewrite !in_app_iff in *. tauto.
  - intros i p Hin. destruct (Ht i) as (T1 & T2 & T3). split.
    + destruct (i_piece _ _ _ _ _ _ _ _ (obj_range ty (i, p)) A) as (K & _); [|cbn; lia|cbn in K; lia].
      rewrite !in_app_iff. do 4 right. apply in_map, in_or_app. tauto.
    + pose proof (w_al _ _ _ _ _ _ _ _ _ _ _ _ _ I) as Al. rewrite Forall_forall in Al. apply (Al (i, p)). apply in_or_app. tauto.
Qed.
Print Assumptions arena_blocks_apart.

(** Every request succeeds unless the system refuses, and the block is aligned. *)
Theorem arena_alloc_aligned : forall c ty s ms ob dir objs da dn bytes align reply,
  acfg_ok c -> types_ok ty -> reach c ty (World s ms) ob dir objs da dn -> req_ok bytes align ->
  (reply <> None -> ar_alloc c s bytes align reply <> None) /\
  forall p used s', ar_alloc c s bytes align reply = Some (p, used, s') ->
    (used = true -> exists g, reply = Some g /\ reply_ok c ob bytes align g) -> p mod align = 0.
Proof.
  intros c ty s ms ob dir objs da dn bytes align reply Hc Ht H Hr. destruct (reach_inv _ _ _ _ _ _ _ _ _ Hc Ht H) as (fl & wA & wU & dead & I).
  pose proof (w_a _ _ _ _ _ _ _ _ _ _ _ _ _ I) as A. split.
  - intros Hrep. destruct (ar_alloc_total _ _ _ _ _ _ _ _ _ _ _ reply Hc Hr A Hrep) as (p & u & s' & ->). discriminate.
  - intros p used s' E Hrep. eapply ar_alloc_spec; eassumption.
Qed.
Print Assumptions arena_alloc_aligned.

(** The statistics are exact: allocated + unallocated + unavailable is what the system
    gave (when nothing was adjusted), unallocated is what is still free, and no counter
    wraps.  [blocks] is a 16-bit counter. *)
Theorem arena_statistics : forall c ty s ms ob dir objs da dn,
  acfg_ok c -> types_ok ty -> reach c ty (World s ms) ob dir objs da dn ->
  bytes_allocated s = wrap64 (rsum ob - bytes_unallocated s - bytes_unavailable s + da) /\
  bytes_nonresident s = wrap64 dn /\
  0 <= bytes_unallocated s /\ 0 <= bytes_unavailable s /\
  rsum dir + rsum (map (obj_range ty) objs) <= rsum ob - bytes_unallocated s - bytes_unavailable s /\
  (da = 0 -> bytes_allocated s + bytes_unallocated s + bytes_unavailable s = rsum ob) /\
  blocks s = Z.of_nat (length ob) mod 2 ^ 16 /\
  0 <= fl_blocks s <= 100.
Proof.
  intros c ty s ms ob dir objs da dn Hc Ht H. destruct (reach_inv _ _ _ _ _ _ _ _ _ Hc Ht H) as (fl & wA & wU & dead & I).
  pose proof (w_a _ _ _ _ _ _ _ _ _ _ _ _ _ I) as A.
  pose proof (i_total _ _ _ _ _ _ _ _ A) as (T1 & T2 & T3 & T4 & T5 & T6). pose proof (i_avail _ _ _ _ _ _ _ _ A) as A0.
  assert (Eu : bytes_unallocated s = free_avail s + rsum fl).
  { unfold bytes_unallocated. rewrite (i_flsum _ _ _ _ _ _ _ _ A), wrap64_small by lia. reflexivity. }
  pose proof (i_flb _ _ _ _ _ _ _ _ A) as (F1 & F2).
  assert (Hd : rsum dir + rsum (map (obj_range ty) objs) <= rsum (dir ++ map (obj_range ty) (objs ++ dead))).
  { rewrite map_app, !rsum_app. enough (0 <= rsum (map (obj_range ty) dead)) by lia. apply rsum_nonneg. apply Forall_forall.
    intros r Hr. apply in_map_iff in Hr. destruct Hr as (o & <- & _). cbn. specialize (Ht (fst o)). lia. }
  rewrite Eu, (i_un _ _ _ _ _ _ _ _ A), (i_al _ _ _ _ _ _ _ _ A), (i_nr _ _ _ _ _ _ _ _ A), (i_blk _ _ _ _ _ _ _ _ A).
  split; [f_equal; lia|]. split; [reflexivity|]. split; [lia|]. split; [lia|]. split; [lia|].
  split; [intros ->; rewrite wrap64_small by lia; lia|]. split; [reflexivity|lia].
Qed.
Print Assumptions arena_statistics.

(** The counters of an object allocator: live objects, and live plus free ones. *)
Theorem metadata_object_counts : forall c ty s ms ob dir objs da dn i,
  acfg_ok c -> types_ok ty -> reach c ty (World s ms) ob dir objs da dn ->
  mo_in_use (ms i) = Z.of_nat (length (filter (fun o => fst o =? i) objs)) /\
  mo_in_use (ms i) <= mo_total (ms i).
Proof.
  intros c ty s ms ob dir objs da dn i Hc Ht H. destruct (reach_inv _ _ _ _ _ _ _ _ _ Hc Ht H) as (fl & wA & wU & dead & I).
  rewrite (w_use _ _ _ _ _ _ _ _ _ _ _ _ _ I), (w_tot _ _ _ _ _ _ _ _ _ _ _ _ _ I). split; [reflexivity|lia].
Qed.
Print Assumptions metadata_object_counts.

(** An allocator reuses what was deleted: it obtains memory only when it has no free object. *)
Theorem metadata_object_reuse : forall c ty s ms ob dir objs da dn i p s1 o1 reply,
  acfg_ok c -> types_ok ty -> reach c ty (World s ms) ob dir objs da dn -> In (i, p) objs ->
  mo_delete s (ms i) p = (s1, o1) ->
  exists o2, mo_new c s1 o1 (fst (ty i)) (snd (ty i)) reply = Some (p, false, s1, o2) /\
    mo_free o2 = mo_free (ms i) /\ mo_in_use o2 = mo_in_use (ms i) /\ mo_total o2 = mo_total (ms i).
Proof.
  intros c ty s ms ob dir objs da dn i p s1 o1 reply Hc Ht H Hin E.
  destruct (arena_blocks_apart _ _ _ _ _ _ _ _ _ Hc Ht H) as (_ & _ & K). destruct (K i p Hin) as (Hp0 & _).
  destruct (reach_inv _ _ _ _ _ _ _ _ _ Hc Ht H) as (fl & wA & wU & dead & I).
  pose proof (count_bound _ _ _ _ _ _ _ _ _ _ _ _ _ Ht I) as Cb. rewrite app_length in Cb. pose proof (of_length_le i objs).
  unfold mo_delete in E. inversion E; subst; clear E. unfold mo_new. cbn [mo_free mo_in_use mo_total ar_write amem].
  replace (p =? 0) with false by lia. eexists. split; [reflexivity|]. cbn. rewrite upd_same. split; [reflexivity|]. split; [|reflexivity].
  rewrite (w_use _ _ _ _ _ _ _ _ _ _ _ _ _ I). assert (0 < length (of i objs))%nat.
  { assert (Hx : In (i, p) (of i objs)) by (apply of_In; auto). destruct (of i objs); [destruct Hx|cbn; lia]. }
  rewrite (wrap64_small (_ - 1)), wrap64_small by lia. lia.
Qed.
Print Assumptions metadata_object_reuse.

(** A zero-byte request is answered without looking: on a fresh arena the answer is
    null, although the function is declared never to return null. *)
Theorem arena_alloc_zero_refuted : forall c m align reply, acfg_ok c -> is_pow2 align ->
  exists s', ar_alloc c (arena0 m) 0 align reply = Some (0, false, s').
Proof.
  intros c m align reply Hc Ha. unfold ar_alloc. cbn [free_area arena0 free_avail].
  assert (E : alignment_bytes 0 align = 0) by (unfold alignment_bytes; rewrite Z.mod_0_l by (pose proof (is_pow2_pos _ Ha); lia); reflexivity).
  rewrite E. eexists. reflexivity.
Qed.
Print Assumptions arena_alloc_zero_refuted.

(** ** A concrete history: two system blocks, a stashed remainder that is reused, an
    object deleted, overwritten neighbours and the object handed out again. *)
Definition ex_cfg : acfg := ACfg 48 8192.
Definition ex_ty (i : Z) : Z * Z := (48, 16).
Lemma ex_cfg_ok : acfg_ok ex_cfg.
Proof. repeat split; cbn; try lia. exists 13. split; [lia|reflexivity]. Qed.
Lemma ex_ty_ok : types_ok ex_ty.
Proof. intros i. cbn. split; [lia|]. split; [exists 4; split; [lia|reflexivity]|lia]. Qed.

Definition ex_run : option (list Z * (Z * Z * Z * Z * Z)) :=
  let s := arena0 (fun _ => 0) in
  let? (p1, u1, s) := ar_alloc ex_cfg s 100 8 (Some (2 ^ 20, 131072)) in
  let? (p2, u2, s) := ar_alloc ex_cfg s 200000 64 (Some (2 ^ 21, 204800)) in
  let? (p3, u3, s, o) := mo_new ex_cfg s moa0 48 16 None in
  let? (p4, u4, s, o) := mo_new ex_cfg s o 48 16 None in
  let? (p5, u5, s) := ar_alloc ex_cfg s 100000 16 None in
  let '(s, o) := mo_delete s o p3 in
  let s := ar_write s (p4 + 8) 7 in
  let? (p6, u6, s, o) := mo_new ex_cfg s o 48 16 None in
  Some ([p1; p2; p3; p4; p5; p6],
        (bytes_allocated s, bytes_unallocated s, bytes_unavailable s, blocks s, mo_in_use o)).
Example ex_arena : ex_run = Some ([1048576; 2097152; 2297152; 2297200; 1048688; 2297152], (300204, 35664, 4, 2, 2)).
Proof. vm_compute. reflexivity. Qed.

Example ex_arena_reach : exists s ms, reach ex_cfg ex_ty (World s ms) [(2 ^ 20, 131072)] [(2 ^ 20, 100)] [(3, 2 ^ 20 + 112)] 0 0.
Proof.
  assert (H : exists s, reach ex_cfg ex_ty (World s (fun _ => moa0)) [(2 ^ 20, 131072)] [(2 ^ 20, 100)] [] 0 0 /\
     exists s' o', mo_new ex_cfg s moa0 48 16 None = Some (2 ^ 20 + 112, false, s', o')).
  { eexists. split.
    - apply (r_alloc ex_cfg ex_ty (arena0 (fun _ => 0)) (fun _ => moa0) [] [] [] 0 0 100 8 (Some (2 ^ 20, 131072)) (2 ^ 20) true); [constructor| |reflexivity|].
      + split; [lia|]. split; [apply pow2_8|lia].
      + intros _. eexists. split; [reflexivity|]. split; [vm_compute; discriminate|]. split; [reflexivity|]. split; [reflexivity|]. split; [vm_compute; discriminate|]. constructor.
    - eexists _, _. reflexivity. }
  destruct H as (s & H & s' & o' & E). exists s', (upd (fun _ => moa0) 3 o').
  apply (r_new _ _ _ _ _ _ _ _ _ 3 None _ false s' o' H); [exact E|discriminate].
Qed.
