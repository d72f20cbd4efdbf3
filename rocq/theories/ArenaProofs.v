(** Invariant of the metadata arena. *)
From Verif Require Import Base Ranges Arena.

Definition acfg_ok (c : acfg) : Prop := is_pow2 (a_page_size c) /\ 8 <= a_page_size c /\ 0 <= a_span_size c <= 4096.

(** What a request may be: any size and alignment that cannot wrap. *)
Definition req_ok (bytes align : Z) : Prop := 0 <= bytes < 2 ^ 62 /\ is_pow2 align /\ align <= 2 ^ 62.

(** A range the system may grant for a request: as large and as aligned as asked,
    in a 48-bit address space, apart from everything granted before. *)
Definition reply_ok (c : acfg) (ob : list (Z * Z)) (bytes align : Z) (g : Z * Z) : Prop :=
  ask_size bytes <= snd g /\ fst g mod ask_align c align = 0 /\ 0 < fst g /\ fst g + snd g <= 2 ^ 48 /\
  Forall (apart g) ob.

Fixpoint chain (m : Z -> Z) (p : Z) (l : list (Z * Z)) : Prop :=
  match l with
  | [] => p = 0
  | b :: l => p = fst b /\ fst b <> 0 /\ m (fst b + 8) = snd b /\ chain m (m (fst b)) l
  end.

Record ainv (s : arena) (ob fl wA wU held : list (Z * Z)) (da dn : Z) : Prop := {
  i_avail : 0 <= free_avail s;
  i_area : 0 <= free_area s /\ free_area s + free_avail s <= 2 ^ 48;
  i_chain : chain (amem s) (freelist s) fl;
  i_flok : Forall (fun b => fst b mod 8 = 0 /\ 16 <= snd b) fl;
  i_flb : fl_blocks s = Z.of_nat (length fl) /\ (length fl <= 100)%nat;
  i_flsum : fl_unallocated s = rsum fl;
  i_un : bytes_unavailable s = rsum wU;
  i_al : bytes_allocated s = wrap64 (rsum wA + rsum held + da);
  i_nr : bytes_nonresident s = wrap64 dn;
  i_blk : blocks s = wrap16 (Z.of_nat (length ob));
  i_perm : Permutation (rngs ((free_area s, free_avail s) :: fl ++ wU ++ wA ++ held)) (rngs ob);
  i_pos : Forall (fun r => 0 <= snd r) (wU ++ wA ++ held) /\ Forall (fun r => 0 <= snd r) ob;
  i_nd : NoDup (rngs ob) /\ forall x, In x (rngs ob) -> 0 < x < 2 ^ 48
}.

Lemma wrap64_small x : 0 <= x < 2 ^ 63 -> wrap64 x = x.
Proof. intros. unfold wrap64, two64. apply Z.mod_small. lia. Qed.

Lemma i_flpos s ob fl wA wU held da dn : ainv s ob fl wA wU held da dn -> Forall (fun r => 0 <= snd r) fl.
Proof. intros I. eapply Forall_impl; [|apply (i_flok _ _ _ _ _ _ _ _ I)]. cbn. intros. lia. Qed.

Lemma i_total s ob fl wA wU held da dn : ainv s ob fl wA wU held da dn ->
  free_avail s + rsum fl + rsum wU + rsum wA + rsum held = rsum ob /\ 0 <= rsum ob <= 2 ^ 48 /\
  0 <= rsum fl /\ 0 <= rsum wU /\ 0 <= rsum wA /\ 0 <= rsum held.
Proof.
  intros I. pose proof (Permutation_length (i_perm _ _ _ _ _ _ _ _ I)) as L.
  pose proof (i_flpos _ _ _ _ _ _ _ _ I) as F. destruct (i_pos _ _ _ _ _ _ _ _ I) as (P1 & P2). pose proof (i_avail _ _ _ _ _ _ _ _ I) as A.
  assert (Z.of_nat (length (rngs ((free_area s, free_avail s) :: fl ++ wU ++ wA ++ held))) = rsum ((free_area s, free_avail s) :: fl ++ wU ++ wA ++ held)).
  { apply rngs_length. constructor; [exact A|]. apply Forall_app. split; assumption. }
  pose proof (rngs_length ob P2). rewrite L in H. rewrite rsum_cons, !rsum_app in H. cbn [snd] in H.
  rewrite !Forall_app in P1. destruct P1 as (Q1 & Q2 & Q3).
  pose proof (rsum_nonneg _ F). pose proof (rsum_nonneg _ Q1). pose proof (rsum_nonneg _ Q2). pose proof (rsum_nonneg _ Q3).
  destruct (i_nd _ _ _ _ _ _ _ _ I) as (N1 & N2).
  pose proof (NoDup_bounded (rngs ob) 0 (2 ^ 48) ltac:(lia) N1 ltac:(intros x Hx; specialize (N2 x Hx); lia)). lia.
Qed.

(** Every piece lies in the granted memory. *)
Lemma i_piece s ob fl wA wU held da dn r : ainv s ob fl wA wU held da dn ->
  In r (fl ++ wU ++ wA ++ held) -> 0 < snd r -> 0 < fst r /\ fst r + snd r <= 2 ^ 48.
Proof.
  intros I Hr Hs. destruct (i_nd _ _ _ _ _ _ _ _ I) as (_ & N2).
  assert (K : forall x, in_rng r x -> 0 < x < 2 ^ 48).
  { intros x Hx. apply N2. apply (Permutation_in _ (i_perm _ _ _ _ _ _ _ _ I)). apply rngs_In. exists r. split; [right; assumption|assumption]. }
  pose proof (K (fst r) ltac:(unfold in_rng; lia)). pose proof (K (fst r + snd r - 1) ltac:(unfold in_rng; lia)). lia.
Qed.

Lemma i_nodup s ob fl wA wU held da dn : ainv s ob fl wA wU held da dn ->
  NoDup (rngs ((free_area s, free_avail s) :: fl ++ wU ++ wA ++ held)).
Proof. intros I. eapply Permutation_NoDup; [apply Permutation_sym, (i_perm _ _ _ _ _ _ _ _ I)|apply (i_nd _ _ _ _ _ _ _ _ I)]. Qed.

Lemma chain_ext m m' l : forall p, (forall b, In b l -> m' (fst b) = m (fst b) /\ m' (fst b + 8) = m (fst b + 8)) ->
  chain m p l -> chain m' p l.
Proof.
  induction l as [|b l IH]; intros p H C; [exact C|]. cbn in *. destruct C as (-> & C2 & C3 & C4).
  destruct (H b (or_introl eq_refl)) as (-> & ->). repeat split; auto.
Qed.

Lemma alignment_bytes_spec a al : is_pow2 al -> 0 <= alignment_bytes a al < al /\ (a + alignment_bytes a al) mod al = 0.
Proof.
  intros Hp. pose proof (is_pow2_pos _ Hp). pose proof (Z.mod_pos_bound a al ltac:(lia)).
  unfold alignment_bytes. destruct (Z.eqb_spec (a mod al) 0) as [E|E].
  - rewrite Z.add_0_r. lia.
  - split; [lia|]. rewrite <- Z.add_mod_idemp_l by lia. replace (a mod al + (al - a mod al)) with al by lia. apply Z_mod_same_full.
Qed.

Lemma pow2_8 : is_pow2 8. Proof. exists 3. split; [lia|reflexivity]. Qed.

(** A word inside a piece that is neither free nor on the free list is not touched. *)
Definition same_held (m m' : Z -> Z) (held : list (Z * Z)) : Prop :=
  forall w r, w mod 8 = 0 -> In r held -> fst r <= w -> w + 8 <= fst r + snd r -> m' w = m w.

Lemma chain_nodup_other s ob fl wA wU held da dn b r x : ainv s ob fl wA wU held da dn ->
  In b fl -> In r (wU ++ wA ++ held) -> in_rng b x -> in_rng r x -> False.
Proof.
  intros I Hb Hr X1 X2. pose proof (i_nodup _ _ _ _ _ _ _ _ I) as N. rewrite rngs_cons, rngs_app in N.
  apply NoDup_app_iff in N. destruct N as (_ & N & _). apply NoDup_app_iff in N. destruct N as (_ & _ & N).
  apply (N x); apply rngs_In; eauto.
Qed.
Lemma free_nodup_other s ob fl wA wU held da dn r x : ainv s ob fl wA wU held da dn ->
  In r (fl ++ wU ++ wA ++ held) -> free_area s <= x < free_area s + free_avail s -> in_rng r x -> False.
Proof.
  intros I Hr X1 X2. pose proof (i_nodup _ _ _ _ _ _ _ _ I) as N. rewrite rngs_cons in N.
  apply NoDup_app_iff in N. destruct N as (_ & _ & N). apply (N x); [apply rng_In; exact X1|apply rngs_In; eauto].
Qed.

Lemma stash_spec c s ob fl wA wU held da dn : acfg_ok c -> ainv s ob fl wA wU held da dn ->
  exists fl' wU', ainv (stash c s) ob fl' wA wU' held da dn /\ free_area (stash c s) = 0 /\ free_avail (stash c s) = 0 /\
    same_held (amem s) (amem (stash c s)) held.
Proof.
  intros (C1 & C2 & C3) I. pose proof (i_total _ _ _ _ _ _ _ _ I) as (T1 & T2 & T3 & T4 & T5 & T6).
  pose proof (i_avail _ _ _ _ _ _ _ _ I) as A0. pose proof (i_area _ _ _ _ _ _ _ _ I) as (A1 & A2).
  pose proof (i_flb _ _ _ _ _ _ _ _ I) as (F1 & F2).
  unfold stash. set (ab := alignment_bytes (free_area s) alignof_block).
  destruct (alignment_bytes_spec (free_area s) 8 pow2_8) as (B1 & B2). change (alignment_bytes (free_area s) 8) with ab in B1, B2.
  rewrite (wrap64_small (ab + Z.max (a_span_size c) sizeof_block)) by (unfold sizeof_block; lia).
  destruct ((fl_blocks s <? k_max_freelist_blocks) && (ab + Z.max (a_span_size c) sizeof_block <=? free_avail s)) eqn:E.
  - apply andb_prop in E. destruct E as (E1 & E2). apply Z.ltb_lt in E1. apply Z.leb_le in E2. unfold sizeof_block in E2. unfold k_max_freelist_blocks in E1.
    rewrite (wrap64_small (free_area s + ab)) by lia. rewrite (wrap64_small (free_avail s - ab)) by lia.
    set (b := free_area s + ab) in *. set (sz := free_avail s - ab) in *.
    assert (Eb : b = free_area s + ab) by reflexivity. assert (Es : sz = free_avail s - ab) by reflexivity. clearbody b sz.
    exists ((b, sz) :: fl), ((free_area s, ab) :: wU).
    assert (Hother : forall r, In r (fl ++ wU ++ wA ++ held) -> forall w, w mod 8 = 0 -> fst r <= w -> w + 8 <= fst r + snd r -> w <> b /\ w <> b + 8).
    { intros r Hr w Hw W1 W2. split; intros ->; eapply (free_nodup_other _ _ _ _ _ _ _ _ r _ I Hr); unfold in_rng; try (split; [eassumption|lia]); lia. }
    split; [constructor; cbn [free_area free_avail freelist bytes_allocated bytes_unavailable bytes_nonresident fl_unallocated blocks fl_blocks amem]|].
    + lia.
    + lia.
    + cbn [chain fst snd]. assert (b <> 0).
      { intros ->. destruct (i_nd _ _ _ _ _ _ _ _ I) as (_ & N2). assert (0 < 0 < 2 ^ 48); [|lia]. apply N2.
        apply (Permutation_in _ (i_perm _ _ _ _ _ _ _ _ I)). rewrite rngs_cons. apply in_or_app. left. apply rng_In. unfold in_rng. cbn. lia. }
      split; [reflexivity|]. split; [assumption|]. rewrite upd_same. split; [reflexivity|].
      rewrite upd_other, upd_same by lia. eapply chain_ext; [|apply (i_chain _ _ _ _ _ _ _ _ I)].
      intros r Hr. pose proof (i_flok _ _ _ _ _ _ _ _ I) as Fo. rewrite Forall_forall in Fo. specialize (Fo r Hr). cbn in Fo.
      assert (M8 : (fst r + 8) mod 8 = 0) by (clear - Fo; dlia).
      destruct (Hother r (in_or_app _ _ _ (or_introl Hr)) (fst r) ltac:(lia) ltac:(lia) ltac:(lia)).
      destruct (Hother r (in_or_app _ _ _ (or_introl Hr)) (fst r + 8) ltac:(lia) ltac:(lia) ltac:(lia)).
      rewrite !upd_other by lia. auto.
    + constructor; [cbn; lia|apply (i_flok _ _ _ _ _ _ _ _ I)].
    + cbn [length]. rewrite F1. unfold wrap8. rewrite Z.mod_small by lia. lia.
    + rewrite rsum_cons, (i_flsum _ _ _ _ _ _ _ _ I), wrap64_small by (cbn; lia). cbn [snd]. lia.
    + rewrite rsum_cons, (i_un _ _ _ _ _ _ _ _ I), wrap64_small by (cbn; lia). cbn [snd]. lia.
    + apply (i_al _ _ _ _ _ _ _ _ I).
    + apply (i_nr _ _ _ _ _ _ _ _ I).
    + apply (i_blk _ _ _ _ _ _ _ _ I).
    + pose proof (i_perm _ _ _ _ _ _ _ _ I) as P.
      assert (Q : rng (free_area s, free_avail s) = rng (free_area s, ab) ++ rng (b, sz)).
      { rewrite Eb, <- rng_split by lia. f_equal. f_equal. lia. }
      rewrite rngs_cons, Q in P. cbn [app]. clear - P. rcount.
    + destruct (i_pos _ _ _ _ _ _ _ _ I) as (P1 & P2). split; [|exact P2]. cbn [app]. constructor; [cbn; lia|exact P1].
    + apply (i_nd _ _ _ _ _ _ _ _ I).
    + cbn [free_area free_avail amem]. split; [reflexivity|]. split; [reflexivity|]. intros w r Hw Hr W1 W2.
      destruct (Hother r ltac:(rewrite !in_app_iff; tauto) w Hw W1 W2). rewrite !upd_other by assumption. reflexivity.
  - exists fl, ((free_area s, free_avail s) :: wU). split; [constructor; cbn [free_area free_avail freelist bytes_allocated bytes_unavailable bytes_nonresident fl_unallocated blocks fl_blocks amem]; try apply I|].
    + lia.
    + lia.
    + rewrite rsum_cons, (i_un _ _ _ _ _ _ _ _ I), wrap64_small by (cbn; lia). cbn [snd]. lia.
    + pose proof (i_perm _ _ _ _ _ _ _ _ I) as P. cbn [app]. clear - P. rcount.
    + destruct (i_pos _ _ _ _ _ _ _ _ I) as (P1 & P2). split; [|exact P2]. cbn [app]. constructor; [cbn; lia|exact P1].
    + cbn. split; [reflexivity|]. split; [reflexivity|]. intros w r _ _ _ _. reflexivity.
Qed.

Definition last_addr (p : Z) (l : list (Z * Z)) : Z := match rev l with [] => p | b :: _ => fst b end.
Lemma last_addr_cons p b l : last_addr p (b :: l) = last_addr (fst b) l.
Proof. unfold last_addr. cbn [rev]. destruct (rev l) as [|b' l']; reflexivity. Qed.

Lemma pop_loop_spec fuel m bytes align : forall l prev cur, (length l <= fuel)%nat -> chain m cur l ->
  (exists l1 b n l2, l = l1 ++ (b, n) :: l2 /\ pop_loop fuel m bytes align prev cur = Some (Some (last_addr prev l1, b)) /\
     block_size m b = n /\ m b = match l2 with [] => 0 | b2 :: _ => fst b2 end /\ b <> 0 /\ wrap64 (alignment_bytes b align + bytes) <= n /\ cur <> 0)
  \/ pop_loop fuel m bytes align prev cur = Some None.
Proof.
  induction fuel as [|fuel IH]; intros l prev cur L C; destruct l as [|b l]; cbn in L; try lia; cbn [chain] in C.
  - subst. right. reflexivity.
  - subst. right. reflexivity.
  - destruct C as (-> & C2 & C3 & C4). cbn [pop_loop]. replace (fst b =? 0) with false by lia.
    change (block_size m (fst b)) with (m (fst b + 8)). change (block_next m (fst b)) with (m (fst b)). rewrite C3.
    destruct (Z.ltb_spec (snd b) (wrap64 (alignment_bytes (fst b) align + bytes))) as [Hlt|Hge].
    + destruct (IH l (fst b) (m (fst b)) ltac:(lia) C4) as [(l1 & b1 & n & l2 & -> & -> & K)|H]; [left|right; exact H].
      exists (b :: l1), b1, n, l2. rewrite last_addr_cons. repeat split; try apply K. assumption.
    + left. exists [], (fst b), (snd b), l. cbn [app]. split; [destruct b; reflexivity|]. split; [reflexivity|]. split; [assumption|].
      split; [|auto]. destruct l as [|b2 l]; [exact C4|]. apply C4.
Qed.

Lemma chain_remove m l1 b n l2 p next : NoDup (map fst (l1 ++ (b, n) :: l2)) ->
  (forall r r', In r (l1 ++ (b, n) :: l2) -> In r' (l1 ++ (b, n) :: l2) -> fst r <> fst r' + 8) ->
  next = m b ->
  chain m p (l1 ++ (b, n) :: l2) ->
  chain (if last_addr 0 l1 =? 0 then m else upd m (last_addr 0 l1) next) (if last_addr 0 l1 =? 0 then next else p) (l1 ++ l2).
Proof.
  intros ND H8 ->. destruct l1 as [|b1 l1] using rev_ind.
  - cbn. intros (_ & _ & _ & C). exact C.
  - clear IHl1. unfold last_addr. rewrite rev_app_distr. cbn [rev app].
    intros C. assert (Hb1 : fst b1 <> 0).
    { clear - C. revert p C. induction l1 as [|r l1 IH]; intros p C; cbn in C; [apply C|]. destruct C as (_ & _ & _ & C). exact (IH _ C). }
    replace (fst b1 =? 0) with false by lia. clear Hb1.
    revert p C. induction l1 as [|r l1 IH]; intros p C.
    + cbn in *. destruct C as (-> & C2 & C3 & C4 & C5 & C6 & C7). rewrite upd_same.
      rewrite upd_other by (intros E; apply (H8 b1 b1); cbn; auto; lia).
      split; [reflexivity|]. split; [assumption|]. split; [assumption|].
      inversion ND as [|? ? N1 N2]; subst. inversion N2 as [|? ? N3 N4]; subst.
      eapply chain_ext; [|exact C7]. intros r Hr.
      rewrite !upd_other; [auto| |].
      * intros E. apply (H8 b1 r); cbn; auto; lia.
      * intros E. apply N1. right. rewrite <- E. apply in_map. assumption.
    + cbn in *. destruct C as (-> & C2 & C3 & C4).
      inversion ND as [|? ? N1 N2]; subst.
      assert (Hne : fst r <> fst b1). { intros E. apply N1. rewrite E. apply in_map. rewrite !in_app_iff. cbn. tauto. }
      rewrite !upd_other; [|assumption|].
      * split; [reflexivity|]. split; [assumption|]. split; [assumption|]. apply IH; [assumption| |assumption].
        intros r1 r2 R1 R2. apply H8; right; assumption.
      * intros E. apply (H8 b1 r); [right; rewrite !in_app_iff; cbn; tauto|left; reflexivity|lia].
Qed.

Lemma pieces_sep s ob fl wA wU held da dn : ainv s ob fl wA wU held da dn ->
  NoDup (map fst fl) /\ forall r r', In r fl -> In r' fl -> fst r <> fst r' + 8.
Proof.
  intros I. pose proof (i_nodup _ _ _ _ _ _ _ _ I) as N. rewrite rngs_cons, rngs_app in N.
  apply NoDup_app_iff in N. destruct N as (_ & N & _). apply NoDup_app_iff in N. destruct N as (N & _).
  pose proof (i_flok _ _ _ _ _ _ _ _ I) as F. apply rngs_NoDup_apart in N. clear I.
  assert (D : forall r r', In r fl -> In r' fl -> r = r' \/ apart r r').
  { intros r r' H H'. destruct (ForallOrdPairs_In N _ _ H H') as [E|[E|E]]; [tauto|tauto|]. right. intros x X1 X2. exact (E x X2 X1). }
  rewrite Forall_forall in F. split.
  - induction fl as [|r fl IH]; [constructor|]. cbn. inversion N as [|? ? N1 N2]; subst. constructor; [|apply IH; auto using in_cons].
    intros Hin. apply in_map_iff in Hin. destruct Hin as (r' & E & Hr'). rewrite Forall_forall in N1.
    pose proof (F r (or_introl eq_refl)). pose proof (F r' (or_intror Hr')). cbn in *.
    apply (N1 r' Hr' (fst r)); unfold in_rng; lia.
  - intros r r' Hr Hr' E. pose proof (F r Hr). pose proof (F r' Hr'). cbn in *. destruct (D r r' Hr Hr') as [->|A]; [lia|].
    apply (A (fst r)); unfold in_rng; lia.
Qed.

Lemma try_pop_spec s ob fl wA wU held da dn bytes align :
  ainv s ob fl wA wU held da dn -> free_area s = 0 -> free_avail s = 0 ->
  exists b s', try_pop s bytes align = Some (b, s') /\
    (b = 0 /\ s' = s \/
     exists n l1 l2, b <> 0 /\ fl = l1 ++ (b, n) :: l2 /\ wrap64 (alignment_bytes b align + bytes) <= n /\
       block_size (amem s') b = n /\
       ainv (Arena b n (freelist s') (bytes_allocated s') (bytes_unavailable s') (bytes_nonresident s')
               (fl_unallocated s') (blocks s') (fl_blocks s') (amem s')) ob (l1 ++ l2) wA wU held da dn /\
       same_held (amem s) (amem s') held).
Proof.
  intros I A0 A1. pose proof (i_flb _ _ _ _ _ _ _ _ I) as (F1 & F2).
  destruct (pop_loop_spec 256 (amem s) bytes align fl 0 (freelist s) ltac:(lia) (i_chain _ _ _ _ _ _ _ _ I))
    as [(l1 & b & n & l2 & E & Ep & Esz & En & Hb & Hfit & Hcur)|Ep]; unfold try_pop; rewrite Ep.
  - eexists b, _. split; [reflexivity|]. right. exists n, l1, l2. split; [assumption|]. split; [assumption|]. split; [assumption|].
    destruct (pieces_sep _ _ _ _ _ _ _ _ I) as (S1 & S2). rewrite E in S1, S2.
    pose proof (i_flok _ _ _ _ _ _ _ _ I) as Fo. pose proof (i_total _ _ _ _ _ _ _ _ I) as (T1 & T2 & T3 & T4 & T5 & T6).
    assert (Hbfl : In (b, n) fl) by (rewrite E; apply in_elt).
    assert (Hbn : 16 <= n /\ b mod 8 = 0) by (rewrite Forall_forall in Fo; specialize (Fo _ Hbfl); cbn in Fo; lia).
    destruct (i_piece _ _ _ _ _ _ _ _ (b, n) I ltac:(apply in_or_app; left; assumption) ltac:(cbn; lia)) as (B1 & B2). cbn [fst snd] in B1, B2.
    set (q := last_addr 0 l1) in *.
    assert (Hq : q = 0 \/ exists k, In (q, k) l1).
    { unfold q, last_addr. destruct (rev l1) as [|r l'] eqn:Er; [auto|]. right. exists (snd r). rewrite in_rev, Er. left. destruct r; reflexivity. }
    cbn [freelist bytes_allocated bytes_unavailable bytes_nonresident fl_unallocated blocks fl_blocks amem].
    assert (Hw : forall w v r, In (w, v) fl -> In r (wU ++ wA ++ held) -> fst r <= w -> w + 8 <= fst r + snd r -> False).
    { intros w v r Hwv Hr W1 W2. rewrite Forall_forall in Fo. pose proof (Fo _ Hwv) as Fw. cbn in Fw.
      apply (chain_nodup_other _ _ _ _ _ _ _ _ (w, v) r w I Hwv Hr); unfold in_rng; cbn; lia. }
    assert (Esz' : block_size (if q =? 0 then amem s else upd (amem s) q (block_next (amem s) b)) b = n).
    { unfold block_size in *. destruct (Z.eqb_spec q 0); [assumption|]. rewrite upd_other; [assumption|].
      destruct Hq as [|(k & Hq)]; [contradiction|]. intros Eq. apply (S2 (q, k) (b, n)); cbn; try lia.
      - apply in_or_app. left. assumption.
      - apply in_elt. }
    split; [exact Esz'|].
    split; [constructor; cbn [free_area free_avail freelist bytes_allocated bytes_unavailable bytes_nonresident fl_unallocated blocks fl_blocks amem]; try apply I|].
    + lia.
    + lia.
    + apply (chain_remove _ _ b n); [assumption|assumption|reflexivity|]. rewrite <- E. apply (i_chain _ _ _ _ _ _ _ _ I).
    + rewrite E in Fo. rewrite Forall_app in *. destruct Fo as (Fo1 & Fo2). inversion Fo2; subst. auto.
    + rewrite E in F1, F2. rewrite app_length in *. cbn [length] in *. rewrite F1. unfold wrap8. rewrite Z.mod_small by lia. lia.
    + rewrite Esz, (i_flsum _ _ _ _ _ _ _ _ I). rewrite E in *. rewrite !rsum_app, !rsum_cons in *. cbn [snd] in *.
      pose proof (rsum_nonneg (l1 ++ l2)) as K. rewrite rsum_app in K.
      assert (0 <= rsum l1 + rsum l2).
      { apply K. apply Forall_app. rewrite Forall_app in Fo. destruct Fo as (Fo1 & Fo2). inversion Fo2; subst.
        split; eapply Forall_impl; try eassumption; cbn; lia. }
      rewrite wrap64_small by lia. lia.
    + pose proof (i_perm _ _ _ _ _ _ _ _ I) as P. rewrite A0, A1, E in P. clear - P. cbn [app] in *. rcount.
    + intros w r Hw8 Hr W1 W2. destruct (Z.eqb_spec q 0); [reflexivity|]. destruct Hq as [|(k & Hq)]; [contradiction|].
      rewrite upd_other; [reflexivity|]. intros ->. apply (Hw q k r); [rewrite E; apply in_or_app; left; assumption|rewrite !in_app_iff; tauto|assumption|assumption].
  - exists 0, s. split; [reflexivity|]. left. split; reflexivity.
Qed.

Lemma ask_align_mod c align ptr : acfg_ok c -> is_pow2 align -> ptr mod ask_align c align = 0 -> ptr mod align = 0 /\ ptr mod 8 = 0.
Proof.
  intros (C1 & C2 & _) Ha H.
  assert (K : is_pow2 (ask_align c align)) by (unfold ask_align; destruct (Z.max_spec (a_page_size c) align) as [(_ & ->)|(_ & ->)]; assumption).
  pose proof (is_pow2_pos _ K). apply Z.mod_divide in H; [|lia].
  pose proof (is_pow2_pos _ Ha).
  assert (align <= ask_align c align) by (unfold ask_align; lia). assert (8 <= ask_align c align) by (unfold ask_align; lia).
  split; apply Z.mod_divide; try lia; eapply Z.divide_trans; try exact H; apply is_pow2_divide; try assumption. apply pow2_8.
Qed.

Lemma carve s ob fl wA wU held da dn bytes align :
  req_ok bytes align -> ainv s ob fl wA wU held da dn ->
  alignment_bytes (free_area s) align + bytes <= free_avail s ->
  let ab := alignment_bytes (free_area s) align in
  let area := wrap64 (free_area s + ab) in
  let avail := wrap64 (free_avail s - ab) in
  area mod align = 0 /\
  ainv (Arena (wrap64 (area + bytes)) (wrap64 (avail - bytes)) (freelist s)
      (wrap64 (wrap64 (bytes_allocated s + ab) + bytes)) (bytes_unavailable s) (bytes_nonresident s) (fl_unallocated s)
      (blocks s) (fl_blocks s) (amem s)) ob fl ((free_area s, ab) :: wA) wU ((area, bytes) :: held) da dn.
Proof.
  intros (R1 & R2 & R3) I Hfit. cbv zeta. set (ab := alignment_bytes (free_area s) align) in *.
  destruct (alignment_bytes_spec (free_area s) align R2) as (B1 & B2). fold ab in B1, B2.
  pose proof (i_avail _ _ _ _ _ _ _ _ I) as A0. pose proof (i_area _ _ _ _ _ _ _ _ I) as (A1 & A2).
  rewrite (wrap64_small (free_area s + ab)) by lia. rewrite (wrap64_small (free_avail s - ab)) by lia.
  rewrite (wrap64_small (free_area s + ab + bytes)) by lia. rewrite (wrap64_small (free_avail s - ab - bytes)) by lia.
  split; [assumption|].
  constructor; cbn [free_area free_avail freelist bytes_allocated bytes_unavailable bytes_nonresident fl_unallocated blocks fl_blocks amem]; try apply I.
  - lia.
  - lia.
  - rewrite (i_al _ _ _ _ _ _ _ _ I), !rsum_cons. cbn [snd]. unfold wrap64, two64. rewrite Z.add_mod_idemp_l, <- Z.add_assoc, Z.add_mod_idemp_l by lia. f_equal. lia.
  - pose proof (i_perm _ _ _ _ _ _ _ _ I) as P.
    assert (Q : rng (free_area s, free_avail s) = rng (free_area s, ab) ++ rng (free_area s + ab, bytes) ++ rng (free_area s + ab + bytes, free_avail s - ab - bytes)).
    { rewrite <- rng_split by lia. rewrite <- rng_split by lia. f_equal. f_equal. lia. }
    rewrite rngs_cons, Q in P. clear - P. cbn [app]. rcount.
  - destruct (i_pos _ _ _ _ _ _ _ _ I) as (P1 & P2). rewrite !Forall_app in *. split; [|exact P2].
    split; [tauto|]. split; constructor; cbn; tauto || lia.
Qed.

Lemma carve_ex s ob fl wA wU held da dn bytes align (u : bool) p used s' :
  req_ok bytes align -> ainv s ob fl wA wU held da dn ->
  alignment_bytes (free_area s) align + bytes <= free_avail s ->
  (let ab := alignment_bytes (free_area s) align in
  let area := wrap64 (free_area s + ab) in
  let avail := wrap64 (free_avail s - ab) in
  let alloc := wrap64 (bytes_allocated s + ab) in
  Some (area, u,
    Arena (wrap64 (area + bytes)) (wrap64 (avail - bytes)) (freelist s)
      (wrap64 (alloc + bytes)) (bytes_unavailable s) (bytes_nonresident s) (fl_unallocated s)
      (blocks s) (fl_blocks s) (amem s))) = Some (p, used, s') ->
  p mod align = 0 /\ used = u /\ amem s' = amem s /\
  exists wA', ainv s' ob fl wA' wU ((p, bytes) :: held) da dn.
Proof.
  intros Hr I Hfit E. destruct (carve s ob fl wA wU held da dn bytes align Hr I Hfit) as (K1 & K2). cbv zeta in *.
  inversion E; subst. split; [exact K1|]. split; [reflexivity|]. split; [reflexivity|]. eexists. exact K2.
Qed.

Lemma ar_alloc_spec c s ob fl wA wU held da dn bytes align reply p used s' :
  acfg_ok c -> req_ok bytes align -> ainv s ob fl wA wU held da dn ->
  ar_alloc c s bytes align reply = Some (p, used, s') ->
  (used = true -> exists g, reply = Some g /\ reply_ok c ob bytes align g) ->
  p mod align = 0 /\
  exists fl' wA' wU' , ainv s' (if used then match reply with Some g => g :: ob | None => ob end else ob) fl' wA' wU' ((p, bytes) :: held) da dn /\
    same_held (amem s) (amem s') held.
Proof.
  intros Hc Hr I E Hrep. pose proof Hr as (R1 & R2 & R3).
  pose proof (i_avail _ _ _ _ _ _ _ _ I) as A0. pose proof (i_area _ _ _ _ _ _ _ _ I) as (A1 & A2).
  unfold ar_alloc in E.
  destruct (alignment_bytes_spec (free_area s) align R2) as (B1 & B2).
  rewrite (wrap64_small (alignment_bytes (free_area s) align + bytes)) in E by lia.
  destruct (Z.ltb_spec (free_avail s) (alignment_bytes (free_area s) align + bytes)) as [Hlt|Hge].
  2:{ cbn [obind] in E. apply (carve_ex _ _ _ _ _ _ _ _ _ _ _ _ _ _ Hr I Hge) in E. destruct E as (K1 & -> & Em & wA' & K2).
      split; [exact K1|]. exists fl, wA', wU. split; [exact K2|]. intros w r _ _ _ _. rewrite Em. reflexivity. }
  destruct (stash_spec c s ob fl wA wU held da dn Hc I) as (fl1 & wU1 & I1 & S1 & S2 & S3).
  unfold alloc_slow in E. set (s1 := stash c s) in *. clearbody s1.
  destruct (try_pop_spec s1 ob fl1 wA wU1 held da dn bytes align I1 S1 S2) as (b & s2 & Ep & K).
  rewrite Ep in E. cbn [obind] in E.
  destruct K as [(-> & ->)|(n & l1 & l2 & Hb & Efl & Hfit & Esz & I2 & Sh2)].
  - cbn [negb Z.eqb] in E. destruct reply as [(ptr, actual)|]; [|discriminate]. cbn [obind] in E.
    assert (used = true) by (clear - E; cbv zeta in E; inversion E; reflexivity). subst used.
    destruct (Hrep eq_refl) as (g & Eg & G1 & G2 & G3 & G4 & G5). inversion Eg; subst g. clear Eg Hrep. cbn [fst snd] in *.
    destruct (ask_align_mod c align ptr Hc R2 G2) as (M1 & M2).
    set (s3 := Arena ptr actual (freelist s1) (bytes_allocated s1) (bytes_unavailable s1)
              (bytes_nonresident s1) (fl_unallocated s1) (wrap16 (blocks s1 + 1)) (fl_blocks s1) (amem s1)) in *.
    assert (Hask : bytes <= ask_size bytes /\ 0 <= ask_size bytes) by (clear - R1; unfold ask_size, k_alloc_increment; destruct (Z.ltb_spec (128 * 1024) bytes); lia).
    assert (I3 : ainv s3 ((ptr, actual) :: ob) fl1 wA wU1 held da dn).
    { constructor; unfold s3; cbn [free_area free_avail freelist bytes_allocated bytes_unavailable bytes_nonresident fl_unallocated blocks fl_blocks amem]; try apply I1.
      - lia.
      - lia.
      - rewrite (i_blk _ _ _ _ _ _ _ _ I1). cbn [length]. unfold wrap16. rewrite Z.add_mod_idemp_l by lia. f_equal. lia.
      - pose proof (i_perm _ _ _ _ _ _ _ _ I1) as P. rewrite S1, S2 in P. clear - P. rcount.
      - destruct (i_pos _ _ _ _ _ _ _ _ I1) as (P1 & P2). split; [exact P1|]. constructor; [cbn; lia|exact P2].
      - destruct (i_nd _ _ _ _ _ _ _ _ I1) as (N1 & N2). rewrite rngs_cons. split.
        + apply (rngs_NoDup_apart ((ptr, actual) :: ob)). constructor; [assumption|]. apply rngs_NoDup_apart. assumption.
        + intros x Hx. apply in_app_or in Hx. destruct Hx as [Hx|Hx]; [|apply N2; assumption]. apply rng_In in Hx. unfold in_rng in Hx. cbn in Hx. lia. }
    assert (Hab : alignment_bytes ptr align = 0) by (unfold alignment_bytes; rewrite M1; reflexivity).
    assert (Hfit : alignment_bytes (free_area s3) align + bytes <= free_avail s3).
    { change (free_area s3) with ptr. change (free_avail s3) with actual. rewrite Hab. clear - Hask G1. lia. }
    assert (Em3 : amem s3 = amem s1) by reflexivity. clearbody s3.
    apply (carve_ex _ _ _ _ _ _ _ _ _ _ _ _ _ _ Hr I3 Hfit) in E. destruct E as (K1 & _ & Em & wA' & K2).
    split; [exact K1|]. exists fl1, wA', wU1. split; [exact K2|]. rewrite Em, Em3. exact S3.
  - replace (b =? 0) with false in E by lia. cbn [negb] in E. rewrite Esz in E. cbn [obind] in E.
    set (s3 := Arena b n (freelist s2) (bytes_allocated s2) (bytes_unavailable s2) (bytes_nonresident s2) (fl_unallocated s2) (blocks s2) (fl_blocks s2) (amem s2)) in *.
    pose proof (i_area _ _ _ _ _ _ _ _ I2) as (A3 & A4). pose proof (i_avail _ _ _ _ _ _ _ _ I2) as A5. cbn [free_area free_avail] in A3, A4, A5.
    destruct (alignment_bytes_spec b align R2) as (B3 & B4).
    rewrite (wrap64_small (alignment_bytes b align + bytes)) in Hfit by (clear - B3 R1 R3; lia).
    assert (Hfit' : alignment_bytes (free_area s3) align + bytes <= free_avail s3) by exact Hfit.
    assert (Em3 : amem s3 = amem s2) by reflexivity. clearbody s3.
    apply (carve_ex _ _ _ _ _ _ _ _ _ _ _ _ _ _ Hr I2 Hfit') in E. destruct E as (K1 & -> & Em & wA' & K2).
    split; [exact K1|]. exists (l1 ++ l2), wA', wU1. split; [exact K2|].
    intros w r Hw8 Hr' W1 W2. rewrite Em, Em3, (Sh2 w r Hw8 Hr' W1 W2). apply (S3 w r Hw8 Hr' W1 W2).
Qed.

Lemma ar_alloc_total c s ob fl wA wU held da dn bytes align reply :
  acfg_ok c -> req_ok bytes align -> ainv s ob fl wA wU held da dn -> reply <> None ->
  exists p used s', ar_alloc c s bytes align reply = Some (p, used, s').
Proof.
  intros Hc Hr I Hrep. unfold ar_alloc. destruct (free_avail s <? _).
  - destruct (stash_spec c s ob fl wA wU held da dn Hc I) as (fl1 & wU1 & I1 & S1 & S2 & S3).
    destruct (try_pop_spec (stash c s) ob fl1 wA wU1 held da dn bytes align I1 S1 S2) as (b & s2 & Ep & K).
    unfold alloc_slow. rewrite Ep. cbn [obind]. destruct (negb (b =? 0)); cbn [obind]; [eauto|].
    destruct reply as [(ptr, actual)|]; [|congruence]. cbn [obind]. eauto.
  - cbn [obind]. eauto.
Qed.

Lemma write_ainv s ob fl wA wU held da dn w v r : ainv s ob fl wA wU held da dn ->
  w mod 8 = 0 -> In r held -> (exists x, in_rng r x /\ w <= x < w + 8) -> ainv (ar_write s w v) ob fl wA wU held da dn.
Proof.
  intros I Hw Hr (x & X1 & X2).
  constructor; cbn [ar_write free_area free_avail freelist bytes_allocated bytes_unavailable bytes_nonresident fl_unallocated blocks fl_blocks amem]; try apply I.
  eapply chain_ext; [|apply (i_chain _ _ _ _ _ _ _ _ I)]. intros b Hb.
  pose proof (i_flok _ _ _ _ _ _ _ _ I) as Fo. rewrite Forall_forall in Fo. specialize (Fo b Hb). cbn in Fo.
  assert (K : forall y, in_rng b y -> y = x -> False).
  { intros y Hy ->. apply (chain_nodup_other _ _ _ _ _ _ _ _ b r x I Hb); [rewrite !in_app_iff; tauto|assumption|assumption]. }
  rewrite !upd_other; [auto| |]; intros E; apply (K x ltac:(unfold in_rng; lia) eq_refl).
Qed.

Lemma update_ainv s ob fl wA wU held da dn a n : ainv s ob fl wA wU held da dn ->
  ainv (ar_update s a n) ob fl wA wU held (da + a) (dn + n).
Proof.
  intros I. constructor; cbn [ar_update free_area free_avail freelist bytes_allocated bytes_unavailable bytes_nonresident fl_unallocated blocks fl_blocks amem]; try apply I.
  - rewrite (i_al _ _ _ _ _ _ _ _ I). unfold wrap64. rewrite Z.add_mod_idemp_l by (unfold two64; lia). f_equal. lia.
  - rewrite (i_nr _ _ _ _ _ _ _ _ I). unfold wrap64. rewrite Z.add_mod_idemp_l by (unfold two64; lia). reflexivity.
Qed.

Lemma ainv0 m : ainv (arena0 m) [] [] [] [] [] 0 0.
Proof. constructor; cbn; try reflexivity; try lia; auto. split; [constructor|intros x []]. Qed.

(** Only the multiset of held ranges matters. *)
Lemma ainv_held s ob fl wA wU held held' da dn : Permutation held held' -> ainv s ob fl wA wU held da dn -> ainv s ob fl wA wU held' da dn.
Proof.
  intros P I. constructor; try apply I.
  - rewrite (i_al _ _ _ _ _ _ _ _ I). f_equal. f_equal. f_equal. unfold rsum.
    clear - P. induction P; cbn; lia.
  - etransitivity; [|apply (i_perm _ _ _ _ _ _ _ _ I)]. rewrite !rngs_cons. apply Permutation_app_head. rewrite !rngs_app.
    do 3 apply Permutation_app_head. unfold rngs. apply Permutation_flat_map. symmetry. assumption.
  - destruct (i_pos _ _ _ _ _ _ _ _ I) as (P1 & P2). rewrite !Forall_app in *. destruct P1 as (Q1 & Q2 & Q3). split; [|assumption].
    split; [assumption|]. split; [assumption|]. rewrite Forall_forall in *. intros r Hr. apply Q3. apply (Permutation_in _ (Permutation_sym P)). assumption.
Qed.
