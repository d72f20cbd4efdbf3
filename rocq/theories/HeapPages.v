(** The page heaps of all tags on top of the system allocator: one state machine (page_allocator.h has one
    HugePageAwareAllocator per tag; each gets its memory from the one SystemAllocator). *)
From Coq Require Import Permutation.
From Verif Require Import Base Bitmap BitmapProofs RangeTrackerProofs RangeTrackerProofs2 RangeTrackerProps PageTracker PageTrackerProps HugeRegion HugeRegionProofs HugeRegionProofs2 HugeRegionProps HugeRegionSetProps HintedLists HintedListsProofs Filler FillerProofs FillerProofs2 FillerProofs3 FillerProofs4 FillerProofs6 FillerProps.
From Verif Require Import HugeAddressMap HugeAddressMapProps HugeAllocator HugeAllocatorProps HugeCache HugeCacheProps Hpaa HpaaProofs.
From Verif Require Import HpaaProps FrontApi SysAlloc SysAllocProps.

(** The constants: pages per hugepage, hugepages per region, subrelease, and those of the system allocator. *)
Record bpar := BPar { q_P : Z; q_K : Z; q_sub : bool; q_pg : Z; q_fixed : bool; q_ps : Z; q_mm : Z }.
Definition bpar_ok (q : bpar) : Prop :=
  1 < q_P q /\ 0 < q_K q /\ 0 < q_pg q /\ q_P q * q_pg q = kHuge /\ sys_sizes (q_ps q) (q_mm q).

(** [b_off]: what the system has returned to the calls of a page heap that are in progress, with the number of hugepages asked for. *)
Record back := MkBack {
  b_sys : sysalloc; b_M : list (Z * Z); b_G : list (Z * (Z * Z));
  b_hp : Z -> hpaa; b_L : Z -> list span; b_H : Z -> list hold; b_FL : Z -> list hrange; b_Gt : Z -> list hrange;
  b_off : Z -> list (Z * hrange) }.

(** What the users of the page heaps see: a range handed out (with the length and the alignment asked for), a range given back. *)
Inductive bev := BNone | BGot (t : Z) (s : span) (n al : Z) | BBack (t : Z) (s : span).

(** The steps of a page heap that neither hand out nor take back pages, HpaaProps.v. *)
Inductive hp_quiet (P K : Z) (sub : bool) (a : hpaa) (FL : list hrange) : hpaa -> list hrange -> Prop :=
| q_limit size_min : 0 <= size_min -> hp_quiet P K sub a FL (hp_set_cache a (snd (hc_shrink_limit (hp_cache a) size_min))) FL
| q_take target p r c : 0 <= target -> hc_shrink_take (hp_cache a) target p = Some (Some r, c) -> hp_quiet P K sub a FL (hp_set_cache a c) (r :: FL)
| q_done FL1 r FL2 ok p c : FL = FL1 ++ r :: FL2 -> hc_shrink_done (hp_cache a) r ok p = Some c -> hp_quiet P K sub a FL (hp_set_cache a c) (FL1 ++ FL2)
| q_rel n adaptive subrelease max_cold len_max v ans from_partial skip a' r : 0 <= n -> 0 <= v_size_min v ->
    hp_release P K sub a n adaptive subrelease max_cold len_max v ans from_partial skip a' r -> hp_quiet P K sub a FL a' FL
| q_rel_breaking n adaptive v ans a' r : 0 <= n -> 0 <= v_size_min v -> hp_release_breaking P K sub a n adaptive v ans a' r -> hp_quiet P K sub a FL a' FL
| q_flags k c : hp_quiet P K sub a FL (hp_set_filler a (set_collapsing (set_keep (hp_filler a) k) c)) FL
| q_release_free x os f r : in_filler a x -> handle_release_free P sub (hp_filler a) x os = Some (f, r) -> hp_quiet P K sub a FL (hp_set_filler a f) FL
| q_unbacked x ub f r : in_filler a x -> wf P ub -> handle_unbacked P sub (hp_filler a) x ub = (f, r) -> hp_quiet P K sub a FL (hp_set_filler a f) FL
| q_collapse x : in_filler a x -> hp_quiet P K sub a FL (hp_set_filler a (on_collapse_success P sub (hp_filler a) x)) FL
| q_fetch pr a' : fetch_release a pr = Some a' -> hp_quiet P K sub a FL a' FL.

Lemma quiet_reach P K sub a FL a' FL' L H G : hp_reach P K sub a L H FL G -> hp_quiet P K sub a FL a' FL' -> hp_reach P K sub a' L H FL' G.
Proof.
  intros R Q. destruct Q; subst.
  - apply hp_limit; assumption.
  - eapply hp_take; eassumption.
  - eapply hp_done; eassumption.
  - eapply (hp_rel P K sub a L H FL G n); eauto.
  - eapply (hp_rel_breaking P K sub a L H FL G n); eauto.
  - apply hp_flags; assumption.
  - eapply hp_release_free; eassumption.
  - eapply hp_unbacked; eassumption.
  - apply hp_collapse; assumption.
  - eapply hp_fetch; eassumption.
Qed.

Definition set_hp (b : back) (t : Z) (a : hpaa) (L : list span) (H : list hold) (FL Gt : list hrange) (off : list (Z * hrange)) : back :=
  MkBack (b_sys b) (b_M b) (b_G b) (upd (b_hp b) t a) (upd (b_L b) t L) (upd (b_H b) t H) (upd (b_FL b) t FL) (upd (b_Gt b) t Gt) (upd (b_off b) t off).
Definition set_sys (b : back) (s : sysalloc) (M : list (Z * Z)) (G : list (Z * (Z * Z))) (off : Z -> list (Z * hrange)) : back :=
  MkBack s M G (b_hp b) (b_L b) (b_H b) (b_FL b) (b_Gt b) off.

(** A reply to a request for [n] hugepages is what the system returned for it. *)
Definition offered (off : list (Z * hrange)) (n : Z) (e : henv) : Prop := forall g, e_os e = Some g -> In (n, g) off.

Inductive bstep (q : bpar) : back -> bev -> back -> Prop :=
(* NewAligned *)
| b_alloc b t n align d o er e a' out g L' H' used off' : is_tag t -> 0 < n -> (d = true -> n = 1 /\ align <= 1) ->
    offered (b_off b t) (q_K q) er -> offered (b_off b t) (hl_from_pages (q_P q) n) e ->
    hp_new_aligned (q_P q) (q_K q) (q_sub q) (b_hp b t) n align d o er e = Some (a', out, g) -> settle (b_L b t) (b_H b t) n d o out = (L', H') ->
    Permutation (b_off b t) (used ++ off') -> map snd used = g ->
    bstep q b (match out with ADone p n' don _ => BGot t (Span p n' o don) n (Z.max 1 align) | _ => BNone end)
      (set_hp b t a' L' H' (b_FL b t) (g ++ b_Gt b t) off')
(* its end, if a new hugepage was waited for *)
| b_resume b t H1 h H2 a' p : is_tag t -> b_H b t = H1 ++ h :: H2 ->
    hp_refill_end (q_P q) (q_sub q) (b_hp b t) (h_x h) (h_n h) (h_d h) (h_o h) = Some (a', p) ->
    bstep q b (BGot t (Span p (h_n h) (h_o h) false) (h_n h) 1)
      (set_hp b t a' (Span p (h_n h) (h_o h) false :: b_L b t) (H1 ++ H2) (b_FL b t) (b_Gt b t) (b_off b t))
(* Delete *)
| b_free b t L1 s L2 os osr pr1 pr2 a' : is_tag t -> b_L b t = L1 ++ s :: L2 ->
    hp_delete (q_P q) (q_K q) (q_sub q) (b_hp b t) (sp_page s) (sp_len s) (sp_don s) (sp_obj s) os osr pr1 pr2 = Some a' ->
    bstep q b (BBack t s) (set_hp b t a' (L1 ++ L2) (b_H b t) (b_FL b t) (b_Gt b t) (b_off b t))
| b_quiet b t a' FL' : is_tag t -> hp_quiet (q_P q) (q_K q) (q_sub q) (b_hp b t) (b_FL b t) a' FL' ->
    bstep q b BNone (set_hp b t a' (b_L b t) (b_H b t) FL' (b_Gt b t) (b_off b t))
(* the system is asked by a page heap (AllocationGuard, page_allocator.h; HugeAllocator::AllocateRange, huge_allocator.cc) *)
| b_ask b t n e p bytes s' m : is_tag t -> 0 < n -> n * kHuge < two64 -> kernel_ok (q_fixed q) (b_M b) t e ->
    sys_allocate (q_fixed q) (q_ps q) (q_mm q) (b_sys b) (n * kHuge) kHuge t e = Some (Some (p, bytes), s', m) ->
    bstep q b BNone (set_sys b s' (m ++ b_M b) ((t, (p, bytes)) :: b_G b) (upd (b_off b) t ((n, hugepages_of (p, bytes)) :: b_off b t)))
(* the system is asked by others (the arena), or refuses *)
| b_other b t bytes al e res s' m : is_tag t -> 0 < bytes < two64 -> (al = 0 \/ is_pow2 al) -> al < two64 -> kernel_ok (q_fixed q) (b_M b) t e ->
    sys_allocate (q_fixed q) (q_ps q) (q_mm q) (b_sys b) bytes al t e = Some (res, s', m) ->
    bstep q b BNone (set_sys b s' (m ++ b_M b) (match res with Some r => (t, r) :: b_G b | None => b_G b end) (b_off b))
| b_mmap b t size al e res s' : 0 < size <= 2 ^ 42 -> is_pow2 al -> al <= 2 ^ 42 -> is_tag t -> kernel_ok (q_fixed q) (b_M b) t e ->
    mmap_aligned (q_fixed q) (b_sys b) size al t e = Some (res, s') ->
    bstep q b BNone (set_sys b s' (match res with Some p => (p, size) :: b_M b | None => b_M b end)
      (match res with Some p => (t, (p, size)) :: b_G b | None => b_G b end) (b_off b))
| b_discard b : bstep q b BNone (set_sys b (discard_regions (b_sys b)) (b_M b) (b_G b) (b_off b)).

Definition back_init (t0 : Z -> ptracker) (more_often : bool) : back :=
  MkBack sa_init [] [] (fun _ => hp_init t0 more_often) (fun _ => []) (fun _ => []) (fun _ => []) (fun _ => []) (fun _ => []).

(** ** The invariant *)
Definition from_system (G : list (Z * (Z * Z))) (t : Z) (g : hrange) : Prop :=
  exists r, In (t, r) G /\ g = hugepages_of r /\ (kHuge | fst r) /\ (kHuge | snd r) /\ 0 < fst r.

Record binv (q : bpar) (b : back) : Prop := {
  bi_sys : sa_reach (q_fixed q) (q_ps q) (q_mm q) (b_sys b) (b_M b) (b_G b);
  bi_hp : forall t, is_tag t -> hp_reach (q_P q) (q_K q) (q_sub q) (b_hp b t) (b_L b t) (b_H b t) (b_FL b t) (b_Gt b t);
  bi_from : forall t g, is_tag t -> In g (map snd (b_off b t) ++ b_Gt b t) -> from_system (b_G b) t g;
  bi_len : forall t n g, is_tag t -> In (n, g) (b_off b t) -> n <= snd g;
  bi_disj : forall t, is_tag t -> ForallOrdPairs disj (map snd (b_off b t) ++ b_Gt b t) }.

Lemma kHuge_pos : 0 < kHuge.
Proof. unfold kHuge. lia. Qed.

Lemma fop_perm {A} (R : A -> A -> Prop) : (forall x y, R x y -> R y x) -> forall l l', Permutation l l' -> ForallOrdPairs R l -> ForallOrdPairs R l'.
Proof.
  intros S l l' P. induction P as [|x l l' P IH|x y l|l l' l'' P1 IH1 P2 IH2]; intros H.
  - assumption.
  - inversion H as [|? ? A1 A2]; subst. constructor; [|auto]. rewrite Forall_forall in *. intros z Hz. apply A1. rewrite P. assumption.
  - inversion H as [|? ? A1 A2]; subst. inversion A2 as [|? ? A3 A4]; subst. constructor; [|constructor; [|assumption]].
    + inversion A1; subst. constructor; [apply S; assumption|assumption].
    + inversion A1; subst. assumption.
  - auto.
Qed.

Lemma offered_ok q b t n e : binv q b -> is_tag t -> offered (b_off b t) n e -> os_ok (b_Gt b t) n (e_os e).
Proof.
  intros I Ht Ho g Eg. specialize (Ho g Eg). pose proof kHuge_pos as Hk.
  assert (Hin : In g (map snd (b_off b t))) by (apply in_map_iff; exists (n, g); auto).
  destruct (bi_from _ _ I t g Ht (in_or_app _ _ _ (or_introl Hin))) as (r & R1 & -> & (x & R3) & R4 & R5). unfold hugepages_of. cbn [fst snd].
  split; [rewrite R3 in *; rewrite Z.div_mul by lia; nia|]. split; [apply (bi_len _ _ I t n _ Ht) in Ho; exact Ho|].
  intros p Hp (g' & Hg' & Hp'). pose proof (bi_disj _ _ I t Ht) as D.
  assert (Hd : disj (hugepages_of r) g').
  { clear - D Hin Hg'. induction (map snd (b_off b t)) as [|y l IH]; [destruct Hin|]. cbn [app] in D. inversion D as [|? ? A1 A2]; subst. destruct Hin as [->|Hin].
    - rewrite Forall_forall in A1. apply A1. apply in_or_app. auto.
    - auto. }
  unfold disj, hugepages_of in Hd. unfold in_range in Hp, Hp'. cbn [fst snd] in *. lia.
Qed.

Lemma grant_disj r1 r2 : (kHuge | fst r1) -> (kHuge | snd r1) -> (kHuge | fst r2) -> (kHuge | snd r2) -> disj r1 r2 -> disj (hugepages_of r1) (hugepages_of r2).
Proof.
  pose proof kHuge_pos as Hk. intros (a & Ha) (b & Hb) (c & Hc) (d & Hd) D. unfold disj, hugepages_of in *. cbn [fst snd] in *.
  rewrite Ha, Hb, Hc, Hd in *. rewrite !Z.div_mul by lia. nia.
Qed.

Lemma from_mono G G' t g : (forall x, In x G -> In x G') -> from_system G t g -> from_system G' t g.
Proof. intros H (r & A & B). exists r. auto. Qed.

Lemma bstep_inv q b e b' : bpar_ok q -> binv q b -> bstep q b e b' -> binv q b'.
Proof.
  intros (HP & HK & Hpg & Hkh & Hz) I S. destruct S as [b t n align d o er e a' out g L' H' used off' Ht Hn Hd Hor Ho E Es Hp Hu
    |b t H1 h H2 a' p Ht EH E|b t L1 s L2 os osr pr1 pr2 a' Ht EL E|b t a' FL' Ht Q|b t n e p bytes s' m Ht Hn Hb Ke E
    |b t bytes al e res s' m Ht Hb Ha Ha2 Ke E|b t size al e res s' Hs Ha Ha2 Ht Ke E|b].
  - assert (R : hp_reach (q_P q) (q_K q) (q_sub q) a' L' H' (b_FL b t) (g ++ b_Gt b t)).
    { apply (hp_alloc _ _ _ (b_hp b t) (b_L b t) (b_H b t) (b_FL b t) (b_Gt b t) n align d o er e a' out g L' H'); try assumption; [apply I; assumption|].
      split; eapply offered_ok; eassumption. }
    assert (Pm : Permutation (map snd (b_off b t) ++ b_Gt b t) (map snd off' ++ g ++ b_Gt b t)).
    { rewrite Hp, map_app, Hu, app_assoc. apply Permutation_app_tail, Permutation_app_comm. }
    destruct I as [I1 I2 I3 I4 I5]. constructor; cbn [set_hp b_sys b_M b_G b_hp b_L b_H b_FL b_Gt b_off]; try assumption; intros t'; unfold upd; destruct (Z.eqb_spec t' t) as [->|Hne].
    + intros _. assumption.
    + apply I2.
    + intros x _ Hx. apply I3; [assumption|]. rewrite Pm. assumption.
    + intros x. apply I3.
    + intros n' g' _ Hin. apply (I4 t); [assumption|]. rewrite Hp. apply in_or_app. auto.
    + apply I4.
    + intros _. apply (fop_perm disj disj_sym _ _ Pm). apply I5. assumption.
    + apply I5.
  - pose proof (bi_hp _ _ I t Ht) as R0. rewrite EH in R0. pose proof (hp_resume _ _ _ _ _ _ _ _ _ _ _ _ R0 E) as R.
    destruct I as [I1 I2 I3 I4 I5]. constructor; cbn [set_hp b_sys b_M b_G b_hp b_L b_H b_FL b_Gt b_off]; try assumption; intros t'; unfold upd; destruct (Z.eqb_spec t' t) as [->|Hne]; auto; apply I4.
  - pose proof (bi_hp _ _ I t Ht) as R0. rewrite EL in R0. pose proof (hp_free _ _ _ _ _ _ _ _ _ _ _ _ _ _ _ R0 E) as R.
    destruct I as [I1 I2 I3 I4 I5]. constructor; cbn [set_hp b_sys b_M b_G b_hp b_L b_H b_FL b_Gt b_off]; try assumption; intros t'; unfold upd; destruct (Z.eqb_spec t' t) as [->|Hne]; auto; apply I4.
  - pose proof (quiet_reach _ _ _ _ _ _ _ _ _ _ (bi_hp _ _ I t Ht) Q) as R.
    destruct I as [I1 I2 I3 I4 I5]. constructor; cbn [set_hp b_sys b_M b_G b_hp b_L b_H b_FL b_Gt b_off]; try assumption; intros t'; unfold upd; destruct (Z.eqb_spec t' t) as [->|Hne]; auto; apply I4.
  - destruct I as [I1 I2 I3 I4 I5]. pose proof kHuge_pos as Hk.
    assert (R : sa_reach (q_fixed q) (q_ps q) (q_mm q) s' (m ++ b_M b) ((t, (p, bytes)) :: b_G b)).
    { apply (sr_alloc _ _ _ (b_sys b) (b_M b) (b_G b) (n * kHuge) kHuge t e (Some (p, bytes)) s' m); try assumption; try (unfold kHuge, two64; lia); try (split; [nia|assumption]); right; apply kHuge_pow2. }
    destruct (system_allocate _ _ _ _ _ _ (n * kHuge) kHuge t e Hz I1 ltac:(nia) (or_intror kHuge_pow2) ltac:(unfold kHuge, two64; lia) Ht Ke) as (res & s'' & m' & E' & Hres).
    rewrite E in E'. injection E' as <- <- <-. destruct Hres as (S1 & S2 & S3 & _ & _ & (S6 & S6') & S7). cbn [fst snd] in S6, S6'.
    assert (Hnew : forall t' g, is_tag t' -> In g (map snd (b_off b t') ++ b_Gt b t') -> disj (hugepages_of (p, bytes)) g).
    { intros t' g Ht' Hg. destruct (I3 t' g Ht' Hg) as (r & R1 & -> & R3 & R4 & _). apply grant_disj; try assumption. apply (S7 (t', r) R1). }
    constructor; cbn [set_sys b_sys b_M b_G b_hp b_L b_H b_FL b_Gt b_off]; try assumption.
    + intros t' g Ht'. unfold upd. destruct (Z.eqb_spec t' t) as [->|Hne].
      * cbn [map app snd]. intros [<-|Hg]; [exists (p, bytes); cbn [fst snd]; split; [left; reflexivity|auto 6]|]. apply (from_mono (b_G b)); [right; assumption|]. apply I3; assumption.
      * intros Hg. apply (from_mono (b_G b)); [right; assumption|]. apply I3; assumption.
    + intros t' n' g Ht'. unfold upd. destruct (Z.eqb_spec t' t) as [->|Hne]; [|apply I4; assumption].
      intros [E2|Hin]; [|apply (I4 t); assumption]. injection E2 as <- <-. unfold hugepages_of. cbn [fst snd]. apply Z.div_le_lower_bound; lia.
    + intros t' Ht'. unfold upd. destruct (Z.eqb_spec t' t) as [->|Hne]; [|apply I5; assumption]. cbn [map app snd]. constructor; [|apply I5; assumption].
      apply Forall_forall. intros g Hg. apply (Hnew t); assumption.
  - destruct I as [I1 I2 I3 I4 I5]. constructor; cbn [set_sys b_sys b_M b_G b_hp b_L b_H b_FL b_Gt b_off]; try assumption.
    + eapply sr_alloc; eassumption.
    + intros t' g Ht' Hg. apply (from_mono (b_G b)); [intros ? ?; destruct res; [right|]; assumption|]. apply I3; assumption.
  - destruct I as [I1 I2 I3 I4 I5]. constructor; cbn [set_sys b_sys b_M b_G b_hp b_L b_H b_FL b_Gt b_off]; try assumption.
    + eapply sr_mmap; eassumption.
    + intros t' g Ht' Hg. apply (from_mono (b_G b)); [intros ? ?; destruct res; [right|]; assumption|]. apply I3; assumption.
  - destruct I as [I1 I2 I3 I4 I5]. constructor; cbn [set_sys b_sys b_M b_G b_hp b_L b_H b_FL b_Gt b_off]; try assumption. apply sr_discard. assumption.
Qed.

Lemma back_init_inv q t0 mo : binv q (back_init t0 mo).
Proof.
  constructor; cbn; intros; try contradiction; constructor.
Qed.

(** ** What the users of the page heaps rely on *)
Record bfacts (q : bpar) (b : back) : Prop := {
  bf_pos : forall t s, is_tag t -> In s (b_L b t) -> 0 < sp_len s;
  bf_tag : forall t s, is_tag t -> In s (b_L b t) -> tagged t (bytes (q_pg q) s) /\ user_space (bytes (q_pg q) s);
  bf_same : forall t, is_tag t -> ForallOrdPairs disj (map (bytes (q_pg q)) (b_L b t));
  bf_other : forall t1 t2 x1 x2, is_tag t1 -> is_tag t2 -> t1 <> t2 -> In x1 (b_L b t1) -> In x2 (b_L b t2) ->
    disj (bytes (q_pg q) x1) (bytes (q_pg q) x2) }.

Lemma binv_facts q b : bpar_ok q -> binv q b -> bfacts q b.
Proof.
  intros (HP & HK & Hpg & Hkh & Hz) I. pose proof I as I0. destruct I0 as [I1 I2 I3 I4 I5]. pose proof kHuge_pos as Hk.
  assert (Hsv : forall t, is_tag t -> served_by (b_G b) t (b_Gt b t)).
  { intros t Ht x Hx. unfold hps in Hx. apply in_flat_map in Hx. destruct Hx as (g & Hg & Hx).
    destruct (I3 t g Ht (in_or_app _ _ _ (or_intror Hg))) as (r & R1 & -> & (u & R3) & (v & R4) & R5). exists r. split; [assumption|].
    unfold pages_of, hugepages_of in Hx. cbn [fst snd] in Hx. rewrite R3, R4, !Z.div_mul in Hx by lia. apply zseq_In in Hx. rewrite R3, R4. nia. }
  destruct (page_heaps_together (q_P q) (q_K q) (q_pg q) (q_sub q) (q_fixed q) (q_ps q) (q_mm q) (b_sys b) (b_M b) (b_G b) (b_hp b) (b_L b) (b_H b) (b_FL b) (b_Gt b)
    HP HK Hpg Hkh Hz I1 ltac:(intros t Ht; split; auto)) as (A & B & C).
  constructor; auto. intros t s Ht Hs. destruct (live_ranges_disjoint _ _ _ _ _ _ _ _ HP HK (I2 t Ht)) as (_ & D). apply D. assumption.
Qed.

(** What a step does to the ranges handed out. *)
Definition bev_ok (q : bpar) (b : back) (e : bev) (b' : back) : Prop :=
  match e with
  | BNone => forall t, is_tag t -> b_L b' t = b_L b t
  | BGot t s n al => is_tag t /\ 0 < n /\ al <= q_P q /\ sp_len s = n /\ (1 < al -> (al | q_P q) -> (al | sp_page s)) /\
      Permutation (b_L b' t) (s :: b_L b t) /\ forall t', t' <> t -> b_L b' t' = b_L b t'
  | BBack t s => is_tag t /\ Permutation (b_L b t) (s :: b_L b' t) /\ forall t', t' <> t -> b_L b' t' = b_L b t'
  end.

Lemma bstep_event q b e b' : bpar_ok q -> binv q b -> bstep q b e b' -> bev_ok q b e b'.
Proof.
  intros (HP & HK & Hpg & Hkh & Hz) I S. destruct S as [b t n align d o er e a' out g L' H' used off' Ht Hn Hd Hor Ho E Es Hp Hu
    |b t H1 h H2 a' p Ht EH E|b t L1 s L2 os osr pr1 pr2 a' Ht EL E|b t a' FL' Ht Q|b t n e p bytes s' m Ht Hn Hb Ke E
    |b t bytes al e res s' m Ht Hb Ha Ha2 Ke E|b t size al e res s' Hs Ha Ha2 Ht Ke E|b];
    cbn [bev_ok set_hp set_sys b_L]; try (intros; reflexivity).
  - assert (Hal : align <= q_P q).
    { unfold hp_new_aligned in E. destruct (Z.leb_spec align 1); [lia|]. destruct (Z.leb_spec align (q_P q)); [assumption|discriminate]. }
    destruct (page_allocation _ _ _ _ _ _ _ _ n align d o er e HP HK (bi_hp _ _ I t Ht) Hn Hal Hd) as (a2 & out2 & g2 & E2 & M).
    { split; eapply offered_ok; eassumption. }
    rewrite E in E2. injection E2 as <- <- <-. destruct out as [p n' don fr| |x fr]; cbn [settle] in Es; injection Es as <- <-; cbn [bev_ok set_hp b_L].
    + destruct M as (-> & M2 & _ & _). cbn [sp_len sp_page]. split; [assumption|]. split; [assumption|]. split; [lia|]. split; [reflexivity|].
      split; [intros H1 H2; replace (Z.max 1 align) with align in * by lia; apply M2; [lia|assumption]|]. split; [rewrite upd_same; reflexivity|].
      intros t' Hne. apply upd_other. assumption.
    + intros t' _. unfold upd. destruct (Z.eqb_spec t' t) as [->|]; reflexivity.
    + intros t' _. unfold upd. destruct (Z.eqb_spec t' t) as [->|]; reflexivity.
  - pose proof (bi_hp _ _ I t Ht) as R0. rewrite EH in R0. destruct (page_refill _ _ _ _ _ _ _ _ _ _ HP HK R0) as (a2 & E2 & _ & Hn & _).
    cbn [sp_len sp_page]. split; [assumption|]. split; [lia|]. split; [lia|]. split; [reflexivity|]. split; [lia|]. split; [rewrite upd_same; reflexivity|].
    intros t' Hne. apply upd_other. assumption.
  - split; [assumption|]. rewrite upd_same, EL. split; [symmetry; apply Permutation_middle|]. intros t' Hne. apply upd_other. assumption.
  - intros t' _. unfold upd. destruct (Z.eqb_spec t' t) as [->|]; reflexivity.
Qed.
