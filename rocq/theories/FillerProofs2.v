(** The invariant of the hugepage filler, and its operations one by one. *)
From Coq Require Import Permutation.
From Verif Require Import Base Bitmap BitmapProofs RangeTrackerProofs RangeTrackerProofs2 RangeTrackerProps HintedLists HintedListsProofs PageTracker PageTrackerProps Filler FillerProofs.

(** What holds of a tracker on a list: some run of it is live; those of a hugepage for dense spans
    are single pages; a donated one is not for dense spans, has a free page, and nothing of it is
    released. *)
Record tk_ok (N : Z) (t : ptracker) (live : list (Z * Z * Z)) : Prop := {
  tk_reach : pt_reach N t live;
  tk_live : live <> [];
  tk_dense : pt_dense t = true -> forall r, In r live -> snd (fst r) = 1;
  tk_sparse : pt_donated t = true -> pt_dense t = false;
  tk_donated : pt_donated t = true -> pt_rcount t = 0;
  tk_room : pt_donated t = true -> pt_used t < N }.

Lemma longest_bounds N t live : 0 < N -> pt_reach N t live -> 0 <= pt_longest t <= N.
Proof.
  intros HN H. pose proof (rt_reach_ok N _ _ ltac:(lia) (po_reach _ _ _ (pt_reach_ok N t live HN H))) as Hl.
  destruct (ro_longest _ _ (lo_ok _ _ _ Hl)) as (A & B & _). unfold pt_longest. split; [assumption|].
  destruct (hugepage_runs N t live HN H) as (_ & _ & _ & _ & _ & _ & R & _).
  destruct (Z.eq_dec (pt_longest t) 0) as [E|E]; [unfold pt_longest in E; lia|].
  destruct R as (i & (H1 & H2 & _)); [unfold pt_longest in *; lia|]. unfold pt_longest in *. lia.
Qed.

Lemma length_le_zsum (l : list (Z * Z * Z)) : (forall r, In r l -> 0 < snd (fst r)) -> Z.of_nat (length l) <= zsum (map (fun r => snd (fst r)) l).
Proof.
  induction l as [|r l IH]; intros H; [cbn; lia|]. cbn [length map]. rewrite zsum_cons. pose proof (H r (or_introl eq_refl)).
  assert (Z.of_nat (length l) <= zsum (map (fun r => snd (fst r)) l)) by (apply IH; intros; apply H; right; assumption). lia.
Qed.

Lemma tk_bounds N t live : 0 < N -> tk_ok N t live ->
  0 <= pt_longest t < N /\ 1 <= pt_nallocs t <= N /\ 1 <= pt_used t <= N /\ 0 <= pt_rcount t <= pt_free_pages N t.
Proof.
  intros HN [R L D S Q V]. pose proof (longest_bounds N t live HN R) as B.
  destruct (hugepage_runs N t live HN R) as (_ & H2 & H3 & _ & H5 & _ & _ & _ & _ & H10).
  destruct (released_pages_exact N t live HN R) as (_ & _ & H4 & _).
  assert (pt_longest t <> N).
  { intros E. apply L. apply H10. unfold pt_fully_freed. lia. }
  pose proof (length_le_zsum live) as HL. destruct live as [|r0 l0]; [congruence|].
  assert (Z.of_nat (length (r0 :: l0)) <= pt_used t) by (rewrite H3; apply HL; intros r Hr; apply H2; assumption).
  cbn [length] in *. unfold pt_free_pages in *. lia.
Qed.

Lemma log2_double na : 1 <= na -> Z.log2 (2 * na - 1) = Z.log2_up na.
Proof.
  intros H. destruct (Z.eq_dec na 1) as [->|Hne]; [reflexivity|]. rewrite Z.log2_up_eqn by lia.
  replace (2 * na - 1) with (2 * Z.pred na + 1) by lia. rewrite Z.log2_succ_double by lia. reflexivity.
Qed.
Lemma index_for_spec t : 1 <= pt_nallocs t -> index_for t = if pt_dense t then 0 else 7 - Z.min 7 (Z.log2_up (pt_nallocs t)).
Proof.
  intros H. unfold index_for. destruct (pt_dense t); [reflexivity|]. unfold clz64. rewrite log2_double by assumption.
  change (Z.log2 1) with 0. unfold k_chunks. lia.
Qed.
Lemma index_for_bounds t : 1 <= pt_nallocs t -> 0 <= index_for t < 8.
Proof.
  intros H. rewrite index_for_spec by assumption. destruct (pt_dense t); [lia|]. pose proof (Z.log2_up_nonneg (pt_nallocs t)). lia.
Qed.

Lemma tk_range N sub t live : 0 < N -> tk_ok N t live -> 0 <= pidx N t < nlists N (kind N sub t).
Proof.
  intros HN K. destruct (tk_bounds N t live HN K) as (B1 & B2 & _). pose proof (index_for_bounds t ltac:(lia)).
  unfold pidx, kind. destruct (pt_donated t); [cbn [nlists]; lia|].
  assert (0 <= list_for N (pt_longest t) (index_for t) (pt_dense t) (pt_nallocs t) < N * k_chunks).
  { unfold list_for. destruct (pt_dense t) eqn:E; unfold k_chunks; [|lia]. unfold index_for. rewrite E. lia. }
  destruct (negb (pt_released t) && (pt_unbroken t || negb sub)); [assumption|]. destruct (pt_free_pages N t <=? pt_rcount t); assumption.
Qed.

Definition g_alloc (d : bool) (t : ptracker) : Z := if Bool.eqb (pt_dense t) d then pt_used t else 0.
Definition g_was (d : bool) (t : ptracker) : Z := if pt_was_released t && Bool.eqb (pt_dense t) d then 1 else 0.

Record fl_ok (N : Z) (sub : bool) (f : filler) (own : list Z) (lv : Z -> list (Z * Z * Z)) : Prop := {
  fo_lists : flists_ok N sub f own;
  fo_tk : forall x, In x own -> tk_ok N (fl_tr f x) (lv x);
  fo_size : fl_size f = Z.of_nat (length own);
  fo_alloc : forall d, fl_alloc f d = tsum (g_alloc d) (fl_tr f) own;
  fo_unmapped : fl_unmapped f = tsum pt_rcount (fl_tr f) own;
  fo_was : forall d, fl_was_rel f d = tsum (g_was d) (fl_tr f) own;
  fo_unacc : 0 <= fl_unaccounted f;
  fo_nodup : NoDup (fl_freed f);
  fo_freed : forall x, In x (fl_freed f) -> ~ In x own /\ pt_reach N (fl_tr f x) [] }.

Lemma fo_own N sub f own lv : fl_ok N sub f own lv -> NoDup own.
Proof. intros H. exact (lk_own _ _ _ _ _ _ _ (fo_lists _ _ _ _ _ H)). Qed.

(** What taking a tracker off its list leaves alone. *)
Lemma fl_remove_fields N sub f x : let f' := fl_remove N sub f x in
  fl_tr f' = fl_tr f /\ fl_freed f' = fl_freed f /\ fl_size f' = fl_size f /\ fl_alloc f' = fl_alloc f /\ fl_unmapped f' = fl_unmapped f /\
  fl_unaccounted f' = fl_unaccounted f /\ fl_was_rel f' = fl_was_rel f /\ fl_keep f' = fl_keep f /\ fl_collapsing f' = fl_collapsing f.
Proof. cbv zeta. rewrite fl_remove_eq. unfold take_off. destruct (kind N sub (fl_tr f x)); repeat split; reflexivity. Qed.
Lemma put_on_fields f k i x : let f' := put_on f k i x in
  fl_tr f' = fl_tr f /\ fl_freed f' = fl_freed f /\ fl_size f' = fl_size f /\ fl_alloc f' = fl_alloc f /\ fl_unmapped f' = fl_unmapped f /\
  fl_unaccounted f' = fl_unaccounted f /\ fl_was_rel f' = fl_was_rel f /\ fl_keep f' = fl_keep f /\ fl_collapsing f' = fl_collapsing f.
Proof. cbv zeta. unfold put_on. destruct k; repeat split; reflexivity. Qed.
Lemma fl_add_fields N sub f x : pt_longest (fl_tr f x) <> N -> let f' := fl_add N sub f x in
  fl_tr f' = upd (fl_tr f) x (pt_set_donated (fl_tr f x) false) /\ fl_freed f' = fl_freed f /\ fl_size f' = fl_size f /\ fl_alloc f' = fl_alloc f /\
  fl_unmapped f' = fl_unmapped f /\ fl_unaccounted f' = fl_unaccounted f /\ fl_was_rel f' = fl_was_rel f /\ fl_keep f' = fl_keep f /\
  fl_collapsing f' = fl_collapsing f.
Proof.
  intros H. cbv zeta. rewrite fl_add_eq by assumption. 
  destruct (put_on_fields (put_tracker f x (pt_set_donated (fl_tr f x) false)) (kind N sub (pt_set_donated (fl_tr f x) false))
    (pidx N (pt_set_donated (fl_tr f x) false)) x) as (E1 & E2 & E3 & E4 & E5 & E6 & E7 & E8 & E9).
  rewrite E1, E2, E3, E4, E5, E6, E7, E8, E9. repeat split; reflexivity.
Qed.

Lemma upd_upd_at {A} (f : Z -> A) x a b y : upd (upd f x a) x b y = upd f x b y.
Proof. unfold upd. destruct (y =? x); reflexivity. Qed.

(** Put a tracker that is on no list on the one where it belongs. *)
Lemma add_ok N sub f own x live : 0 < N -> flists_ok N sub f own -> ~ In x own -> tk_ok N (pt_set_donated (fl_tr f x) false) live ->
  flists_ok N sub (fl_add N sub f x) (x :: own).
Proof.
  intros HN H Hx K. destruct (tk_bounds N _ _ HN K) as (B & _). change (pt_longest (pt_set_donated (fl_tr f x) false)) with (pt_longest (fl_tr f x)) in B.
  rewrite fl_add_eq by lia. set (t := pt_set_donated (fl_tr f x) false) in *. set (g := put_tracker f x t).
  assert (E : fl_tr g x = t) by (unfold g; cbn; apply upd_same).
  assert (Hg : flists_ok N sub g own) by (apply lists_ok_out; assumption).
  pose proof (put_on_ok N sub g own x Hg Hx) as P. rewrite E in P. apply P. exact (tk_range N sub t live HN K).
Qed.

Lemma remove_ok N sub f own x : flists_ok N sub f own -> In x own -> flists_ok N sub (fl_remove N sub f x) (rem1 x own).
Proof. intros H Hx. rewrite fl_remove_eq. apply take_off_ok; assumption. Qed.

(** Off its list, changed, and back. *)
Lemma relist_ok N sub f own x g t live : 0 < N -> flists_ok N sub f own -> In x own ->
  fl_lists g = fl_lists (fl_remove N sub f x) -> fl_used_rel g = fl_used_rel (fl_remove N sub f x) ->
  fl_used_part g = fl_used_part (fl_remove N sub f x) -> fl_tr g = upd (fl_tr f) x t ->
  tk_ok N (pt_set_donated t false) live ->
  flists_ok N sub (fl_add N sub g x) own.
Proof.
  intros HN H Hx E1 E2 E3 E4 K. pose proof (remove_ok N sub f own x H Hx) as H1.
  destruct (rem1_NoDup x own (lk_own _ _ _ _ _ _ _ H)) as (_ & Nx).
  assert (Hg : flists_ok N sub g (rem1 x own)).
  { unfold flists_ok in *. rewrite E1, E2, E3, E4. apply lists_ok_out; [|assumption].
    rewrite (proj1 (fl_remove_fields N sub f x)) in H1. exact H1. }
  assert (Et : fl_tr g x = t) by (rewrite E4; apply upd_same).
  rewrite <- Et in K. apply (lists_ok_perm _ _ _ _ _ _ (x :: rem1 x own)); [|symmetry; apply rem1_perm; assumption].
  exact (add_ok N sub g (rem1 x own) x live HN Hg Nx K).
Qed.

(** The general step on one tracker: it is changed into [t'] while off its list, and the totals
    change by what the tracker does. *)
Lemma step_ok N sub f own lv x g t t' live : 0 < N -> fl_ok N sub f own lv -> In x own ->
  fl_lists g = fl_lists (fl_remove N sub f x) -> fl_used_rel g = fl_used_rel (fl_remove N sub f x) ->
  fl_used_part g = fl_used_part (fl_remove N sub f x) -> fl_tr g = upd (fl_tr f) x t ->
  t' = pt_set_donated t false ->
  tk_ok N t' live ->
  fl_size g = fl_size f -> fl_freed g = fl_freed f -> 0 <= fl_unaccounted g ->
  (forall d, fl_alloc g d = fl_alloc f d - g_alloc d (fl_tr f x) + g_alloc d t') ->
  fl_unmapped g = fl_unmapped f - pt_rcount (fl_tr f x) + pt_rcount t' ->
  (forall d, fl_was_rel g d = fl_was_rel f d - g_was d (fl_tr f x) + g_was d t') ->
  fl_ok N sub (fl_add N sub g x) own (upd lv x live) /\ forall y, fl_tr (fl_add N sub g x) y = upd (fl_tr f) x t' y.
Proof.
  intros HN Ok Hx E1 E2 E3 E4 Et' K S1 S2 S3 S4 S5 S6. subst t'.
  destruct (tk_bounds N _ _ HN K) as (B & _). change (pt_longest (pt_set_donated t false)) with (pt_longest t) in B.
  assert (Et : fl_tr g x = t) by (rewrite E4; apply upd_same).
  destruct (fl_add_fields N sub g x ltac:(rewrite Et; lia)) as (F1 & F2 & F3 & F4 & F5 & F6 & F7 & F8 & F9).
  rewrite Et in F1. set (t' := pt_set_donated t false) in *.
  assert (F0 : forall y, fl_tr (fl_add N sub g x) y = upd (fl_tr f) x t' y) by (intros y; rewrite F1, E4; apply upd_upd_at).
  assert (F0s : forall h, tsum h (fl_tr (fl_add N sub g x)) own = tsum h (upd (fl_tr f) x t') own) by (intros h; apply tsum_ext; intros y _; rewrite F0; reflexivity).
  clear F1. split; [|assumption].
  pose proof (fo_own _ _ _ _ _ Ok) as ND. constructor.
  - exact (relist_ok N sub f own x g t live HN (fo_lists _ _ _ _ _ Ok) Hx E1 E2 E3 E4 K).
  - intros y Hy. rewrite F0. unfold upd. destruct (Z.eqb_spec y x) as [->|Hne]; [assumption|]. apply (fo_tk _ _ _ _ _ Ok). assumption.
  - rewrite F3, S1. apply (fo_size _ _ _ _ _ Ok).
  - intros d. rewrite F0s, F4, S4, (fo_alloc _ _ _ _ _ Ok), tsum_change by assumption. reflexivity.
  - rewrite F0s, F5, S5, (fo_unmapped _ _ _ _ _ Ok), tsum_change by assumption. reflexivity.
  - intros d. rewrite F0s, F7, S6, (fo_was _ _ _ _ _ Ok), tsum_change by assumption. reflexivity.
  - rewrite F6. assumption.
  - rewrite F2, S2. apply (fo_nodup _ _ _ _ _ Ok).
  - intros y Hy. rewrite F2, S2 in Hy. destruct (fo_freed _ _ _ _ _ Ok y Hy) as (A1 & A2). split; [assumption|].
    rewrite F0, upd_other; [assumption|]. intros ->. contradiction.
Qed.

(** A flag that does not matter for its list may be set. *)
Lemma was_ok N sub f own lv x b w : fl_ok N sub f own lv -> In x own ->
  (forall d, w d = fl_was_rel f d - g_was d (fl_tr f x) + g_was d (pt_set_was_released (fl_tr f x) b)) ->
  fl_ok N sub (set_was_rel (put_tracker f x (pt_set_was_released (fl_tr f x) b)) w) own lv.
Proof.
  intros Ok Hx Hw. pose proof (fo_own _ _ _ _ _ Ok) as ND. destruct Ok as [A1 A2 A3 A4 A5 A6 A7 A8 A9].
  constructor; cbn [fl_tr fl_size fl_alloc fl_unmapped fl_was_rel fl_unaccounted fl_freed set_was_rel put_tracker set_tr]; try assumption.
  - apply (lists_ok_tr _ _ _ _ _ _ _ _ A1). intros y Hy. cbn [fl_tr set_was_rel put_tracker set_tr]. unfold upd.
    destruct (Z.eqb_spec y x) as [->|Hne]; auto.
  - intros y Hy. unfold upd. destruct (Z.eqb_spec y x) as [->|Hne]; [|auto]. destruct (A2 x Hx) as [R L D S Q V].
    constructor; [apply pr_was_released; assumption|assumption|exact D|exact S|exact Q|exact V].
  - intros d. rewrite A4, tsum_change by assumption. change (g_alloc d (pt_set_was_released (fl_tr f x) b)) with (g_alloc d (fl_tr f x)). lia.
  - rewrite A5, tsum_change by assumption. change (pt_rcount (pt_set_was_released (fl_tr f x) b)) with (pt_rcount (fl_tr f x)). lia.
  - intros d. rewrite Hw, A6, tsum_change by assumption. reflexivity.
  - intros y Hy. destruct (A9 y Hy) as (B1 & B2). split; [assumption|]. rewrite upd_other; [assumption|]. intros ->. contradiction.
Qed.

(** ** The choice of a hugepage *)

Lemma get_least_ok N sub f own k li : 0 < N -> flists_ok N sub f own -> 0 <= li < nlists N k ->
  exists r l, hl_get_least (nlists N k) (fl_lists f k) li = Some (r, l) /\
  match r with
  | None => l = fl_lists f k /\ forall y, In y own -> kind N sub (fl_tr f y) = k -> pidx N (fl_tr f y) < li
  | Some x => In x own /\ kind N sub (fl_tr f x) = k /\ li <= pidx N (fl_tr f x) /\
      (forall y, In y own -> kind N sub (fl_tr f y) = k -> li <= pidx N (fl_tr f y) -> pidx N (fl_tr f x) <= pidx N (fl_tr f y)) /\
      l = hl_remove (fl_lists f k) x (pidx N (fl_tr f x))
  end.
Proof.
  intros HN [Ok Nd In_ Own Rg Rl Pt] Hli. destruct (hl_get_spec _ _ li (Ok k) Hli) as (r & l & E & Hr). exists r, l. split; [assumption|].
  destruct r as [x|].
  - destruct Hr as (i & Hi & (l0 & El) & Hmin & ->).
    assert (Hin : In x (hl (fl_lists f k) i)) by (rewrite El; left; reflexivity).
    apply In_ in Hin; [|lia]. destruct Hin as (H1 & H2 & H3). rewrite H3. repeat split; auto; [lia|].
    intros y Hy Ky Ly. destruct (Z_lt_ge_dec (pidx N (fl_tr f y)) i) as [Hlt|]; [|lia].
    specialize (Hmin (pidx N (fl_tr f y)) ltac:(lia)). pose proof (Rg y Hy) as Ry. rewrite Ky in Ry.
    assert (Hin : In y (hl (fl_lists f k) (pidx N (fl_tr f y)))) by (apply In_; auto). rewrite Hmin in Hin. destruct Hin.
  - destruct Hr as (-> & Hmin). split; [reflexivity|]. intros y Hy Ky. pose proof (Rg y Hy) as Ry. rewrite Ky in Ry.
    destruct (Z_lt_ge_dec (pidx N (fl_tr f y)) li) as [|Hge]; [assumption|].
    assert (Hin : In y (hl (fl_lists f k) (pidx N (fl_tr f y)))) by (apply In_; auto). rewrite Hmin in Hin by lia. destruct Hin.
Qed.

Lemma dense_used N t live : 0 < N -> tk_ok N t live -> pt_dense t = true -> pt_used t = pt_nallocs t.
Proof.
  intros HN [R L D S Q V] Hd. destruct (hugepage_runs N t live HN R) as (_ & _ & H3 & _ & H5 & _). rewrite H3, H5. specialize (D Hd). clear -D.
  induction live as [|r l IH]; [reflexivity|]. cbn [map length]. rewrite zsum_cons, IH by (intros; apply D; right; assumption). rewrite (D r) by (left; reflexivity). lia.
Qed.

Lemma free_page_longest N t live : 0 < N -> pt_reach N t live -> pt_used t < N -> 1 <= pt_longest t.
Proof.
  intros HN R U. pose proof (rt_reach_ok N _ _ ltac:(lia) (po_reach _ _ _ (pt_reach_ok N t live HN R))) as Hl.
  destruct (ro_longest _ _ (lo_ok _ _ _ Hl)) as (_ & _ & B). pose proof (ro_used _ _ (lo_ok _ _ _ Hl)) as C. unfold pt_used, pt_longest in *.
  destruct (existsb (fun j => negb (bit (rt_bits (pt_free t)) j)) (zseq 0 (Z.to_nat N))) eqn:E.
  - apply existsb_exists in E. destruct E as (j & Hj & Ej). apply zseq_In in Hj. apply (B j 1). split; [lia|]. split; [lia|]. intros k Hk.
    replace k with j by lia. destruct (bit (rt_bits (pt_free t)) j); [discriminate|reflexivity].
  - exfalso. rewrite (zcount_all (bit (rt_bits (pt_free t)))) in C; [lia|]. intros j Hj.
    destruct (bit (rt_bits (pt_free t)) j) eqn:Eb; [reflexivity|].
    assert (existsb (fun j => negb (bit (rt_bits (pt_free t)) j)) (zseq 0 (Z.to_nat N)) = true); [|congruence].
    apply existsb_exists. exists j. split; [apply zseq_In; lia|]. rewrite Eb. reflexivity.
Qed.
Lemma full_longest N t live : 0 < N -> pt_reach N t live -> N <= pt_used t -> pt_longest t = 0.
Proof.
  intros HN R U. pose proof (longest_bounds N t live HN R) as B. destruct (Z.eq_dec (pt_longest t) 0) as [|Hne]; [assumption|]. exfalso.
  pose proof (rt_reach_ok N _ _ ltac:(lia) (po_reach _ _ _ (pt_reach_ok N t live HN R))) as Hl.
  destruct (ro_longest _ _ (lo_ok _ _ _ Hl)) as (_ & (i & H1 & H2 & H3) & _). pose proof (ro_used _ _ (lo_ok _ _ _ Hl)) as C. unfold pt_used, pt_longest in *.
  pose proof (zcount_bound (bit (rt_bits (pt_free t))) (Z.to_nat N) 0) as Zb.
  assert (Hf : zcount (bit (rt_bits (pt_free t))) 0 (Z.to_nat N) = Z.of_nat (Z.to_nat N)) by lia.
  pose proof (zcount_full_inv _ _ _ Hf i ltac:(lia)) as Hi. rewrite H3 in Hi by lia. discriminate.
Qed.

(** Whether the search can use a hugepage shows in its index. *)
Lemma eligible_index N t live n d : 0 < N -> tk_ok N t live -> pt_dense t = d -> pt_donated t = false -> 0 < n < N -> (d = true -> n = 1) ->
  (list_for N n 0 d (N - 1) <= pidx N t <-> n <= pt_longest t).
Proof.
  intros HN K Hd Hdon Hn H1. destruct (tk_bounds N t live HN K) as (B1 & B2 & _). pose proof (index_for_bounds t ltac:(lia)) as Bi.
  unfold pidx. rewrite Hdon. unfold list_for. rewrite Hd. destruct d.
  - pose proof (dense_used N t live HN K Hd) as Eu. pose proof (free_page_longest N t live HN (tk_reach _ _ _ K)) as F.
    pose proof (full_longest N t live HN (tk_reach _ _ _ K)) as G. rewrite index_for_spec, Hd by lia. rewrite (H1 eq_refl). unfold k_chunks. lia.
  - unfold k_chunks. lia.
Qed.

Definition rank (k : lk) : Z := match k with LReg _ => 0 | LDon => 1 | LPart _ => 2 | LRel _ => 3 end.

Lemma kind_dense N sub t d : kind N sub t = LReg d \/ kind N sub t = LPart d \/ kind N sub t = LRel d -> pt_dense t = d /\ pt_donated t = false.
Proof.
  unfold kind. destruct (pt_donated t); [intros [H|[H|H]]; discriminate|].
  destruct (negb (pt_released t) && (pt_unbroken t || negb sub)); [|destruct (pt_free_pages N t <=? pt_rcount t)]; intros [H|[H|H]]; try discriminate; injection H as ->; auto.
Qed.
Lemma kind_cases N sub t d : pt_dense t = d -> (pt_donated t = true -> pt_dense t = false) ->
  kind N sub t = LReg d \/ (d = false /\ pt_donated t = true /\ kind N sub t = LDon) \/ kind N sub t = LPart d \/ kind N sub t = LRel d.
Proof.
  intros <- H. unfold kind. destruct (pt_donated t); [right; left; auto|].
  destruct (negb (pt_released t) && (pt_unbroken t || negb sub)); [auto|destruct (pt_free_pages N t <=? pt_rcount t)]; auto.
Qed.

Lemma choose_ok N sub f own lv n d : 0 < N -> fl_ok N sub f own lv -> 0 < n < N -> (d = true -> n = 1) ->
  exists f' c, choose_tracker N f n d = Some (f', c) /\
  match c with
  | None => f' = f /\ forall y, In y own -> pt_dense (fl_tr f y) = d -> pt_longest (fl_tr f y) < n
  | Some (x, b) => In x own /\ f' = fl_remove N sub f x /\ pt_dense (fl_tr f x) = d /\ n <= pt_longest (fl_tr f x) /\
      (b = true <-> 2 <= rank (kind N sub (fl_tr f x))) /\
      forall y, In y own -> pt_dense (fl_tr f y) = d -> n <= pt_longest (fl_tr f y) ->
        rank (kind N sub (fl_tr f x)) <= rank (kind N sub (fl_tr f y)) /\
        (rank (kind N sub (fl_tr f x)) = rank (kind N sub (fl_tr f y)) -> pidx N (fl_tr f x) <= pidx N (fl_tr f y))
  end.
Proof.
  intros HN Ok Hn H1. pose proof (fo_lists _ _ _ _ _ Ok) as HL. pose proof (fo_tk _ _ _ _ _ Ok) as TK.
  set (li := list_for N n 0 d (N - 1)).
  assert (Hli : 0 <= li < N * k_chunks) by (unfold li, list_for, k_chunks; destruct d; lia).
  assert (Hel : forall k y, In y own -> k = LReg d \/ k = LPart d \/ k = LRel d -> kind N sub (fl_tr f y) = k -> (li <= pidx N (fl_tr f y) <-> n <= pt_longest (fl_tr f y))).
  { intros k y Hy Hk Ky. destruct (kind_dense N sub (fl_tr f y) d) as (D1 & D2); [rewrite Ky; destruct Hk as [->|[->| ->]]; auto|].
    exact (eligible_index N _ _ n d HN (TK y Hy) D1 D2 Hn H1). }
  assert (Hdon : forall y, kind N sub (fl_tr f y) = LDon -> pidx N (fl_tr f y) = pt_longest (fl_tr f y)).
  { intros y. unfold kind, pidx. destruct (pt_donated (fl_tr f y)); [reflexivity|].
    destruct (negb (pt_released (fl_tr f y)) && (pt_unbroken (fl_tr f y) || negb sub)); [discriminate|]. destruct (pt_free_pages N (fl_tr f y) <=? pt_rcount (fl_tr f y)); discriminate. }
  assert (Hcase : forall y, In y own -> pt_dense (fl_tr f y) = d -> kind N sub (fl_tr f y) = LReg d \/ (d = false /\ kind N sub (fl_tr f y) = LDon) \/ kind N sub (fl_tr f y) = LPart d \/ kind N sub (fl_tr f y) = LRel d).
  { intros y Hy Hd. destruct (kind_cases N sub (fl_tr f y) d Hd (tk_sparse _ _ _ (TK y Hy))) as [H|[(A & _ & B)|H]]; auto. }
  (* what a tracker found in the array [k] gives *)
  assert (Hfound : forall k x l b f', k = LReg d \/ (d = false /\ k = LDon) \/ k = LPart d \/ k = LRel d ->
    In x own -> kind N sub (fl_tr f x) = k -> n <= pt_longest (fl_tr f x) ->
    l = hl_remove (fl_lists f k) x (pidx N (fl_tr f x)) ->
    (forall y, In y own -> pt_dense (fl_tr f y) = d -> n <= pt_longest (fl_tr f y) ->
        rank k <= rank (kind N sub (fl_tr f y)) /\ (rank k = rank (kind N sub (fl_tr f y)) -> pidx N (fl_tr f x) <= pidx N (fl_tr f y))) ->
    (b = true <-> 2 <= rank k) -> f' = take_off f k (pidx N (fl_tr f x)) x ->
    exists f'' c, Some (f', Some (x, b)) = Some (f'', c) /\
      match c with
      | None => f'' = f /\ forall y, In y own -> pt_dense (fl_tr f y) = d -> pt_longest (fl_tr f y) < n
      | Some (x, b) => In x own /\ f'' = fl_remove N sub f x /\ pt_dense (fl_tr f x) = d /\ n <= pt_longest (fl_tr f x) /\
          (b = true <-> 2 <= rank (kind N sub (fl_tr f x))) /\
          forall y, In y own -> pt_dense (fl_tr f y) = d -> n <= pt_longest (fl_tr f y) ->
            rank (kind N sub (fl_tr f x)) <= rank (kind N sub (fl_tr f y)) /\
            (rank (kind N sub (fl_tr f x)) = rank (kind N sub (fl_tr f y)) -> pidx N (fl_tr f x) <= pidx N (fl_tr f y))
      end).
  { intros k x l b f' Hk Hx Kx Lx _ Hpref Hb Hf'. exists f', (Some (x, b)). split; [reflexivity|]. rewrite Kx, fl_remove_eq, Kx.
    repeat match goal with |- _ /\ _ => split end; auto.
    destruct Hk as [->|[(-> & ->)|Hk]].
    - apply (kind_dense N sub (fl_tr f x) d). auto.
    - unfold kind in Kx. pose proof (tk_sparse _ _ _ (TK x Hx)) as S. destruct (pt_donated (fl_tr f x)); [auto|].
      destruct (negb (pt_released (fl_tr f x)) && (pt_unbroken (fl_tr f x) || negb sub)); [discriminate|]. destruct (pt_free_pages N (fl_tr f x) <=? pt_rcount (fl_tr f x)); discriminate.
    - apply (kind_dense N sub (fl_tr f x) d). destruct Hk as [->| ->]; auto. }
  unfold choose_tracker. fold li.
  destruct (get_least_ok N sub f own (LReg d) li HN HL Hli) as (r & l & E & Hr). rewrite E. cbn [obind]. clear E.
  destruct r as [x|].
  { destruct Hr as (Hx & Kx & Lx & Mx & El). refine (Hfound (LReg d) x l _ _ _ Hx Kx _ El _ _ _); auto.
    - apply (Hel (LReg d)); auto.
    - intros y Hy Hd Hny. destruct (Hcase y Hy Hd) as [Ky|[(Hd0 & Ky)|[Ky|Ky]]]; rewrite Ky; cbn [rank]; split;
        first [lia | specialize (Hreg y Hy Ky); lia | specialize (Hdonl y Hy Hd0 Ky); lia | specialize (Hpart y Hy Ky); lia | intros _; apply Mx; [assumption|assumption|first [assumption | refine (proj2 (Hel _ y Hy _ Ky) Hny); auto]]].
    - cbn [rank]. split; [discriminate|lia].
    - unfold take_off. rewrite El. reflexivity. }
  destruct Hr as (El & Nreg). clear l El.
  assert (Hreg : forall y, In y own -> kind N sub (fl_tr f y) = LReg d -> pt_longest (fl_tr f y) < n).
  { intros y Hy Ky. specialize (Nreg y Hy Ky). pose proof (Hel (LReg d) y Hy (or_introl eq_refl) Ky). lia. }
  assert (Hdonated : exists r l, (if d then Some (None, fl_lists f LDon) else hl_get_least (nlists N LDon) (fl_lists f LDon) n) = Some (r, l) /\
    match r with
    | None => forall y, In y own -> d = false -> kind N sub (fl_tr f y) = LDon -> pt_longest (fl_tr f y) < n
    | Some x => d = false /\ In x own /\ kind N sub (fl_tr f x) = LDon /\ n <= pt_longest (fl_tr f x) /\
        (forall y, In y own -> kind N sub (fl_tr f y) = LDon -> n <= pt_longest (fl_tr f y) -> pidx N (fl_tr f x) <= pidx N (fl_tr f y)) /\
        l = hl_remove (fl_lists f LDon) x (pidx N (fl_tr f x))
    end).
  { destruct d; [exists None, (fl_lists f LDon); split; [reflexivity|]; intros; discriminate|].
    destruct (get_least_ok N sub f own LDon n HN HL ltac:(cbn [nlists]; lia)) as (r & l & E & Hr). exists r, l. split; [assumption|]. destruct r as [x|].
    - destruct Hr as (Hx & Kx & Lx & Mx & El). rewrite (Hdon x Kx) in Lx. repeat match goal with |- _ /\ _ => split end; auto.
      intros y Hy Ky Ly. apply Mx; auto. rewrite (Hdon y Ky). assumption.
    - intros y Hy _ Ky. destruct Hr as (_ & Hr). specialize (Hr y Hy Ky). rewrite (Hdon y Ky) in Hr. assumption. }
  destruct Hdonated as (r & l & E & Hr). rewrite E. cbn [obind]. clear E.
  destruct r as [x|].
  { destruct Hr as (Hd0 & Hx & Kx & Lx & Mx & El). refine (Hfound LDon x l _ _ _ Hx Kx Lx El _ _ _); auto.
    - intros y Hy Hd Hny. destruct (Hcase y Hy Hd) as [Ky|[(_ & Ky)|[Ky|Ky]]]; rewrite Ky; cbn [rank]; split;
        first [lia | specialize (Hreg y Hy Ky); lia | specialize (Hdonl y Hy Hd0 Ky); lia | specialize (Hpart y Hy Ky); lia | intros _; apply Mx; [assumption|assumption|first [assumption | refine (proj2 (Hel _ y Hy _ Ky) Hny); auto]]].
    - cbn [rank]. split; [discriminate|lia].
    - unfold take_off. rewrite El. reflexivity. }
  rename Hr into Hdonl. clear l.
  destruct (get_least_ok N sub f own (LPart d) li HN HL Hli) as (r & l & E & Hr). rewrite E. cbn [obind]. clear E.
  destruct r as [x|].
  { destruct Hr as (Hx & Kx & Lx & Mx & El). refine (Hfound (LPart d) x l _ _ _ Hx Kx _ El _ _ _); auto.
    - apply (Hel (LPart d)); auto.
    - intros y Hy Hd Hny. destruct (Hcase y Hy Hd) as [Ky|[(Hd0 & Ky)|[Ky|Ky]]]; rewrite Ky; cbn [rank]; split;
        first [lia | specialize (Hreg y Hy Ky); lia | specialize (Hdonl y Hy Hd0 Ky); lia | specialize (Hpart y Hy Ky); lia | intros _; apply Mx; [assumption|assumption|first [assumption | refine (proj2 (Hel _ y Hy _ Ky) Hny); auto]]].
    - cbn [rank]. split; [lia|reflexivity].
    - unfold take_off. rewrite El. reflexivity. }
  destruct Hr as (El & Npart). clear l El.
  assert (Hpart : forall y, In y own -> kind N sub (fl_tr f y) = LPart d -> pt_longest (fl_tr f y) < n).
  { intros y Hy Ky. specialize (Npart y Hy Ky). pose proof (Hel (LPart d) y Hy ltac:(auto) Ky). lia. }
  destruct (get_least_ok N sub f own (LRel d) li HN HL Hli) as (r & l & E & Hr). rewrite E. cbn [obind]. clear E.
  destruct r as [x|].
  { destruct Hr as (Hx & Kx & Lx & Mx & El). refine (Hfound (LRel d) x l _ _ _ Hx Kx _ El _ _ _); auto.
    - apply (Hel (LRel d)); auto.
    - intros y Hy Hd Hny. destruct (Hcase y Hy Hd) as [Ky|[(Hd0 & Ky)|[Ky|Ky]]]; rewrite Ky; cbn [rank]; split;
        first [lia | specialize (Hreg y Hy Ky); lia | specialize (Hdonl y Hy Hd0 Ky); lia | specialize (Hpart y Hy Ky); lia | intros _; apply Mx; [assumption|assumption|first [assumption | refine (proj2 (Hel _ y Hy _ Ky) Hny); auto]]].
    - cbn [rank]. split; [lia|reflexivity].
    - unfold take_off. rewrite El. reflexivity. }
  destruct Hr as (El & Nrel).
  exists f, None. split; [reflexivity|]. split; [reflexivity|]. intros y Hy Hd.
  destruct (Hcase y Hy Hd) as [Ky|[(Hd0 & Ky)|[Ky|Ky]]]; auto.
  specialize (Nrel y Hy Ky). pose proof (Hel (LRel d) y Hy ltac:(auto) Ky). lia.
Qed.
