(** * The pages of one hugepage (C13, C14)

    Specification.  A history is a sequence of allocations, frees and releases to the OS, in
    which every call to the OS may succeed or fail ([os]).  [live] lists the runs held, each as
    ((first page, number of pages), objects), and [rel] says which pages are released.  Pages are
    numbered from the start of the hugepage, which has [N] of them. *)
From Verif Require Import Base Bitmap BitmapProofs BitmapProofs2 RangeTrackerProofs RangeTrackerProofs2 RangeTrackerProps PageTracker.

Definition is_live (live : list (Z * Z * Z)) (j : Z) : Prop := exists r, In r live /\ in_rng (fst r) j.
(** The pages released to the OS. *)
Definition released_page (t : ptracker) (j : Z) : bool := bit (pt_rel t) j.
(** How many of the [n] pages from [i] satisfy [P]. *)
Definition pages_with (P : Z -> bool) (i n : Z) : Z := zsum (map (fun j => if P j then 1 else 0) (zseq i (Z.to_nat n))).

Inductive pt_reach (N : Z) : ptracker -> list (Z * Z * Z) -> Prop :=
| pr_new d : pt_reach N (pt_new N d) []
| pr_get t live n o t' i u : pt_reach N t live -> 0 < n -> pt_get N t n o = Some (t', i, u) ->
    pt_reach N t' (((i, n), o) :: live)
| pr_put t l1 i n o l2 t' : pt_reach N t (l1 ++ ((i, n), o) :: l2) -> pt_put N t i n o = Some t' ->
    pt_reach N t' (l1 ++ l2)
| pr_release t live os t' c calls : pt_reach N t live -> pt_release_free N t os = Some (t', c, calls) ->
    pt_reach N t' live
| pr_mark t live unbacked t' c : pt_reach N t live -> wf N unbacked -> pt_mark_subreleased N t unbacked = (t', c) ->
    pt_reach N t' live
(* the owner sets the flags that say what it knows of the hugepage *)
| pr_donated t live b : pt_reach N t live -> pt_reach N (pt_set_donated t b) live
| pr_was_released t live b : pt_reach N t live -> pt_reach N (pt_set_was_released t b) live
| pr_abandoned t live b : pt_reach N t live -> pt_reach N (pt_set_abandoned t b) live
| pr_abandoned_count t live c : pt_reach N t live -> pt_reach N (pt_set_abandoned_count t c) live
| pr_unbroken t live b : pt_reach N t live -> pt_reach N (pt_set_unbroken t b) live
| pr_dense t live : pt_reach N t live -> pt_reach N (pt_set_dense t) live.

Record pt_ok (N : Z) (t : ptracker) (live : list (Z * Z * Z)) : Prop := {
  po_reach : rt_reach N (pt_free t) (map fst live);
  po_wf : wf N (pt_rel t);
  po_rel : forall j, 0 <= j < N -> bit (pt_rel t) j = true -> bit (rt_bits (pt_free t)) j = false;
  po_count : pt_rcount t = zcount (bit (pt_rel t)) 0 (Z.to_nat N);
  po_objects : pt_objects t = zsum (map snd live) }.

Lemma pages_with_zcount P i n : pages_with P i n = zcount P i (Z.to_nat n).
Proof.
  unfold pages_with. generalize (Z.to_nat n) as k. intros k. revert i. induction k as [|k IH]; intros i; [reflexivity|].
  cbn [zseq map zcount]. rewrite zsum_cons, IH. reflexivity.
Qed.

(** ** Get and Put *)

Lemma pt_get_ok N t live n o t' i u : 0 < N -> pt_ok N t live -> 0 < n -> pt_get N t n o = Some (t', i, u) ->
  pt_ok N t' (((i, n), o) :: live) /\ find_and_mark N (pt_free t) n = Some (pt_free t', i) /\
  run_free N (map fst live) i n /\ u = zcount (bit (pt_rel t)) i (Z.to_nat n) /\
  (forall j, 0 <= j < N -> bit (pt_rel t') j = bit (pt_rel t) j && negb ((i <=? j) && (j <? i + n))) /\
  pt_rcount t' = pt_rcount t - u.
Proof.
  intros HN [R W D C O] Hn E. unfold pt_get in E.
  destruct (find_and_mark N (pt_free t) n) as [(f, i')|] eqn:Ef; cbn [obind] in E; [|discriminate].
  destruct (tracker_get_iff_fits N (pt_free t) _ n ltac:(lia) R Hn) as (_ & G). specialize (G f i' Ef). destruct G as (G1 & G2 & _).
  pose proof (rt_reach_ok N _ _ ltac:(lia) R) as Hl.
  pose proof (rt_reach_ok N _ _ ltac:(lia) G1) as Hl1.
  assert (Hi : 0 <= i' /\ i' + n <= N) by (destruct G2 as (? & ? & _); lia).
  assert (Hb : forall j, 0 <= j < N -> bit (rt_bits f) j = true -> bit (rt_bits (pt_free t)) j = true \/ i' <= j < i' + n).
  { intros j Hj B. apply (lo_bits _ _ _ Hl1) in B. destruct B as [(_ & r & [<-|Hr] & Hin)|(? & _)]; [right; exact Hin| |lia].
    left. exact (live_bit_set _ _ _ _ _ Hl Hr Hin). }
  destruct (Z.ltb_spec 0 (pt_rcount t)) as [Hc|Hc]; injection E as <- <- <-; cbn [pt_with pt_free pt_rel pt_rcount pt_unbroken pt_objects].
  - rewrite count_bits_spec by lia.
    assert (Hclr : forall j, bit (clear_range N (pt_rel t) i' n) j = bit (pt_rel t) j && negb ((i' <=? j) && (j <? i' + n))).
    { intros j. rewrite clear_range_bits by lia. unfold in_range. apply andb_comm. }
    split; [|split; [reflexivity|split; [assumption|split; [reflexivity|split; [intros; apply Hclr|reflexivity]]]]].
    constructor; cbn [pt_with pt_free pt_rel pt_rcount pt_unbroken pt_objects map fst snd].
    + assumption.
    + apply set_range_value_wf; (assumption || lia).
    + intros j Hj B. rewrite Hclr in B. apply andb_prop in B. destruct B as (B1 & B2).
      destruct (bit (rt_bits f) j) eqn:Eb; [|reflexivity]. exfalso. destruct (Hb j Hj Eb) as [H|H]; [|lia].
      rewrite D in H by assumption. discriminate.
    + rewrite C. pose proof (zcount_change (bit (clear_range N (pt_rel t) i' n)) (bit (pt_rel t)) 0 N i' n ltac:(lia) ltac:(lia) ltac:(lia)) as Z0.
      rewrite (zcount_none (bit (clear_range N (pt_rel t) i' n)) (Z.to_nat n) i') in Z0.
      2:{ intros j Hj. rewrite Hclr. replace (i' <=? j) with true by lia. replace (j <? i' + n) with true by lia. apply andb_false_r. }
      assert (Z1 : forall j, ~ (i' <= j < i' + n) -> bit (clear_range N (pt_rel t) i' n) j = bit (pt_rel t) j).
      { intros j Hj. rewrite Hclr. replace ((i' <=? j) && (j <? i' + n)) with false by lia. apply andb_true_r. }
      specialize (Z0 Z1). lia.
    + rewrite zsum_cons, O. lia.
  - pose proof (zcount_bound (bit (pt_rel t)) (Z.to_nat N) 0) as Zb.
    assert (Hz : forall j, 0 <= j < N -> bit (pt_rel t) j = false).
    { intros j Hj. apply (zcount_zero_inv (bit (pt_rel t)) (Z.to_nat N) 0); lia. }
    split; [|split; [reflexivity|split; [assumption|split; [|split; [|lia]]]]].
    2:{ symmetry. apply zcount_none. intros j Hj. apply Hz. lia. }
    2:{ intros j Hj. rewrite Hz by assumption. reflexivity. }
    constructor; cbn [pt_with pt_free pt_rel pt_rcount pt_unbroken pt_objects map fst snd]; try assumption.
    + intros j Hj B. rewrite Hz in B by assumption. discriminate.
    + rewrite zsum_cons, O. lia.
Qed.

Lemma map_fst_mid {A B} (l1 l2 : list (A * B)) a b : map fst (l1 ++ (a, b) :: l2) = map fst l1 ++ a :: map fst l2.
Proof. rewrite map_app. reflexivity. Qed.

Lemma pt_put_ok N t l1 i n o l2 t' : 0 < N -> pt_ok N t (l1 ++ ((i, n), o) :: l2) -> pt_put N t i n o = Some t' ->
  pt_ok N t' (l1 ++ l2) /\ pt_rel t' = pt_rel t /\ pt_rcount t' = pt_rcount t.
Proof.
  intros HN [R W D C O] E. unfold pt_put in E. rewrite map_fst_mid in R.
  destruct (unmark N (pt_free t) i n) as [f|] eqn:Ef; cbn [obind] in E; [|discriminate]. injection E as <-.
  pose proof (rr_put N _ _ _ _ _ _ R Ef) as R'.
  pose proof (rt_reach_ok N _ _ ltac:(lia) R) as Hl. pose proof (rt_reach_ok N _ _ ltac:(lia) R') as Hl'.
  split; [|split; reflexivity]. constructor; cbn [pt_with pt_free pt_rel pt_rcount pt_unbroken pt_objects]; try assumption.
  - rewrite map_app. assumption.
  - intros j Hj B. apply D in B; [|assumption]. destruct (bit (rt_bits f) j) eqn:Eb; [|reflexivity]. exfalso.
    apply (lo_bits _ _ _ Hl') in Eb. destruct Eb as [(_ & r & Hr & Hin)|(? & _)]; [|lia].
    rewrite (live_bit_set _ _ _ r j Hl) in B; [discriminate| |assumption]. apply in_mid. right. assumption.
  - rewrite O, !map_app, !zsum_app. cbn [map snd]. rewrite zsum_cons. lia.
Qed.

(** ** ReleaseFree *)

Definition run_at (r : Z * Z) (j : Z) : Prop := fst r <= j < fst r + snd r.

Lemma release_loop_spec N free os : wf N free -> forall fuel rel index, wf N rel -> 0 <= index -> N - index < Z.of_nat fuel -> (0 < fuel)%nat ->
  exists rel' count calls, release_loop fuel N free os rel index = Some (rel', count, calls) /\ wf N rel' /\
    (forall r, In r calls -> index <= fst r /\ 0 < snd r /\ fst r + snd r <= N /\
       forall j, run_at r j -> bit free j = false /\ bit rel j = false) /\
    ForallOrdPairs (fun a b => fst a + snd a <= fst b) calls /\
    (forall j, index <= j < N -> bit free j = false -> bit rel j = false -> exists r, In r calls /\ run_at r j) /\
    (forall j, bit rel' j = true <-> bit rel j = true \/ exists r, In r calls /\ os (fst r) (snd r) = true /\ run_at r j) /\
    count = zsum (map (fun r => if os (fst r) (snd r) then snd r else 0) calls) /\
    zcount (bit rel') 0 (Z.to_nat N) = zcount (bit rel) 0 (Z.to_nat N) + count.
Proof.
  intros Wf. induction fuel as [|fuel IH]; intros rel index Wr Hi Hf H0; [lia|]. clear H0. cbn [release_loop].
  destruct (next_free_range_spec N rel index Wr Hi) as [(E & Hall)|(i & n & E & A1 & A2 & A3 & A4 & A5 & A6)]; rewrite E; cbn [obind].
  { exists rel, 0, []. split; [reflexivity|]. split; [assumption|]. split; [intros r []|]. split; [constructor|].
    split; [intros j Hj _ B; rewrite Hall in B by assumption; discriminate|].
    split; [intros j; split; [auto|intros [H|(r & [] & _)]; assumption]|]. split; [reflexivity|lia]. }
  assert (Skip : (forall j, i <= j < i + n -> bit free j = true) ->
    exists rel' count calls, release_loop fuel N free os rel (i + n) = Some (rel', count, calls) /\ wf N rel' /\
    (forall r, In r calls -> index <= fst r /\ 0 < snd r /\ fst r + snd r <= N /\
       forall j, run_at r j -> bit free j = false /\ bit rel j = false) /\
    ForallOrdPairs (fun a b => fst a + snd a <= fst b) calls /\
    (forall j, index <= j < N -> bit free j = false -> bit rel j = false -> exists r, In r calls /\ run_at r j) /\
    (forall j, bit rel' j = true <-> bit rel j = true \/ exists r, In r calls /\ os (fst r) (snd r) = true /\ run_at r j) /\
    count = zsum (map (fun r => if os (fst r) (snd r) then snd r else 0) calls) /\
    zcount (bit rel') 0 (Z.to_nat N) = zcount (bit rel) 0 (Z.to_nat N) + count).
  { intros Hset. destruct (IH rel (i + n) Wr ltac:(lia) ltac:(lia) ltac:(lia)) as (rel' & count & calls & E' & B1 & B2 & B3 & B4 & B5 & B6).
    exists rel', count, calls. split; [assumption|]. split; [assumption|]. split.
    { intros r Hr. destruct (B2 r Hr) as (? & ? & ? & ?). split; [lia|]. auto. }
    split; [assumption|]. split; [|split; assumption].
    intros j Hj F1 F2. destruct (Z.lt_ge_cases j i) as [Hlt|]; [rewrite A4 in F2 by lia; discriminate|].
    destruct (Z.lt_ge_cases j (i + n)) as [Hlt|]; [rewrite Hset in F1 by lia; discriminate|]. apply B4; [lia|assumption..]. }
  destruct (next_free_range_spec N free i Wf ltac:(lia)) as [(Ef & Hall)|(fi & fn & Ef & F1 & F2 & F3 & F4 & F5 & F6)]; rewrite Ef; cbn [obind].
  { apply Skip. intros j Hj. apply Hall. lia. }
  destruct (Z.ltb_spec fi (i + n)) as [Hlt|Hge].
  2:{ apply Skip. intros j Hj. apply F4. lia. }
  set (e := Z.min (fi + fn) (i + n)). set (len := e - fi). assert (He : fi < e /\ e <= fi + fn /\ e <= i + n /\ (e = fi + fn \/ e = i + n)) by lia.
  set (rel1 := if os fi len then set_range N rel fi len else rel).
  assert (Hlen : 0 < len /\ fi + len = e) by lia. clearbody e.
  assert (Hb1 : forall j, bit rel1 j = os fi len && in_range fi len j || bit rel j).
  { intros j. subst rel1. destruct (os fi len); cbn [andb orb]; [apply set_range_bits; lia|reflexivity]. }
  assert (Wr1 : wf N rel1). { subst rel1. destruct (os fi len); [apply set_range_value_wf; (assumption || lia)|assumption]. }
  assert (Hc1 : zcount (bit rel1) 0 (Z.to_nat N) = zcount (bit rel) 0 (Z.to_nat N) + (if os fi len then len else 0)).
  { subst rel1. destruct (os fi len); [|lia]. apply used_after_set; [lia..|]. intros j Hj. apply A5. lia. }
  clearbody rel1 len.
  assert (Hhi : forall j, e <= j -> bit rel1 j = bit rel j).
  { intros j Hj. rewrite Hb1. unfold in_range. replace ((fi <=? j) && (j <? fi + len)) with false by lia. rewrite andb_false_r. reflexivity. }
  destruct (IH rel1 e Wr1 ltac:(lia) ltac:(lia) ltac:(lia)) as (rel' & count & calls & E' & B1 & B2 & B3 & B4 & B5 & B6 & B7).
  rewrite E'. cbn [obind]. exists rel', ((if os fi len then len else 0) + count), ((fi, len) :: calls).
  split; [reflexivity|]. split; [assumption|]. split.
  { intros r [<-|Hr]; cbn [fst snd]; unfold run_at; cbn [fst snd].
    - split; [lia|]. split; [lia|]. split; [lia|]. intros j Hj. split; [apply F5|apply A5]; lia.
    - destruct (B2 r Hr) as (Q1 & Q2 & Q3 & Q4). split; [lia|]. split; [lia|]. split; [lia|]. intros j Hj.
      destruct (Q4 j Hj). split; [assumption|]. rewrite <- Hhi by lia. assumption. }
  split.
  { apply FOP_cons; [|assumption]. apply Forall_forall. intros r Hr. destruct (B2 r Hr). cbn [fst snd]. lia. }
  split.
  { intros j Hj G1 G2. destruct (Z.lt_ge_cases j i); [rewrite A4 in G2 by lia; discriminate|].
    destruct (Z.lt_ge_cases j fi); [rewrite F4 in G1 by lia; discriminate|].
    destruct (Z.lt_ge_cases j e).
    - exists (fi, len). split; [left; reflexivity|]. unfold run_at. cbn. lia.
    - destruct (B4 j ltac:(lia) G1) as (r & Hr & Hat); [rewrite Hhi by lia; assumption|]. exists r. split; [right|]; assumption. }
  split.
  { intros j. rewrite B5, Hb1, orb_true_iff, andb_true_iff. unfold in_range. split.
    - intros [[(Ho & Hin)|H]|(r & Hr & Ho & Hat)]; [right; exists (fi, len)|left; assumption|right; exists r; split; [right|]; auto].
      split; [left; reflexivity|]. split; [exact Ho|]. unfold run_at. cbn [fst snd]. lia.
    - intros [H|(r & [<-|Hr] & Ho & Hat)]; [left; right; assumption|left; left|right; exists r; auto].
      unfold run_at in Hat. cbn [fst snd] in *. split; [assumption|lia]. }
  split; [cbn [map fst snd]; rewrite zsum_cons; lia|lia].
Qed.

Lemma pt_release_ok N t live os : 0 < N -> pt_ok N t live ->
  exists t' c calls, pt_release_free N t os = Some (t', c, calls) /\ pt_ok N t' live /\
    pt_free t' = pt_free t /\
    (forall r, In r calls -> 0 <= fst r /\ 0 < snd r /\ fst r + snd r <= N /\
       forall j, run_at r j -> bit (rt_bits (pt_free t)) j = false /\ bit (pt_rel t) j = false) /\
    ForallOrdPairs (fun a b => fst a + snd a <= fst b) calls /\
    (forall j, 0 <= j < N -> bit (rt_bits (pt_free t)) j = false -> bit (pt_rel t) j = false -> exists r, In r calls /\ run_at r j) /\
    (forall j, bit (pt_rel t') j = true <-> bit (pt_rel t) j = true \/ exists r, In r calls /\ os (fst r) (snd r) = true /\ run_at r j) /\
    c = zsum (map (fun r => if os (fst r) (snd r) then snd r else 0) calls) /\ pt_rcount t' = pt_rcount t + c.
Proof.
  intros HN [R W D C O]. pose proof (rt_reach_ok N _ _ ltac:(lia) R) as Hl. pose proof (ro_wf _ _ (lo_ok _ _ _ Hl)) as Wf.
  destruct (release_loop_spec N (rt_bits (pt_free t)) os Wf (range_fuel N) (pt_rel t) 0 W ltac:(lia)) as (rel' & c & calls & E & B1 & B2 & B3 & B4 & B5 & B6 & B7);
    [unfold range_fuel; lia|unfold range_fuel; lia|].
  unfold pt_release_free. rewrite E. cbn [obind]. eexists _, c, calls. split; [reflexivity|].
  cbn [pt_with pt_free pt_rel pt_rcount]. split; [|repeat match goal with |- _ /\ _ => split end; auto].
  constructor; cbn [pt_with pt_free pt_rel pt_rcount pt_unbroken pt_objects]; try assumption.
  - intros j Hj B. apply B5 in B. destruct B as [B|(r & Hr & _ & Hat)]; [apply D; assumption|]. destruct (B2 r Hr) as (_ & _ & _ & Q). apply (Q j Hat).
  - lia.
Qed.

(** ** MarkSubreleased *)

Lemma k_words_cover N j : 0 <= j < N -> j < 64 * k_words N.
Proof. intros H. pose proof (k_words_bounds N ltac:(lia)). lia. Qed.

Lemma zcount_or_disj P Q R n : forall i, (forall j, i <= j < i + Z.of_nat n -> P j = Q j || R j /\ (Q j = true -> R j = false)) ->
  zcount P i n = zcount Q i n + zcount R i n.
Proof.
  induction n as [|n IH]; intros i H; cbn [zcount]; [lia|]. rewrite (IH (i + 1)) by (intros; apply H; lia).
  destruct (H i ltac:(lia)) as (-> & Hd). destruct (Q i), (R i); cbn [orb]; try lia. all: specialize (Hd eq_refl); discriminate.
Qed.

Lemma pt_mark_ok N t live unbacked t' c : 0 < N -> pt_ok N t live -> wf N unbacked -> pt_mark_subreleased N t unbacked = (t', c) ->
  pt_ok N t' live /\ pt_free t' = pt_free t /\
  (forall j, 0 <= j < N -> bit (pt_rel t') j = bit (pt_rel t) j || (negb (bit (rt_bits (pt_free t)) j) && bit unbacked j)) /\
  pt_rcount t' = pt_rcount t + c.
Proof.
  intros HN [R W D C O] Wu E. unfold pt_mark_subreleased in E. pose proof (rt_reach_ok N _ _ ltac:(lia) R) as Hl.
  pose proof (ro_wf _ _ (lo_ok _ _ _ Hl)) as Wf.
  set (tr := bm_and (bm_and (bm_not N (rt_bits (pt_free t))) (bm_not N (pt_rel t))) unbacked) in *.
  assert (Htr : forall j, 0 <= j < N -> bit tr j = negb (bit (rt_bits (pt_free t)) j) && negb (bit (pt_rel t) j) && bit unbacked j).
  { intros j Hj. subst tr. pose proof (k_words_cover N j Hj). rewrite !bm_and_spec, !bm_not_spec by lia. replace (j <? N) with true by lia. reflexivity. }
  assert (Wt : wf N tr) by (subst tr; apply bm_and_wf; [apply bm_and_wf; apply bm_not_wf; assumption|assumption]). clearbody tr.
  rewrite count_bits_spec in E by lia. injection E as <- <-. cbn [pt_with pt_free pt_rel pt_rcount].
  split; [|split; [reflexivity|split; [|reflexivity]]].
  2:{ intros j Hj. rewrite bm_or_spec, Htr by assumption. destruct (bit (pt_rel t) j), (bit (rt_bits (pt_free t)) j), (bit unbacked j); reflexivity. }
  constructor; cbn [pt_with pt_free pt_rel pt_rcount pt_unbroken pt_objects]; try assumption.
  - apply bm_or_wf; assumption.
  - intros j Hj B. rewrite bm_or_spec, Htr in B by assumption. apply orb_prop in B. destruct B as [B|B]; [auto|].
    destruct (bit (rt_bits (pt_free t)) j); [discriminate|reflexivity].
  - rewrite C. symmetry. apply zcount_or_disj. intros j Hj. rewrite bm_or_spec. split; [reflexivity|].
    intros B. rewrite Htr, B by lia. rewrite andb_false_r. reflexivity.
Qed.

Lemma pt_reach_ok N t live : 0 < N -> pt_reach N t live -> pt_ok N t live.
Proof.
  intros HN H. induction H as [d|t live n o t' i u H IH Hn E|t l1 i n o l2 t' H IH E|t live os t' c calls H IH E|t live ub t' c H IH Wu E| | | | | |];
    try (destruct IHpt_reach; constructor; assumption).
  - constructor; cbn.
    + apply rr_init.
    + apply clear_all_wf.
    + intros j _ B. rewrite bit_clear_all in B. discriminate.
    + symmetry. apply zcount_none. intros; apply bit_clear_all.
    + reflexivity.
  - exact (proj1 (pt_get_ok N t live n o t' i u HN IH Hn E)).
  - exact (proj1 (pt_put_ok N t l1 i n o l2 t' HN IH E)).
  - destruct (pt_release_ok N t live os HN IH) as (t1 & c1 & l1 & E1 & K & _). rewrite E1 in E. injection E as <- <- <-. exact K.
  - exact (proj1 (pt_mark_ok N t live ub t' c HN IH Wu E)).
Qed.

(** ** The theorems *)

(** C13: the runs held never overlap and lie in the hugepage, and the tracker reports exactly
    the pages in use, the allocations and the longest free run. *)
Theorem hugepage_runs : forall N t live, 0 < N -> pt_reach N t live ->
  ForallOrdPairs disj (map fst live) /\
  (forall r, In r live -> 0 <= fst (fst r) /\ 0 < snd (fst r) /\ fst (fst r) + snd (fst r) <= N) /\
  pt_used t = zsum (map (fun r => snd (fst r)) live) /\ pt_free_pages N t = N - pt_used t /\
  pt_nallocs t = Z.of_nat (length live) /\ pt_objects t = zsum (map snd live) /\
  (0 < pt_longest t -> exists i, run_free N (map fst live) i (pt_longest t)) /\
  (forall i n, 0 < n -> run_free N (map fst live) i n -> n <= pt_longest t) /\
  (pt_empty t = true <-> live = []) /\ (pt_fully_freed N t = true <-> live = []).
Proof.
  intros N t live HN H. destruct (pt_reach_ok N t live HN H) as [R W D C O].
  destruct (tracker_live_exact N _ _ ltac:(lia) R) as (T1 & T2 & T3 & T4 & T5 & T6 & T7 & T8).
  rewrite map_length in T4. rewrite map_map in T3.
  assert (Hin : forall r, In r live -> 0 <= fst (fst r) /\ 0 < snd (fst r) /\ fst (fst r) + snd (fst r) <= N).
  { intros r Hr. apply T2. apply in_map. assumption. }
  unfold pt_used, pt_nallocs, pt_longest, pt_empty, pt_fully_freed, pt_free_pages, pt_used, pt_longest.
  split; [assumption|]. split; [assumption|]. split; [assumption|]. split; [reflexivity|]. split; [assumption|].
  split; [assumption|]. split; [assumption|]. split; [assumption|]. split; rewrite Z.eqb_eq.
  - split; [|intros ->; cbn in T3; assumption]. intros E. destruct live as [|r live]; [reflexivity|]. cbn [length] in T4. lia.
  - split.
    + intros E. destruct live as [|r live]; [reflexivity|]. exfalso. destruct (T7 ltac:(lia)) as (i & F1 & F2 & F3). rewrite E in *.
      destruct (Hin r (or_introl eq_refl)) as (? & ? & ?). specialize (F3 (fst r) (or_introl eq_refl)). unfold disj in F3. cbn [fst snd] in F3. lia.
    + intros ->. assert (N <= rt_longest (pt_free t)); [apply (T8 0 N HN); split; [lia|split; [lia|intros r []]]|].
      destruct (Z.lt_ge_cases 0 (rt_longest (pt_free t))) as [Hlt|]; [|lia]. destruct (T7 Hlt) as (i & F1 & F2 & _). lia.
Qed.

(** C13: a request succeeds exactly when a free run of that length exists, and takes the start of
    a shortest maximal free run that fits; a run that is held can always be freed. *)
Theorem hugepage_get : forall N t live n o, 0 < N -> pt_reach N t live -> 0 < n ->
  ((exists t' i u, pt_get N t n o = Some (t', i, u)) <-> exists i, run_free N (map fst live) i n) /\
  forall t' i u, pt_get N t n o = Some (t', i, u) ->
    pt_reach N t' (((i, n), o) :: live) /\ run_free N (map fst live) i n /\
    exists len, n <= len /\ run_maximal N (map fst live) i len /\
      forall i' len', n <= len' -> run_maximal N (map fst live) i' len' -> len <= len'.
Proof.
  intros N t live n o HN H Hn. pose proof (pt_reach_ok N t live HN H) as K. pose proof (po_reach _ _ _ K) as R.
  destruct (tracker_get_iff_fits N _ _ n ltac:(lia) R Hn) as (T1 & T2). split.
  - rewrite <- T1. split.
    + intros (t' & i & u & E). destruct (pt_get_ok N t live n o t' i u HN K Hn E) as (_ & E' & _). eauto.
    + intros (f & i & E). unfold pt_get. rewrite E. cbn [obind]. destruct (0 <? pt_rcount t); eauto.
  - intros t' i u E. destruct (pt_get_ok N t live n o t' i u HN K Hn E) as (_ & E' & _). destruct (T2 _ _ E') as (_ & T3 & T4).
    split; [exact (pr_get N t live n o t' i u H Hn E)|]. auto.
Qed.

Theorem hugepage_put : forall N t l1 i n o l2, 0 < N -> pt_reach N t (l1 ++ ((i, n), o) :: l2) ->
  exists t', pt_put N t i n o = Some t' /\ pt_reach N t' (l1 ++ l2) /\ forall j, released_page t' j = released_page t j.
Proof.
  intros N t l1 i n o l2 HN H. pose proof (pt_reach_ok N t _ HN H) as K. pose proof (po_reach _ _ _ K) as R. rewrite map_fst_mid in R.
  destruct (tracker_put_succeeds N _ _ _ _ _ ltac:(lia) R) as (f & E & _). unfold pt_put.
  assert (E' : exists t', pt_put N t i n o = Some t') by (unfold pt_put; rewrite E; cbn [obind]; eauto). destruct E' as (t' & E').
  exists t'. fold (pt_put N t i n o). split; [assumption|]. split; [exact (pr_put N t l1 i n o l2 t' H E')|].
  destruct (pt_put_ok N t l1 i n o l2 t' HN K E') as (_ & Er & _). intros j. unfold released_page. rewrite Er. reflexivity.
Qed.

(** C14: after any history, no page of a live run is released, and the tracker's count is the
    number of pages released (and fits the 16 bits it has when the hugepage does). *)
Theorem released_pages_exact : forall N t live, 0 < N -> pt_reach N t live ->
  (forall j, 0 <= j < N -> released_page t j = true -> ~ is_live live j) /\
  pt_rcount t = pages_with (released_page t) 0 N /\
  0 <= pt_rcount t <= pt_free_pages N t /\
  (pt_released t = true <-> exists j, 0 <= j < N /\ released_page t j = true).
Proof.
  intros N t live HN H. destruct (pt_reach_ok N t live HN H) as [R W D C O]. pose proof (rt_reach_ok N _ _ ltac:(lia) R) as Hl.
  rewrite pages_with_zcount. unfold released_page.
  pose proof (zcount_bound (bit (pt_rel t)) (Z.to_nat N) 0) as Zb.
  split.
  { intros j Hj B (r & Hr & Hin). specialize (D j Hj B). rewrite (live_bit_set N _ _ (fst r) j Hl) in D; [discriminate|apply in_map; assumption|assumption]. }
  split; [assumption|]. split.
  { split; [lia|]. unfold pt_free_pages, pt_used. rewrite (ro_used _ _ (lo_ok _ _ _ Hl)), C.
    pose proof (zcount_bound (fun j => bit (pt_rel t) j || bit (rt_bits (pt_free t)) j) (Z.to_nat N) 0).
    rewrite (zcount_or_disj _ (bit (pt_rel t)) (bit (rt_bits (pt_free t)))) in H0; [lia|].
    intros j Hj. split; [reflexivity|]. apply D. lia. }
  unfold pt_released. rewrite C. split.
    - intros Hp. apply Z.ltb_lt in Hp. destruct (existsb (bit (pt_rel t)) (zseq 0 (Z.to_nat N))) eqn:E.
      + apply existsb_exists in E. destruct E as (j & Hj & B). exists j. split; [|assumption]. apply zseq_In in Hj. lia.
      + exfalso. rewrite zcount_none in Hp; [lia|]. intros j Hj. destruct (bit (pt_rel t) j) eqn:B; [|reflexivity].
        rewrite <- E. symmetry. apply existsb_exists. exists j. split; [apply zseq_In; lia|assumption].
    - intros (j & Hj & B). apply Z.ltb_lt. destruct (Z.eq_dec (zcount (bit (pt_rel t)) 0 (Z.to_nat N)) 0) as [E|]; [|lia].
      rewrite (zcount_zero_inv _ _ _ E j) in B by lia. discriminate.
Qed.

(** C14: an allocation reports exactly how many of its pages had been released; they, and no
    others, stop being released. *)
Theorem get_reports_released : forall N t live n o t' i u, 0 < N -> pt_reach N t live -> 0 < n ->
  pt_get N t n o = Some (t', i, u) ->
  u = pages_with (released_page t) i n /\ pt_rcount t' = pt_rcount t - u /\
  forall j, 0 <= j < N -> released_page t' j = true <-> released_page t j = true /\ ~ in_rng (i, n) j.
Proof.
  intros N t live n o t' i u HN H Hn E. pose proof (pt_reach_ok N t live HN H) as K.
  destruct (pt_get_ok N t live n o t' i u HN K Hn E) as (_ & _ & _ & E1 & E2 & E3). rewrite pages_with_zcount.
  split; [assumption|]. split; [assumption|]. intros j Hj. unfold released_page, in_rng. cbn [fst snd]. rewrite E2 by assumption.
  destruct (bit (pt_rel t) j); cbn [andb]; [|split; [discriminate|intros (? & _); assumption]].
  split; [intros B; split; [reflexivity|lia]|intros (_ & B); lia].
Qed.

(** C14: releasing never fails the code's checks.  The runs it asks the OS for are disjoint, free
    and not yet released, and together they are all such pages; the pages of the calls that succeed
    become released and are the number reported; a page of a failed call is still backed; the hugepage counts
    as broken once a call succeeds. *)
Theorem release_free_exact : forall N t live os, 0 < N -> pt_reach N t live ->
  exists t' c calls, pt_release_free N t os = Some (t', c, calls) /\ pt_reach N t' live /\
    ForallOrdPairs disj calls /\
    (forall r, In r calls -> 0 < snd r /\ 0 <= fst r /\ fst r + snd r <= N) /\
    (forall j, 0 <= j < N -> (exists r, In r calls /\ in_rng r j) <-> ~ is_live live j /\ released_page t j = false) /\
    (forall j, 0 <= j < N -> released_page t' j = true <->
       released_page t j = true \/ exists r, In r calls /\ os (fst r) (snd r) = true /\ in_rng r j) /\
    c = pages_with (released_page t') 0 N - pages_with (released_page t) 0 N /\
    c = zsum (map (fun r => if os (fst r) (snd r) then snd r else 0) calls) /\
    pt_rcount t' = pt_rcount t + c /\
    (pt_unbroken t' = true <-> pt_unbroken t = true /\ forall r, In r calls -> os (fst r) (snd r) = false).
Proof.
  intros N t live os HN H. pose proof (pt_reach_ok N t live HN H) as K.
  destruct (pt_release_ok N t live os HN K) as (t' & c & calls & E & K' & Ef & B1 & B2 & B3 & B4 & B5 & B6).
  pose proof (rt_reach_ok N _ _ ltac:(lia) (po_reach _ _ _ K)) as Hl.
  exists t', c, calls. split; [assumption|]. split; [exact (pr_release N t live os t' c calls H E)|]. split.
  { clear - B2. induction B2 as [|a l Ha Hl' IHl]; [constructor|]. constructor; [|assumption].
    rewrite Forall_forall in *. intros x Hx. specialize (Ha x Hx). left. exact Ha. }
  split; [intros r Hr; destruct (B1 r Hr); lia|]. split.
  { intros j Hj. split.
    - intros (r & Hr & Hin). destruct (B1 r Hr) as (_ & _ & _ & Q). destruct (Q j Hin) as (Q1 & Q2). split; [|exact Q2].
      intros (r' & Hr' & Hin'). rewrite (live_bit_set N _ _ (fst r') j Hl) in Q1; [discriminate|apply in_map; assumption|assumption].
    - intros (Nl & Hr). apply B3; [assumption| |exact Hr]. destruct (bit (rt_bits (pt_free t)) j) eqn:Eb; [|reflexivity]. exfalso. apply Nl.
      apply (lo_bits _ _ _ Hl) in Eb. destruct Eb as [(_ & r & Hr' & Hin)|(? & _)]; [|lia]. apply in_map_iff in Hr'. destruct Hr' as (x & <- & Hx).
      exists x. auto. }
  split; [intros j Hj; apply B4|]. rewrite !pages_with_zcount. change (released_page t') with (bit (pt_rel t')). change (released_page t) with (bit (pt_rel t)).
  rewrite <- (po_count _ _ _ K), <- (po_count _ _ _ K'). split; [lia|]. split; [assumption|]. split; [assumption|].
  clear - E. unfold pt_release_free in E. destruct (release_loop _ _ _ _ _ _) as [[[rel k] cl]|]; [|discriminate]. injection E as <- <- <-. cbn [pt_unbroken pt_with].
  rewrite andb_true_iff, negb_true_iff. split; intros (A & B); (split; [assumption|]).
  - intros r Hr. destruct (os (fst r) (snd r)) eqn:Eo; [|reflexivity]. assert (existsb (fun r => os (fst r) (snd r)) cl = true) by (apply existsb_exists; eauto). congruence.
  - destruct (existsb _ cl) eqn:Ex; [|reflexivity]. apply existsb_exists in Ex. destruct Ex as (r & Hr & Eo). rewrite (B r Hr) in Eo. discriminate.
Qed.

(** C14: if the OS never refuses, every free page ends up released. *)
Theorem release_free_all : forall N t live os t' c calls, 0 < N -> pt_reach N t live -> (forall i n, os i n = true) ->
  pt_release_free N t os = Some (t', c, calls) ->
  (forall j, 0 <= j < N -> released_page t' j = true <-> ~ is_live live j) /\
  pt_rcount t' = pt_free_pages N t' /\ c = pt_free_pages N t - pt_rcount t.
Proof.
  intros N t live os t' c calls HN H Hos E. destruct (release_free_exact N t live os HN H) as (t1 & c1 & l1 & E1 & H1 & B1 & B2 & B3 & B4 & B5 & B6 & B7 & _).
  rewrite E in E1. injection E1 as <- <- <-.
  assert (Hj : forall j, 0 <= j < N -> released_page t' j = true <-> ~ is_live live j).
  { intros j Hj. split; [exact (proj1 (released_pages_exact N t' live HN H1) j Hj)|]. intros Nl. apply B4; [assumption|].
    destruct (released_page t j) eqn:Er; [left; reflexivity|]. right. destruct (proj2 (B3 j Hj) (conj Nl Er)) as (r & Hr & Hin). exists r. auto. }
  split; [assumption|].
  assert (Hall : pt_rcount t' = pt_free_pages N t').
  { pose proof (pt_reach_ok N t' live HN H1) as K'. pose proof (rt_reach_ok N _ _ ltac:(lia) (po_reach _ _ _ K')) as Hl.
    unfold pt_free_pages, pt_used. rewrite (po_count _ _ _ K'), (ro_used _ _ (lo_ok _ _ _ Hl)).
    assert (Z0 : zcount (fun _ => true) 0 (Z.to_nat N) = zcount (bit (pt_rel t')) 0 (Z.to_nat N) + zcount (bit (rt_bits (pt_free t'))) 0 (Z.to_nat N));
      [apply zcount_or_disj|rewrite zcount_all in Z0 by reflexivity; lia].
    intros j Hj'. split; [|apply (po_rel _ _ _ K'); lia]. specialize (Hj j ltac:(lia)). unfold released_page in Hj.
    destruct (bit (pt_rel t') j); [reflexivity|]. cbn [orb]. symmetry. destruct (bit (rt_bits (pt_free t')) j) eqn:Eb; [reflexivity|].
    apply Hj. intros (r & Hr & Hin). rewrite (live_bit_set N _ _ (fst r) j Hl) in Eb; [discriminate|apply in_map; assumption|assumption]. }
  split; [assumption|].
  destruct (pt_release_ok N t live os HN (pt_reach_ok N t live HN H)) as (t2 & c2 & l2 & E2 & _ & Ef & _). rewrite E in E2. injection E2 as <- <- <-.
  unfold pt_free_pages, pt_used in *. rewrite Ef in Hall. lia.
Qed.

(** C14: told by the OS which pages it holds no memory for, the tracker counts the free ones not
    yet released, marks those, and reports their number. *)
Theorem mark_subreleased_exact : forall N t live unbacked t' c, 0 < N -> pt_reach N t live -> wf N unbacked ->
  pt_mark_subreleased N t unbacked = (t', c) ->
  (forall j, 0 <= j < N -> released_page t' j = true <-> released_page t j = true \/ (~ is_live live j /\ bit unbacked j = true)) /\
  c = pages_with (released_page t') 0 N - pages_with (released_page t) 0 N /\ pt_rcount t' = pt_rcount t + c /\ pt_unbroken t' = false.
Proof.
  intros N t live ub t' c HN H Wu E. pose proof (pt_reach_ok N t live HN H) as K.
  destruct (pt_mark_ok N t live ub t' c HN K Wu E) as (K' & Ef & B1 & B2). pose proof (rt_reach_ok N _ _ ltac:(lia) (po_reach _ _ _ K)) as Hl.
  split.
  - intros j Hj. unfold released_page. rewrite B1, orb_true_iff, andb_true_iff by assumption.
    assert (Hlive : negb (bit (rt_bits (pt_free t)) j) = true <-> ~ is_live live j); [|rewrite Hlive; reflexivity].
    split.
    + intros Hn (r & Hr & Hin). rewrite (live_bit_set N _ _ (fst r) j Hl) in Hn; [discriminate|apply in_map; assumption|assumption].
    + intros Nl. destruct (bit (rt_bits (pt_free t)) j) eqn:Eb; [|reflexivity]. exfalso. apply Nl.
      apply (lo_bits _ _ _ Hl) in Eb. destruct Eb as [(_ & r & Hr' & Hin)|(? & _)]; [|lia]. apply in_map_iff in Hr'. destruct Hr' as (x & <- & Hx).
      exists x. auto.
  - rewrite !pages_with_zcount. change (released_page t') with (bit (pt_rel t')). change (released_page t) with (bit (pt_rel t)).
    rewrite <- (po_count _ _ _ K), <- (po_count _ _ _ K'). split; [lia|]. split; [assumption|].
    unfold pt_mark_subreleased in E. injection E as <- <-. reflexivity.
Qed.

(** ** Statistics *)

Lemma span_runs_spec N free rel : wf N free -> wf N rel -> forall fuel index, 0 <= index -> N - index < Z.of_nat fuel -> (0 < fuel)%nat ->
  exists l, span_runs_loop fuel N free rel index = Some l /\
    (forall i n b, In (i, n, b) l -> index <= i /\ 0 < n /\ i + n <= N /\ forall j, i <= j < i + n -> bit free j = false /\ bit rel j = b) /\
    ForallOrdPairs (fun a b => fst (fst a) + snd (fst a) <= fst (fst b)) l /\
    (forall j, index <= j < N -> bit free j = false -> exists r, In r l /\ run_at (fst r) j) /\
    (forall b, zsum (map (fun r => if Bool.eqb (snd r) b then snd (fst r) else 0) l) =
       zcount (fun j => negb (bit free j) && Bool.eqb (bit rel j) b) index (Z.to_nat (N - index))).
Proof.
  intros Wf Wr. induction fuel as [|fuel IH]; intros index Hi Hf H0; [lia|]. clear H0. cbn [span_runs_loop].
  destruct (next_free_range_spec N free index Wf Hi) as [(E & Hall)|(i & n & E & A1 & A2 & A3 & A4 & A5 & A6)]; rewrite E; cbn [obind].
  { exists []. split; [reflexivity|]. split; [intros ? ? ? []|]. split; [constructor|].
    split; [intros j Hj B; rewrite Hall in B by assumption; discriminate|]. intros b. cbn. symmetry. apply zcount_none.
    intros j Hj. rewrite Hall by lia. reflexivity. }
  rewrite get_bit_spec.
  assert (He : exists e, (if N - 1 <=? i then Some N else if bit rel i then find_clear N rel (i + 1) else find_set N rel (i + 1)) = Some e /\
     i < e <= N /\ forall j, i <= j < e -> bit rel j = bit rel i).
  { destruct (Z.leb_spec (N - 1) i).
    - exists N. split; [reflexivity|]. split; [lia|]. intros j Hj. f_equal. lia.
    - unfold find_clear, find_set. destruct (bit rel i) eqn:Eb.
      + destruct (find_value_spec N false rel (i + 1) Wr ltac:(lia)) as (e & -> & (P1 & P2 & P3)). exists e. split; [reflexivity|]. split; [lia|].
        intros j Hj. destruct (Z.eq_dec j i) as [->|]; [assumption|]. specialize (P2 j ltac:(lia)). unfold gbit in P2. destruct (bit rel j); [reflexivity|discriminate].
      + destruct (find_value_spec N true rel (i + 1) Wr ltac:(lia)) as (e & -> & (P1 & P2 & P3)). exists e. split; [reflexivity|]. split; [lia|].
        intros j Hj. destruct (Z.eq_dec j i) as [->|]; [assumption|]. specialize (P2 j ltac:(lia)). unfold gbit in P2. destruct (bit rel j); [discriminate|reflexivity]. }
  destruct He as (e & -> & He1 & He2). cbn [obind]. set (m := Z.min (e - i) n). assert (Hm : 0 < m <= n /\ i + m <= e) by lia. clearbody m.
  destruct (IH (i + m) ltac:(lia) ltac:(lia) ltac:(lia)) as (l & E' & B1 & B2 & B3 & B4). rewrite E'. cbn [obind].
  exists ((i, m, bit rel i) :: l). split; [reflexivity|]. split.
  { intros i' n' b' [Heq|Hin].
    - injection Heq as <- <- <-. split; [lia|]. split; [lia|]. split; [lia|]. intros j Hj. split; [apply A5; lia|apply He2; lia].
    - destruct (B1 i' n' b' Hin) as (? & ? & ? & ?). split; [lia|]. auto. }
  split.
  { apply FOP_cons; [|assumption]. apply Forall_forall. intros ((i', n'), b') Hin. destruct (B1 i' n' b' Hin). cbn [fst snd]. lia. }
  split.
  { intros j Hj B. destruct (Z.lt_ge_cases j i); [rewrite A4 in B by lia; discriminate|]. destruct (Z.lt_ge_cases j (i + m)).
    - exists (i, m, bit rel i). split; [left; reflexivity|]. unfold run_at. cbn. lia.
    - destruct (B3 j ltac:(lia) B) as (r & Hr & Hat). exists r. split; [right|]; assumption. }
  intros b. cbn [map fst snd]. rewrite zsum_cons, B4.
  rewrite (zcount_split _ index (N - index) i m) by lia.
  rewrite (zcount_none _ (Z.to_nat (i - index)) index) by (intros j Hj; rewrite A4 by lia; reflexivity).
  replace (index + (N - index) - (i + m)) with (N - (i + m)) by lia.
  assert (Hmid : zcount (fun j => negb (bit free j) && Bool.eqb (bit rel j) b) i (Z.to_nat m) = if Bool.eqb (bit rel i) b then m else 0).
  { rewrite (zcount_ext _ (fun _ => Bool.eqb (bit rel i) b)) by (intros j Hj; rewrite A5, He2 by lia; reflexivity).
    destruct (Bool.eqb (bit rel i) b); [rewrite zcount_all by reflexivity; lia|apply zcount_none; reflexivity]. }
  rewrite Hmid. lia.
Qed.

(** C14: the statistics split the free pages into runs that are wholly released or wholly backed;
    the released ones add up to the released count and the others to the rest of the free pages. *)
Theorem span_stats_exact : forall N t live, 0 < N -> pt_reach N t live ->
  exists l : list (Z * Z * bool), pt_span_runs N t = Some l /\
    ForallOrdPairs disj (map fst l) /\
    (forall r b, In (r, b) l -> 0 < snd r /\ forall j, in_rng r j -> 0 <= j < N /\ ~ is_live live j /\ released_page t j = b) /\
    (forall j, 0 <= j < N -> ~ is_live live j -> exists r, In r l /\ in_rng (fst r) j) /\
    zsum (map (fun r : Z * Z * bool => if snd r then snd (fst r) else 0) l) = pt_rcount t /\
    zsum (map (fun r : Z * Z * bool => if snd r then 0 else snd (fst r)) l) = pt_free_pages N t - pt_rcount t.
Proof.
  intros N t live HN H. pose proof (pt_reach_ok N t live HN H) as K. pose proof (rt_reach_ok N _ _ ltac:(lia) (po_reach _ _ _ K)) as Hl.
  pose proof (ro_wf _ _ (lo_ok _ _ _ Hl)) as Wf.
  destruct (span_runs_spec N (rt_bits (pt_free t)) (pt_rel t) Wf (po_wf _ _ _ K) (range_fuel N) 0 ltac:(lia)) as (l & E & B1 & B2 & B3 & B4);
    [unfold range_fuel; lia|unfold range_fuel; lia|].
  assert (Hlive : forall j, 0 <= j < N -> bit (rt_bits (pt_free t)) j = false <-> ~ is_live live j).
  { intros j Hj. split.
    + intros Hn (r & Hr & Hin). rewrite (live_bit_set N _ _ (fst r) j Hl) in Hn; [discriminate|apply in_map; assumption|assumption].
    + intros Nl. destruct (bit (rt_bits (pt_free t)) j) eqn:Eb; [|reflexivity]. exfalso. apply Nl.
      apply (lo_bits _ _ _ Hl) in Eb. destruct Eb as [(_ & r & Hr' & Hin)|(? & _)]; [|lia]. apply in_map_iff in Hr'. destruct Hr' as (x & <- & Hx).
      exists x. auto. }
  exists l. split; [exact E|]. split.
  { clear - B2. induction B2 as [|a l Ha Hl' IHl]; [constructor|]. cbn [map]. constructor; [|assumption].
    rewrite Forall_forall in *. intros x Hx. apply in_map_iff in Hx. destruct Hx as (y & <- & Hy). specialize (Ha y Hy). left. exact Ha. }
  split.
  { intros (i, n) b Hin. destruct (B1 i n b Hin) as (P1 & P2 & P3 & P4). split; [exact P2|]. intros j Hj. unfold in_rng in Hj. cbn [fst snd] in Hj.
    destruct (P4 j Hj). split; [lia|]. split; [apply Hlive; [lia|assumption]|assumption]. }
  split; [intros j Hj Nl; apply B3; [assumption|apply Hlive; assumption]|].
  assert (Hs : forall (f g : Z * Z * bool -> Z), (forall r, f r = g r) -> zsum (map f l) = zsum (map g l)) by (intros f g Hfg; f_equal; apply map_ext; assumption).
  rewrite (Hs _ (fun r => if Bool.eqb (snd r) true then snd (fst r) else 0)) by (intros ((?, ?), []); reflexivity).
  rewrite (Hs (fun r => if snd r then 0 else snd (fst r)) (fun r => if Bool.eqb (snd r) false then snd (fst r) else 0)) by (intros ((?, ?), []); reflexivity).
  rewrite !B4. replace (N - 0) with N by lia.
  assert (Hc : zcount (fun j => negb (bit (rt_bits (pt_free t)) j) && Bool.eqb (bit (pt_rel t) j) true) 0 (Z.to_nat N) = pt_rcount t).
  { rewrite (po_count _ _ _ K). apply zcount_ext. intros j Hj. pose proof (po_rel _ _ _ K j ltac:(lia)) as D.
    destruct (bit (pt_rel t) j); [rewrite D by reflexivity; reflexivity|apply andb_false_r]. }
  split; [exact Hc|]. unfold pt_free_pages, pt_used. rewrite (ro_used _ _ (lo_ok _ _ _ Hl)), <- Hc.
  assert (Hn : zcount (fun _ => true) 0 (Z.to_nat N) = N) by (rewrite zcount_all by reflexivity; lia).
  rewrite (zcount_or_disj _ (fun j => negb (bit (rt_bits (pt_free t)) j)) (bit (rt_bits (pt_free t)))) in Hn.
  2:{ intros j _. destruct (bit (rt_bits (pt_free t)) j); split; reflexivity || discriminate. }
  rewrite (zcount_or_disj (fun j => negb (bit (rt_bits (pt_free t)) j)) (fun j => negb (bit (rt_bits (pt_free t)) j) && Bool.eqb (bit (pt_rel t) j) true)
     (fun j => negb (bit (rt_bits (pt_free t)) j) && Bool.eqb (bit (pt_rel t) j) false)) in Hn.
  2:{ intros j _. destruct (bit (rt_bits (pt_free t)) j), (bit (pt_rel t) j); split; reflexivity || discriminate. }
  lia.
Qed.

(** A hugepage of 256 pages: two runs are allocated, the first is freed, the free pages are
    released except where the OS refuses, and a third run takes 60 of the released pages. *)
Example hugepage_example : exists t,
  pt_reach 256 t [((0, 60), 7); ((100, 50), 3)] /\ pt_used t = 110 /\ pt_rcount t = 40 /\
  pt_span_runs 256 t = Some [(60, 40, true); (150, 106, false)].
Proof.
  destruct (pt_get 256 (pt_new 256 false) 100 1) as [((t1, i1), u1)|] eqn:E1; [|vm_compute in E1; discriminate].
  destruct (pt_get 256 t1 50 3) as [((t2, i2), u2)|] eqn:E2.
  2:{ exfalso. vm_compute in E1. injection E1 as <- <- <-. vm_compute in E2. discriminate. }
  destruct (pt_put 256 t2 0 100 1) as [t3|] eqn:E3.
  2:{ exfalso. vm_compute in E1. injection E1 as <- <- <-. vm_compute in E2. injection E2 as <- <- <-. vm_compute in E3. discriminate. }
  destruct (pt_release_free 256 t3 (fun i _ => i <? 150)) as [((t4, c4), l4)|] eqn:E4.
  2:{ exfalso. vm_compute in E1. injection E1 as <- <- <-. vm_compute in E2. injection E2 as <- <- <-. vm_compute in E3. injection E3 as <-. vm_compute in E4. discriminate. }
  destruct (pt_get 256 t4 60 7) as [((t5, i5), u5)|] eqn:E5.
  2:{ exfalso. vm_compute in E1. injection E1 as <- <- <-. vm_compute in E2. injection E2 as <- <- <-. vm_compute in E3. injection E3 as <-. vm_compute in E4. injection E4 as <- <- <-. vm_compute in E5. discriminate. }
  assert (Hi : i1 = 0 /\ i2 = 100 /\ i5 = 0 /\ pt_used t5 = 110 /\ pt_rcount t5 = 40 /\ pt_span_runs 256 t5 = Some [(60, 40, true); (150, 106, false)]).
  { vm_compute in E1. injection E1 as <- <- <-. vm_compute in E2. injection E2 as <- <- <-. vm_compute in E3. injection E3 as <-.
    vm_compute in E4. injection E4 as <- <- <-. vm_compute in E5. injection E5 as <- <- <-. vm_compute. auto 10. }
  destruct Hi as (-> & -> & -> & Hi). exists t5. split; [|exact Hi].
  refine (pr_get 256 t4 [((100, 50), 3)] 60 7 t5 0 u5 _ _ E5); [|lia].
  refine (pr_release 256 t3 [((100, 50), 3)] _ t4 c4 l4 _ E4).
  refine (pr_put 256 t2 [((100, 50), 3)] 0 100 1 [] t3 _ E3). cbn [app].
  refine (pr_get 256 t1 [((0, 100), 1)] 50 3 t2 100 u2 _ _ E2); [|lia].
  refine (pr_get 256 (pt_new 256 false) [] 100 1 t1 0 u1 _ _ E1); [constructor|lia].
Qed.

Print Assumptions hugepage_runs.
Print Assumptions hugepage_get.
Print Assumptions hugepage_put.
Print Assumptions released_pages_exact.
Print Assumptions get_reports_released.
Print Assumptions release_free_exact.
Print Assumptions release_free_all.
Print Assumptions mark_subreleased_exact.
Print Assumptions span_stats_exact.
