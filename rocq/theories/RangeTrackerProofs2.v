(** Histories of a RangeTracker and the ranges its users hold. *)
From Verif Require Import Base Bitmap BitmapProofs RangeTrackerProofs.

(** Legal histories: a user asks for a run ([FindAndMark], after checking the
    longest free run, or [Mark] of a run it knows to be free) and later returns
    one of the runs it holds ([Unmark]).  [live] lists the runs held. *)
Inductive rt_reach (N : Z) : tracker -> list (Z * Z) -> Prop :=
| rr_init : rt_reach N (rt_init N) []
| rr_get t live n t' i : rt_reach N t live -> 0 < n ->
    find_and_mark N t n = Some (t', i) -> rt_reach N t' ((i, n) :: live)
| rr_mark t live i n t' : rt_reach N t live -> 0 < n -> 0 <= i -> i + n <= N ->
    (forall r, In r live -> disj (i, n) r) ->
    mark N t i n = Some t' -> rt_reach N t' ((i, n) :: live)
| rr_put t l1 i n l2 t' : rt_reach N t (l1 ++ (i, n) :: l2) ->
    unmark N t i n = Some t' -> rt_reach N t' (l1 ++ l2).

Record live_ok (N : Z) (t : tracker) (live : list (Z * Z)) : Prop := {
  lo_ok : rt_ok N t;
  lo_disj : ForallOrdPairs disj live;
  lo_in : forall r, In r live -> 0 <= fst r /\ 0 < snd r /\ fst r + snd r <= N;
  lo_bits : forall j, bit (rt_bits t) j = true <-> (0 <= j < N /\ exists r, In r live /\ in_rng r j)
      \/ (~ (0 <= j < N) /\ bit (rt_bits t) j = true);
  lo_used : rt_nused t = zsum (map snd live);
  lo_allocs : rt_nallocs t = Z.of_nat (length live)
}.

Lemma live_bit_free N t live i n : live_ok N t live -> 0 <= i -> i + n <= N ->
  (forall r, In r live -> disj (i, n) r) -> forall j, i <= j < i + n -> bit (rt_bits t) j = false.
Proof.
  intros Hl Hi Hn Hd j Hj. destruct (bit (rt_bits t) j) eqn:E; [|reflexivity].
  apply (lo_bits _ _ _ Hl) in E. destruct E as [(_ & r & Hr & Hin)|(H & _)]; [|lia].
  specialize (Hd r Hr). unfold disj, in_rng in *. cbn [fst snd] in *. lia.
Qed.

Lemma live_bit_set N t live r j : live_ok N t live -> In r live -> in_rng r j -> bit (rt_bits t) j = true.
Proof.
  intros Hl Hr Hj. apply (lo_bits _ _ _ Hl). left. destruct (lo_in _ _ _ Hl r Hr) as (A & B & C).
  unfold in_rng in *. split; [lia|]. exists r. auto.
Qed.

Lemma live_disj_free N t live i n : live_ok N t live -> 0 < n -> free_run N (rt_bits t) i n ->
  forall r, In r live -> disj (i, n) r.
Proof.
  intros Hl Hn (F1 & F2 & F3) r Hr. destruct (lo_in _ _ _ Hl r Hr) as (A & B & C).
  unfold disj. cbn [fst snd].
  destruct (Z.le_gt_cases (i + n) (fst r)); [left; lia|].
  destruct (Z.le_gt_cases (fst r + snd r) i); [right; lia|].
  exfalso. set (j := Z.max i (fst r)).
  assert (bit (rt_bits t) j = true) by (apply (live_bit_set N t live r); [assumption|assumption|unfold in_rng; lia]).
  rewrite F3 in H1 by lia. discriminate.
Qed.

Lemma live_add N t live i n t' : live_ok N t live -> 0 < n -> free_run N (rt_bits t) i n ->
  rt_ok N t' -> rt_bits t' = set_range N (rt_bits t) i n ->
  rt_nused t' = rt_nused t + n -> rt_nallocs t' = rt_nallocs t + 1 ->
  live_ok N t' ((i, n) :: live).
Proof.
  intros Hl Hn Hf Hok Hb Hu Ha. pose proof (live_disj_free _ _ _ _ _ Hl Hn Hf) as Hd.
  destruct Hf as (F1 & F2 & F3). constructor.
  - assumption.
  - apply fop_cons; [assumption|apply (lo_disj _ _ _ Hl)].
  - intros r [<-|Hr]; [cbn; lia|apply (lo_in _ _ _ Hl r Hr)].
  - intros j. rewrite Hb, set_range_bits by lia. split.
    + intros H. apply orb_true_iff in H. destruct H as [H|H].
      * unfold in_range in H. left. split; [lia|]. exists (i, n). split; [left; reflexivity|unfold in_rng; cbn; lia].
      * assert (H' := H). apply (lo_bits _ _ _ Hl) in H. destruct H as [(H & r & Hr & Hin)|(H & _)].
        -- left. split; [assumption|]. exists r. split; [right|]; assumption.
        -- right. split; [assumption|]. rewrite H'. apply orb_true_r.
    + intros [(H & r & Hr & Hin)|(_ & H)]; [|assumption]. destruct Hr as [<-|Hr].
      * unfold in_rng in Hin. cbn in Hin. unfold in_range. lia.
      * rewrite (live_bit_set N t live r j Hl Hr Hin). apply orb_true_r.
  - cbn [map snd]. rewrite zsum_cons, Hu, (lo_used _ _ _ Hl). lia.
  - cbn [length]. rewrite Ha, (lo_allocs _ _ _ Hl). lia.
Qed.

Lemma zsum_map_mid (l1 l2 : list (Z * Z)) x :
  zsum (map snd (l1 ++ x :: l2)) = snd x + zsum (map snd (l1 ++ l2)).
Proof. rewrite !map_app, !zsum_app. cbn. lia. Qed.

Lemma live_remove N t l1 i n l2 t' : live_ok N t (l1 ++ (i, n) :: l2) ->
  rt_ok N t' -> rt_bits t' = clear_range N (rt_bits t) i n ->
  rt_nused t' = rt_nused t - n -> rt_nallocs t' = rt_nallocs t - 1 ->
  live_ok N t' (l1 ++ l2).
Proof.
  intros Hl Hok Hb Hu Ha.
  assert (Hin : In (i, n) (l1 ++ (i, n) :: l2)) by (apply in_mid; auto).
  destruct (lo_in _ _ _ Hl _ Hin) as (A & B & C). cbn [fst snd] in *.
  pose proof (lo_disj _ _ _ Hl) as Hd. apply (fop_mid disj disj_sym) in Hd. destruct Hd as (Hd1 & Hd2).
  constructor.
  - assumption.
  - assumption.
  - intros r Hr. apply (lo_in _ _ _ Hl). apply in_mid. auto.
  - intros j. rewrite Hb, clear_range_bits by lia. split.
    + intros H. assert (H0 := H). apply andb_true_iff in H. destruct H as (H1 & H2).
      apply (lo_bits _ _ _ Hl) in H2. destruct H2 as [(H2 & r & Hr & Hrin)|(H2 & _)]; [|right; auto].
      left. split; [assumption|]. exists r. split; [|assumption]. apply in_mid in Hr. destruct Hr as [->|Hr]; [|assumption].
      unfold in_rng, in_range in *. cbn [fst snd] in *. lia.
    + intros [(H & r & Hr & Hrin)|(_ & H)]; [|assumption].
      rewrite (live_bit_set N t _ r j Hl); [|apply in_mid; auto|assumption].
      specialize (Hd1 r Hr). unfold disj, in_rng, in_range in *. cbn [fst snd] in *. lia.
  - rewrite Hu, (lo_used _ _ _ Hl), zsum_map_mid. cbn [snd]. lia.
  - rewrite Ha, (lo_allocs _ _ _ Hl), length_mid. lia.
Qed.

Lemma rt_reach_ok N t live : 0 <= N -> rt_reach N t live -> live_ok N t live.
Proof.
  intros HN H. induction H as [|t live n t' i H IH Hn E|t live i n t' H IH Hn Hi HiN Hd E|t l1 i n l2 t' H IH E].
  - constructor.
    + apply rt_init_ok; assumption.
    + constructor.
    + contradiction.
    + intros j. cbn [rt_bits rt_init]. rewrite bit_clear_all. split; [discriminate|].
      intros [(_ & r & [] & _)|(_ & H)]; assumption.
    + reflexivity.
    + reflexivity.
  - destruct (find_and_mark_spec N t n HN (lo_ok _ _ _ IH) Hn) as (S1 & S2).
    destruct (Z.le_gt_cases n (rt_longest t)) as [Hle|Hgt]; [|rewrite S2 in E by lia; discriminate].
    destruct (S1 Hle) as (t1 & i1 & E1 & B1 & B2 & B3 & B4 & B5 & _).
    rewrite E in E1. injection E1 as <- <-. eapply live_add; eassumption.
  - assert (Hf : free_run N (rt_bits t) i n).
    { split; [assumption|]. split; [assumption|]. eapply live_bit_free; eassumption. }
    destruct (mark_spec N t i n HN (lo_ok _ _ _ IH) Hn Hf) as (t1 & E1 & B1 & B2 & B3 & B4).
    rewrite E in E1. injection E1 as <-. eapply live_add; eassumption.
  - assert (Hin : In (i, n) (l1 ++ (i, n) :: l2)) by (apply in_mid; auto).
    destruct (lo_in _ _ _ IH _ Hin) as (A & B & C). cbn [fst snd] in *.
    destruct (unmark_spec N t i n HN (lo_ok _ _ _ IH) B A C) as (t1 & E1 & B1 & B2 & B3 & B4).
    { intros j Hj. apply (live_bit_set _ _ _ _ _ IH Hin). exact Hj. }
    rewrite E in E1. injection E1 as <-. eapply live_remove; eassumption.
Qed.
