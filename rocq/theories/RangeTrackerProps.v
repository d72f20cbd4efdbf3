(** * RangeTracker histories (base of C13, used by C14 and C32)

    Specification.  [live] is the list of page runs (start, length) the users
    hold after a history of [rt_reach] steps.  A run is free when no live run
    meets it. *)
From Verif Require Import Base Bitmap BitmapProofs RangeTrackerProofs RangeTrackerProofs2.

Definition run_free (N : Z) (live : list (Z * Z)) (i n : Z) : Prop :=
  0 <= i /\ i + n <= N /\ forall r, In r live -> disj (i, n) r.

(** The run cannot be extended on either side. *)
Definition run_maximal (N : Z) (live : list (Z * Z)) (i n : Z) : Prop :=
  run_free N live i n /\ ~ run_free N live (i - 1) (n + 1) /\ ~ run_free N live i (n + 1).

Lemma run_free_bits N t live i n : live_ok N t live -> 0 < n ->
  run_free N live i n <-> free_run N (rt_bits t) i n.
Proof.
  intros Hl Hn. split.
  - intros (A & B & C). split; [assumption|]. split; [assumption|]. eapply live_bit_free; eassumption.
  - intros H. split; [apply H|]. split; [apply H|]. eapply live_disj_free; eassumption.
Qed.

(** The runs held are pairwise disjoint and inside the tracked range, and the
    reported statistics are exact. *)
Theorem tracker_live_exact : forall N t live, 0 <= N -> rt_reach N t live ->
  ForallOrdPairs disj live /\
  (forall r, In r live -> 0 <= fst r /\ 0 < snd r /\ fst r + snd r <= N) /\
  rt_nused t = zsum (map snd live) /\
  rt_nallocs t = Z.of_nat (length live) /\
  0 <= rt_nallocs t <= rt_nused t /\ rt_nused t <= N /\
  (* the longest free run *)
  (0 < rt_longest t -> exists i, run_free N live i (rt_longest t)) /\
  (forall i n, 0 < n -> run_free N live i n -> n <= rt_longest t).
Proof.
  intros N t live HN H. pose proof (rt_reach_ok N t live HN H) as Hl.
  destruct (lo_ok _ _ _ Hl) as [W (L0 & (li & Lr) & Lmax) U].
  assert (Hb : 0 <= Z.of_nat (length live) <= zsum (map snd live)).
  { pose proof (lo_in _ _ _ Hl) as Hin. clear - Hin. induction live as [|r live IH]; cbn [length map].
    - cbn. lia.
    - rewrite zsum_cons. destruct (Hin r (or_introl eq_refl)). specialize (IH (fun x Hx => Hin x (or_intror Hx))). lia. }
  pose proof (zcount_bound (bit (rt_bits t)) (Z.to_nat N) 0) as Hc.
  split; [apply (lo_disj _ _ _ Hl)|]. split; [apply (lo_in _ _ _ Hl)|]. split; [apply (lo_used _ _ _ Hl)|].
  split; [apply (lo_allocs _ _ _ Hl)|].
  rewrite (lo_allocs _ _ _ Hl). split; [rewrite (lo_used _ _ _ Hl); lia|]. split; [lia|]. split.
  - intros HL. exists li. apply (run_free_bits N t live); assumption.
  - intros i n Hn Hf. apply (Lmax i). apply (run_free_bits N t live); assumption.
Qed.

(** A request of [n] succeeds iff a free run of that length exists; it returns
    the prefix of a shortest maximal free run that fits. *)
Theorem tracker_get_iff_fits : forall N t live n, 0 <= N -> rt_reach N t live -> 0 < n ->
  ((exists t' i, find_and_mark N t n = Some (t', i)) <-> exists i, run_free N live i n) /\
  (forall t' i, find_and_mark N t n = Some (t', i) ->
     rt_reach N t' ((i, n) :: live) /\ run_free N live i n /\
     exists len, n <= len /\ run_maximal N live i len /\
       forall i' len', n <= len' -> run_maximal N live i' len' -> len <= len').
Proof.
  intros N t live n HN H Hn. pose proof (rt_reach_ok N t live HN H) as Hl.
  destruct (find_and_mark_spec N t n HN (lo_ok _ _ _ Hl) Hn) as (S1 & S2).
  destruct (lo_ok _ _ _ Hl) as [W (L0 & (li & Lr) & Lmax) U].
  assert (Hmax : forall i len, 0 < len -> run_maximal N live i len <->
     (free_run N (rt_bits t) i len /\ (0 < i -> bit (rt_bits t) (i - 1) = true) /\
      (i + len < N -> bit (rt_bits t) (i + len) = true))).
  { intros i len Hlen. unfold run_maximal. rewrite !(run_free_bits N t live) by (assumption || lia).
    split.
    - intros ((A & B & C) & D & E). split; [split; auto|]. split; intros Hi.
      + destruct (bit (rt_bits t) (i - 1)) eqn:Eb; [reflexivity|]. exfalso. apply D.
        split; [lia|]. split; [lia|]. intros j Hj. destruct (Z.eq_dec j (i - 1)) as [->|]; [assumption|apply C; lia].
      + destruct (bit (rt_bits t) (i + len)) eqn:Eb; [reflexivity|]. exfalso. apply E.
        split; [lia|]. split; [lia|]. intros j Hj. destruct (Z.eq_dec j (i + len)) as [->|]; [assumption|apply C; lia].
    - intros ((A & B & C) & D & E). split; [split; auto|]. split; intros (F1 & F2 & F3).
      + rewrite F3 in D by lia. specialize (D ltac:(lia)). discriminate.
      + rewrite F3 in E by lia. specialize (E ltac:(lia)). discriminate. }
  split; [split|].
  - intros (t' & i & E). destruct (Z.le_gt_cases n (rt_longest t)) as [Hle|Hgt]; [|rewrite S2 in E by lia; discriminate].
    destruct (S1 Hle) as (t1 & i1 & E1 & _ & B2 & _). exists i1. apply (run_free_bits N t live); assumption.
  - intros (i & Hf). apply (run_free_bits N t live) in Hf; [|assumption|assumption].
    destruct (S1 (Lmax _ _ Hf)) as (t1 & i1 & E1 & _). eauto.
  - intros t' i E. destruct (Z.le_gt_cases n (rt_longest t)) as [Hle|Hgt]; [|rewrite S2 in E by lia; discriminate].
    destruct (S1 Hle) as (t1 & i1 & E1 & _ & B2 & _ & _ & _ & len & C1 & C2 & C3 & C4 & C5).
    rewrite E in E1. injection E1 as <- <-. split; [eapply rr_get; eassumption|].
    split; [apply (run_free_bits N t live); assumption|]. exists len. split; [assumption|].
    split; [apply Hmax; [lia|]; auto|]. intros i' len' Hn' Hm. apply Hmax in Hm; [|lia].
    destruct Hm as (D1 & D2 & D3). eapply C5; eassumption.
Qed.

(** Returning a held run always succeeds, and so does marking a free one. *)
Theorem tracker_put_succeeds : forall N t l1 i n l2, 0 <= N -> rt_reach N t (l1 ++ (i, n) :: l2) ->
  exists t', unmark N t i n = Some t' /\ rt_reach N t' (l1 ++ l2).
Proof.
  intros N t l1 i n l2 HN H. pose proof (rt_reach_ok N t _ HN H) as Hl.
  assert (Hin : In (i, n) (l1 ++ (i, n) :: l2)) by (apply in_mid; auto).
  destruct (lo_in _ _ _ Hl _ Hin) as (A & B & C). cbn [fst snd] in *.
  destruct (unmark_spec N t i n HN (lo_ok _ _ _ Hl) B A C) as (t1 & E1 & _).
  { intros j Hj. apply (live_bit_set _ _ _ _ _ Hl Hin). exact Hj. }
  exists t1. split; [assumption|]. eapply rr_put; eassumption.
Qed.

Theorem tracker_mark_succeeds : forall N t live i n, 0 <= N -> rt_reach N t live -> 0 < n ->
  run_free N live i n -> exists t', mark N t i n = Some t' /\ rt_reach N t' ((i, n) :: live).
Proof.
  intros N t live i n HN H Hn Hf. pose proof (rt_reach_ok N t _ HN H) as Hl.
  assert (Hf' := Hf). apply (run_free_bits N t live) in Hf'; [|assumption|assumption].
  destruct (mark_spec N t i n HN (lo_ok _ _ _ Hl) Hn Hf') as (t1 & E1 & _).
  exists t1. split; [assumption|]. destruct Hf as (A & B & C). eapply rr_mark; eassumption.
Qed.

(** A reachable tracker of 256 pages with two live runs and a hole. *)
Example tracker_example : exists t i, 
  rt_reach 256 t [(100, 50); (0, 30)] /\ rt_longest t = 106 /\ rt_nused t = 80 /\
  find_and_mark 256 t 60 = Some (i, 30).
Proof.
  destruct (mark 256 (rt_init 256) 0 30) as [t1|] eqn:E1; [|vm_compute in E1; discriminate].
  destruct (mark 256 t1 100 50) as [t2|] eqn:E2.
  2:{ exfalso. vm_compute in E1. injection E1 as <-. vm_compute in E2. discriminate. }
  destruct (find_and_mark 256 t2 60) as [(t3, i)|] eqn:E3.
  2:{ exfalso. vm_compute in E1. injection E1 as <-. vm_compute in E2. injection E2 as <-. vm_compute in E3. discriminate. }
  exists t2, t3. split.
  - eapply rr_mark; [|lia|lia|lia| |exact E2].
    + eapply rr_mark; [apply rr_init|lia|lia|lia| |exact E1]. contradiction.
    + intros r [<-|[]]. right. cbn. lia.
  - rewrite E3. vm_compute in E1. injection E1 as <-. vm_compute in E2. injection E2 as <-.
    split; [reflexivity|]. split; [reflexivity|]. vm_compute in E3. injection E3 as <- <-. reflexivity.
Qed.

Print Assumptions tracker_live_exact.
Print Assumptions tracker_get_iff_fits.
Print Assumptions tracker_put_succeeds.
Print Assumptions tracker_mark_succeeds.
