(** C64: how often sampled allocations are guarded. *)
From Verif Require Import Base GuardRate.

(** ---- One decision ---- *)
(** A large allocation is never guarded, none is when guarding is switched off, and otherwise one is
    only if the guarded allocations so far, each counted as the guarded interval, stay within
    the sampled ones, each counted as the profile interval. *)
Theorem guard_only_within_rate G P pages sampled guarded covered a M rnd :
  0 <= P -> 0 <= sampled -> 0 <= guarded ->
  try_sample G P pages sampled guarded covered a M rnd = GoAhead ->
  pages <= 1 /\ 0 <= G /\ (guarded = 0 \/ guarded * G <= sampled * P).
Proof.
  intros HP Hs Hg. unfold try_sample. destruct (Z.ltb_spec 1 pages); [discriminate|]. destruct (Z.ltb_spec G 0); [discriminate|].
  destruct (Z.ltb_spec 0 G); cbn [andb]; [|intros _; repeat split; try lia; right; nia].
  destruct (Z.ltb_spec 0 guarded) as [K|K]; [|intros _; repeat split; lia].
  destruct (rate_limited G P sampled guarded) eqn:R; [discriminate|]. intros _. repeat split; try lia. right.
  unfold rate_limited in R. apply Z.ltb_ge in R.
  pose proof (Z.mul_div_le (sampled * 10) guarded K) as D.
  assert (guarded * (G * 10) <= guarded * (sampled * 10 / guarded * P)) by (apply Z.mul_le_mono_nonneg_l; lia).
  assert (guarded * (sampled * 10 / guarded) * P <= sampled * 10 * P) by (apply Z.mul_le_mono_nonneg_r; lia). nia.
Qed.
Print Assumptions guard_only_within_rate.

(** It is not refused for the rate if there is a tenth of the profile interval to spare for each
    guarded allocation, nor ever with the guarded interval 0 or before the first one. *)
Theorem guard_not_rate_limited G P pages sampled guarded covered a M rnd :
  0 <= P -> 0 <= sampled -> 0 <= guarded ->
  G <= 0 \/ guarded = 0 \/ guarded * (10 * G + P) <= 10 * sampled * P ->
  try_sample G P pages sampled guarded covered a M rnd <> RateLimited.
Proof.
  intros HP Hs Hg H. unfold try_sample. destruct (Z.ltb_spec 1 pages); [discriminate|]. destruct (Z.ltb_spec G 0); [discriminate|].
  destruct (Z.ltb_spec 0 G); cbn [andb]; [|discriminate].
  destruct (Z.ltb_spec 0 guarded) as [K|K]; [|discriminate].
  destruct H as [H|[H|H]]; [lia|lia|].
  assert (R : rate_limited G P sampled guarded = false); [|rewrite R; destruct (filtered covered a M rnd); discriminate].
  unfold rate_limited. apply Z.ltb_ge.
  pose proof (Z.mul_succ_div_gt (sampled * 10) guarded K) as D.
  assert (E : 10 * sampled * P <= guarded * (sampled * 10 / guarded) * P + guarded * P).
  { replace (guarded * (sampled * 10 / guarded) * P + guarded * P) with (guarded * Z.succ (sampled * 10 / guarded) * P) by nia.
    apply Z.mul_le_mono_nonneg_r; lia. }
  apply (Z.mul_le_mono_pos_l _ _ guarded); [lia|]. nia.
Qed.
Print Assumptions guard_not_rate_limited.

(** Only an allocation whose stack is covered is filtered, and from half the pool in use on every
    such allocation is. *)
Theorem guard_filter G P pages sampled guarded covered a M rnd :
  0 < M -> 0 <= a -> 0 <= rnd ->
  let d := try_sample G P pages sampled guarded covered a M rnd in
  (d = Filtered -> covered = true) /\
  (covered = true -> M <= 2 * a -> 0 < G -> 0 < guarded -> d <> GoAhead).
Proof.
  intros HM Ha Hr d. unfold d, try_sample, filtered.
  destruct (Z.ltb_spec 1 pages); [split; intros; discriminate|]. destruct (Z.ltb_spec G 0); [split; intros; discriminate|].
  destruct (Z.ltb_spec 0 G); cbn [andb]; [|split; intros; [discriminate|lia]].
  destruct (Z.ltb_spec 0 guarded); [|split; intros; [discriminate|lia]].
  destruct (rate_limited G P sampled guarded); [split; intros; discriminate|].
  destruct covered; cbn [andb]; [|split; [|intros; discriminate]; discriminate].
  split; [auto|]. intros _ H4 _ _.
  assert (49 <= a * 100 / M) by (apply Z.div_le_lower_bound; lia).
  pose proof (Z.mod_pos_bound rnd 50). destruct (Z.leb_spec (rnd mod 50) (a * 100 / M)); [discriminate|lia].
Qed.
Print Assumptions guard_filter.

(** ---- All schedules ---- *)
Section Rate.
Context (T : nat) (G P M : Z).
Hypothesis HG : 0 < G.
Hypothesis HP : 0 <= P.

Definition may_pass (x : Z) (c : call) : bool := match c with CLoaded _ g => g <=? x | CPassed => true | CReserved => false end.
Definition count_may (x : Z) (l : list call) : Z := Z.of_nat (length (filter (may_pass x) l)).
Lemma count_may_app x l1 l2 : count_may x (l1 ++ l2) = count_may x l1 + count_may x l2.
Proof. unfold count_may. rewrite filter_app, app_length. lia. Qed.
Lemma count_may_cons x c l : count_may x (c :: l) = (if may_pass x c then 1 else 0) + count_may x l.
Proof. unfold count_may. cbn [filter]. destruct (may_pass x c); cbn [length]; lia. Qed.
Lemma count_may_le x l : 0 <= count_may x l <= Z.of_nat (length l).
Proof. induction l as [|c l IH]; [unfold count_may; cbn [filter length]; lia|]. rewrite count_may_cons. cbn [length]. destruct (may_pass x c); lia. Qed.

Definition is_reserved (c : call) : bool := match c with CReserved => true | _ => false end.
Definition reserved (l : list call) : Z := Z.of_nat (length (filter is_reserved l)).
Lemma reserved_app l1 l2 : reserved (l1 ++ l2) = reserved l1 + reserved l2.
Proof. unfold reserved. rewrite filter_app, app_length. lia. Qed.
Lemma reserved_cons c l : reserved (c :: l) = (if is_reserved c then 1 else 0) + reserved l.
Proof. unfold reserved. cbn [filter]. destruct (is_reserved c); cbn [length]; lia. Qed.
Lemma reserved_nonneg l : 0 <= reserved l. Proof. unfold reserved. lia. Qed.
Definition loaded_ok (c : call) : Prop := match c with CLoaded _ g => 0 <= g | _ => True end.

(** [x] ranges over the guarded counts not below what the rate allows now. *)
Definition inv (st : grst) : Prop :=
  (length (r_calls st) <= T)%nat /\ 0 <= r_sampled st /\ 0 <= r_live st /\ r_alloc st = r_live st + reserved (r_calls st) /\ r_alloc st <= Z.max M 0 /\
  Forall loaded_ok (r_calls st) /\ reserved (r_calls st) <= r_guarded st /\
  (forall x, 0 <= x -> r_sampled st * P < (x + 1) * G -> r_guarded st + count_may x (r_calls st) <= x + Z.of_nat T).

Lemma inv_init : inv (mk_grst 0 0 0 0 []).
Proof.
  unfold inv. cbn [r_calls r_sampled r_live r_alloc r_guarded]. unfold reserved, count_may. cbn [filter length].
  repeat split; auto; try lia.
Qed.

Lemma inv_step st st' : inv st -> gr_step T G P M st st' -> inv st'.
Proof.
  intros (L & S & V & A & B & F & R & I) H.
  destruct H as [g s a v l pages Hl|g s a v l1 l2 pages g0 covered rnd l' ->|g s a v l1 l2 Ha|g s a v l1 l2 Ha|g s a v l1 l2|g s a v l1 l2|g s a v l|g s a v l Hv];
    unfold inv; cbn [r_calls r_sampled r_live r_alloc r_guarded] in *.
  - rewrite reserved_cons. cbn [is_reserved length]. pose proof (reserved_nonneg l). repeat split; try lia.
    + constructor; [cbn; lia|auto].
    + intros x Hx K. rewrite count_may_cons. cbn [may_pass]. specialize (I x Hx K). destruct (Z.leb_spec g x); [|lia].
      pose proof (count_may_le x l). lia.
  - apply Forall_app in F as [F1 F2]. pose proof (Forall_inv F2) as F3. pose proof (Forall_inv_tail F2) as F4. cbn [loaded_ok] in F3.
    rewrite app_length in L. cbn [length] in L. rewrite reserved_app, reserved_cons in *. cbn [is_reserved] in *.
    assert (D : try_sample G P pages s g0 covered a M rnd = GoAhead \/ try_sample G P pages s g0 covered a M rnd <> GoAhead) by (destruct (try_sample G P pages s g0 covered a M rnd); auto; right; discriminate).
    destruct D as [D|D].
    + rewrite D. cbn [app]. rewrite reserved_cons, !app_length. cbn [length is_reserved]. repeat split; try lia.
      * apply Forall_app; split; auto. constructor; cbn; auto.
      * intros x Hx K. specialize (I x Hx K). rewrite count_may_app, count_may_cons in *. cbn [may_pass] in *.
        apply guard_only_within_rate in D as (_ & _ & D); auto.
        assert (g0 <= x). { destruct D as [->|D]; [lia|]. apply Z.nlt_ge. intros N. assert ((x + 1) * G <= g0 * G) by (apply Z.mul_le_mono_nonneg_r; lia). lia. }
        destruct (Z.leb_spec g0 x); lia.
    + replace (match try_sample G P pages s g0 covered a M rnd with GoAhead => [CPassed] | _ => [] end) with (@nil call) by (destruct (try_sample G P pages s g0 covered a M rnd); auto; congruence).
      cbn [app]. rewrite app_length. repeat split; try lia.
      * apply Forall_app; auto.
      * intros x Hx K. specialize (I x Hx K). rewrite count_may_app, count_may_cons in I. rewrite count_may_app.
        destruct (may_pass x (CLoaded pages g0)); lia.
  - apply Forall_app in F as [F1 F2]. pose proof (Forall_inv F2) as F3. pose proof (Forall_inv_tail F2) as F4.
    rewrite app_length in *. cbn [length] in *. rewrite reserved_app, reserved_cons in *. cbn [is_reserved] in *. repeat split; try lia.
    + apply Forall_app; split; auto.
    + intros x Hx K. specialize (I x Hx K). rewrite count_may_app, count_may_cons in *. cbn [may_pass] in *. lia.
  - apply Forall_app in F as [F1 F2]. pose proof (Forall_inv F2) as F3. pose proof (Forall_inv_tail F2) as F4.
    rewrite app_length in *. cbn [length] in *. rewrite reserved_app, reserved_cons in *. cbn [is_reserved] in *. repeat split; try lia.
    + apply Forall_app; split; auto.
    + intros x Hx K. specialize (I x Hx K). rewrite count_may_app, count_may_cons in *. cbn [may_pass] in *. lia.
  - apply Forall_app in F as [F1 F2]. pose proof (Forall_inv F2) as F3. pose proof (Forall_inv_tail F2) as F4.
    rewrite app_length in *. cbn [length] in *. rewrite reserved_app, reserved_cons in *. cbn [is_reserved] in *. repeat split; try lia.
    + apply Forall_app; split; auto.
    + intros x Hx K. specialize (I x Hx K). rewrite count_may_app, count_may_cons in *. cbn [may_pass] in *. lia.
  - apply Forall_app in F as [F1 F2]. pose proof (Forall_inv F2) as F3. pose proof (Forall_inv_tail F2) as F4.
    rewrite app_length in *. cbn [length] in *. rewrite reserved_app, reserved_cons in *. cbn [is_reserved] in *. pose proof (reserved_nonneg l1). pose proof (reserved_nonneg l2). repeat split; try lia.
    + apply Forall_app; split; auto.
    + intros x Hx K. specialize (I x Hx K). rewrite count_may_app, count_may_cons in *. cbn [may_pass] in *. lia.
  - do 7 (split; [first [assumption | lia]|]). intros x Hx K. apply I; auto. nia.
  - do 7 (split; [first [assumption | lia]|]). exact I.
Qed.

Lemma reach_inv st : gr_reach T G P M st -> inv st.
Proof. induction 1; [apply inv_init|eapply inv_step; eauto]. Qed.
End Rate.

(** Whatever the schedule of [T] threads, frees and failures of the system: the number of guarded
    allocations exceeds what the rate allows for the sampled ones by at most [T]; and no more
    are alive than the pool is meant to hold. *)
Theorem guard_rate_all_schedules T G P M st : 0 < G -> 0 <= P -> gr_reach T G P M st ->
  (r_guarded st - Z.of_nat T) * G <= r_sampled st * P /\ 0 <= r_guarded st /\ 0 <= r_live st <= Z.max M 0.
Proof.
  intros HG HP H. apply reach_inv in H as (L & S & V & A & B & F & R & I); auto.
  pose proof (reserved_nonneg (r_calls st)). split; [|split; lia].
  assert (D : r_sampled st * P < (r_sampled st * P / G + 1) * G).
  { pose proof (Z.mul_succ_div_gt (r_sampled st * P) G HG). nia. }
  assert (D0 : 0 <= r_sampled st * P / G) by (apply Z.div_pos; nia).
  specialize (I _ D0 D). pose proof (count_may_le (r_sampled st * P / G) (r_calls st)).
  pose proof (Z.mul_div_le (r_sampled st * P) G HG).
  assert ((r_guarded st - Z.of_nat T) * G <= (r_sampled st * P / G) * G) by (apply Z.mul_le_mono_nonneg_r; lia). lia.
Qed.
Print Assumptions guard_rate_all_schedules.

(** The bound is met up to the stated number: two threads, rate one in ten, and two are guarded with
    none sampled. *)
Example guard_rate_two_threads : exists st, gr_reach 2 10 1 4 st /\ r_guarded st = 2 /\ r_sampled st = 0.
Proof.
  eexists. split; [|split].
  - eapply gr_next; [eapply gr_next; [eapply gr_next; [eapply gr_next; [eapply gr_next; [eapply gr_next; [apply gr_init|]|]|]|]|]|].
    + apply (gr_begin _ _ _ _ 0 0 0 0 [] 1). cbn. lia.
    + apply (gr_begin _ _ _ _ 0 0 0 0 [CLoaded 1 0] 1). cbn. lia.
    + apply (gr_decide _ _ _ _ 0 0 0 0 [] [CLoaded 1 0] 1 0 false 0 [CPassed]). reflexivity.
    + apply (gr_decide _ _ _ _ 0 0 0 0 [CPassed] [] 1 0 false 0 [CPassed]). reflexivity.
    + apply (gr_reserve _ _ _ _ 0 0 0 0 [] [CPassed]). lia.
    + apply (gr_reserve _ _ _ _ 1 0 1 0 [CReserved] []). lia.
  - reflexivity.
  - reflexivity.
Qed.

(** ---- The rate is reached ---- *)
(** A thread alone that samples allocations that are not covered: with the guarded interval at
    least the profile interval, the guarded ones are within the rate, up to one, and no
    less than 10 P in 10 G + P of the samples, up to one; and with a smaller guarded interval all are. *)
Theorem guard_rate_reached G P n : 0 < P -> P <= G ->
  let '(guarded, sampled) := seq_run G P n in
  sampled = Z.of_nat n /\ (guarded - 1) * G <= sampled * P /\ 10 * P * (sampled - 1) <= guarded * (10 * G + P).
Proof.
  intros HP HG. assert (Q : 0 <= fst (seq_run G P n) /\ let '(guarded, sampled) := seq_run G P n in
    sampled = Z.of_nat n /\ (guarded - 1) * G <= sampled * P /\ 10 * P * (sampled - 1) <= guarded * (10 * G + P)).
  2: exact (proj2 Q).
  induction n as [|n IH]; [cbn; nia|]. cbn [seq_run]. destruct (seq_run G P n) as [g s]. cbn [fst] in *.
  destruct IH as (I0 & I1 & I2 & I3).
  destruct (try_sample G P 1 s g false 0 1 0) eqn:D; cbn [fst].
  - exfalso. revert D. unfold try_sample, filtered. cbn [andb]. change (1 <? 1) with false. cbv iota. destruct (Z.ltb_spec G 0); [lia|]. destruct ((0 <? G) && (0 <? g)); [destruct (rate_limited G P s g)|]; discriminate.
  - exfalso. revert D. unfold try_sample, filtered. cbn [andb]. change (1 <? 1) with false. cbv iota. destruct (Z.ltb_spec G 0); [lia|]. destruct ((0 <? G) && (0 <? g)); [destruct (rate_limited G P s g)|]; discriminate.
  - assert (N : ~ (g * (10 * G + P) <= 10 * s * P)).
    { intros K. revert D. apply guard_not_rate_limited; try lia. }
    repeat split; try lia; nia.
  - exfalso. revert D. unfold try_sample, filtered. cbn [andb]. change (1 <? 1) with false. cbv iota. destruct (Z.ltb_spec G 0); [lia|]. destruct ((0 <? G) && (0 <? g)); [destruct (rate_limited G P s g)|]; discriminate.
  - apply guard_only_within_rate in D as (_ & _ & D); try lia.
Qed.
Print Assumptions guard_rate_reached.

Theorem guard_all_of_them G P n : 0 < P -> 0 <= G <= P -> seq_run G P n = (Z.of_nat n, Z.of_nat n).
Proof.
  intros HP HG. induction n as [|n IH]; [reflexivity|]. cbn [seq_run]. rewrite IH.
  assert (D : try_sample G P 1 (Z.of_nat n) (Z.of_nat n) false 0 1 0 = GoAhead).
  { unfold try_sample, filtered. destruct (Z.ltb_spec 1 1); [lia|]. destruct (Z.ltb_spec G 0); [lia|]. cbn [andb].
    destruct (0 <? G); cbn [andb]; auto. destruct (Z.ltb_spec 0 (Z.of_nat n)); auto.
    unfold rate_limited. replace (Z.of_nat n * 10 / Z.of_nat n) with 10 by (symmetry; rewrite Z.mul_comm; apply Z.div_mul; lia).
    destruct (Z.ltb_spec (10 * P) (G * 10)); [lia|reflexivity]. }
  rewrite D. f_equal; lia.
Qed.
Print Assumptions guard_all_of_them.

(** With the default intervals, one 50 times the other. *)
Example guard_rate_ex : seq_run 50 1 1000 = (20, 1000).
Proof. vm_compute. reflexivity. Qed.
Example guard_try_ex : map (fun g => try_sample 50 2 1 1000 g true 3 64 17) [0; 39; 40; 41] = [GoAhead; GoAhead; GoAhead; RateLimited]
  /\ try_sample 50 2 1 1000 39 true 31 64 48 = Filtered /\ try_sample 50 2 2 1000 0 false 0 64 0 = TooLarge /\ try_sample (-1) 2 1 0 0 false 0 64 0 = Disabled.
Proof. vm_compute. auto. Qed.
