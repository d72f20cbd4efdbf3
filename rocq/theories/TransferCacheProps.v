(** Properties C20 and C21: the transfer cache under every interleaving, and the
    redistribution of capacity. *)
From Verif Require Import Base TransferCache.
From Coq Require Import Permutation Sorted.

(** * Specification *)

(** Calls of the public functions, and any number of them in progress.  A finished call
    stays in the pool with its result. *)
Inductive tcall := CInsert (batch : list Z) | CRemove (n : Z) | CPlunder | CGrow | CShrink.
Definition tstart (x : tcall) : tact :=
  match x with CInsert batch => TInsert batch | CRemove n => TRemove n | CPlunder => TPlunder | CGrow => TGrow | CShrink => TShrink end.
Definition tcall_ok (x : tcall) : Prop :=
  match x with CInsert batch => batch <> [] | CRemove n => 0 < n | _ => True end.

(** What a step obtains from, and gives to, the list below. *)
Definition obtained (l : tlabel) : list Z := match l with LRemove _ got => got | _ => [] end.
Definition forwarded (l : tlabel) : list Z := match l with LInsert batch => batch | _ => [] end.
(** The list below answers a request for n objects with at most n. *)
Definition answer_ok (l : tlabel) : Prop := match l with LRemove n got => zlen got <= n | _ => True end.

(** Histories: [inb] and [out] are everything obtained from and forwarded to the list below. *)
Inductive reach_t (b cap mx : Z) : tc -> list (tcall * tact) -> list Z -> list Z -> Prop :=
| T_new : reach_t b cap mx (tc_new cap mx) [] [] []
| T_call t pool inb out x : reach_t b cap mx t pool inb out -> tcall_ok x -> reach_t b cap mx t ((x, tstart x) :: pool) inb out
| T_step t l1 x a l2 inb out lock got t' a' l :
    reach_t b cap mx t (l1 ++ (x, a) :: l2) inb out ->
    tstep b t a lock got = (t', a', l) -> answer_ok l ->
    reach_t b cap mx t' (l1 ++ (x, a') :: l2) (inb ++ obtained l) (out ++ forwarded l).

(** Everything given to InsertRange, everything returned by RemoveRange, everything
    cached, and everything that calls in progress are carrying. *)
Definition given (pool : list (tcall * tact)) : list Z := flat_map (fun x => match fst x with CInsert batch => batch | _ => [] end) pool.
Definition returned (pool : list (tcall * tact)) : list Z := flat_map (fun x => match snd x with TDone got _ => got | _ => [] end) pool.
Definition cached (t : tc) : list Z := slots_read (t_slots t) 0 (t_used t).
Definition carried (a : tact) : list Z :=
  match a with
  | TInsert batch | TInsertLock batch | TInsertMiss batch => batch
  | TPlunderFlush buf _ | TShrinkFlush buf => buf
  | _ => []
  end.
Definition in_flight (pool : list (tcall * tact)) : list Z := flat_map (fun x => carried (snd x)) pool.

(** * Lemmas *)
Ltac pcount :=
  repeat match goal with H : Permutation _ _ |- _ => rewrite (Permutation_count_occ Z.eq_dec) in H end;
  apply (Permutation_count_occ Z.eq_dec); let x := fresh "x" in intros x;
  repeat match goal with H : forall _ : Z, count_occ _ _ _ = count_occ _ _ _ |- _ => specialize (H x) end;
  repeat (progress (cbn [app count_occ] in *; rewrite ?count_occ_app in *));
  repeat match goal with |- context [if ?d then _ else _] => destruct d | H : context [if ?d then _ else _] |- _ => destruct d end; lia.

Lemma slots_read_split s i a b : 0 <= a -> 0 <= b -> slots_read s i (a + b) = slots_read s i a ++ slots_read s (i + a) b.
Proof.
  intros. unfold slots_read. rewrite Z2Nat.inj_add by lia. rewrite zseq_app, map_app. rewrite Z2Nat.id by lia. reflexivity.
Qed.
Lemma slots_read_len s i n : 0 <= n -> zlen (slots_read s i n) = n.
Proof. intros. unfold zlen, slots_read. rewrite map_length, zseq_length. lia. Qed.
Lemma slots_read_ext s s' i n : (forall j, i <= j < i + n -> s j = s' j) -> slots_read s i n = slots_read s' i n.
Proof. intros H. unfold slots_read. apply map_ext_in. intros j Hj. apply zseq_In in Hj. apply H. lia. Qed.
Lemma slots_write_below l : forall s i j, j < i -> slots_write s i l j = s j.
Proof. induction l as [|x l IH]; intros; cbn [slots_write]; [reflexivity|]. rewrite IH by lia. apply upd_other. lia. Qed.
Lemma slots_write_read l : forall s i, slots_read (slots_write s i l) i (zlen l) = l.
Proof.
  induction l as [|x l IH]; intros s i; [reflexivity|]. unfold zlen. cbn [length]. rewrite Nat2Z.inj_succ.
  replace (Z.succ (Z.of_nat (length l))) with (1 + zlen l) by (unfold zlen; lia). rewrite slots_read_split by (unfold zlen; lia). cbn [slots_write]. rewrite IH.
  unfold slots_read. change (Z.to_nat 1) with 1%nat. cbn [zseq map app]. rewrite slots_write_below by lia. rewrite upd_same. reflexivity.
Qed.

Definition tc_ok (t : tc) : Prop := 0 <= t_lwm t <= t_used t /\ t_used t <= t_cap t <= t_max t.
Definition act_ok (a : tact) : Prop :=
  match a with
  | TRemove n | TRemoveLock n | TRemoveMiss n => 0 < n
  | TPlunderFlush _ r | TPlunderLoop r => 0 <= r
  | _ => True
  end.

Lemma insert_locked_spec t batch t' rest : tc_ok t -> insert_locked t batch = (t', rest) ->
  tc_ok t' /\ t_cap t' = t_cap t /\ t_max t' = t_max t /\
  exists fit, batch = fit ++ rest /\ cached t' = cached t ++ fit /\ zlen fit = Z.min (zlen batch) (t_cap t - t_used t).
Proof.
  unfold insert_locked. intros ((L1 & L2) & U & C). destruct (Z.ltb_spec 0 (Z.min (zlen batch) (t_cap t - t_used t))) as [G|G]; intros E; injection E as <- <-.
  - set (g := Z.min (zlen batch) (t_cap t - t_used t)) in *. assert (Hg : (Z.to_nat g <= length batch)%nat) by (unfold zlen in *; lia).
    assert (Lf : zlen (firstn (Z.to_nat g) batch) = g) by (unfold zlen; rewrite firstn_length; lia).
    split; [|split; [reflexivity|split; [reflexivity|]]].
    + unfold tc_ok. cbn [t_lwm t_used t_cap t_max]. lia.
    + exists (firstn (Z.to_nat g) batch). split; [symmetry; apply firstn_skipn|]. split; [|assumption].
      unfold cached. cbn [t_slots t_used]. rewrite slots_read_split by lia. rewrite Z.add_0_l. f_equal.
      * apply slots_read_ext. intros j Hj. apply slots_write_below. lia.
      * rewrite <- Lf at 2. apply slots_write_read.
  - split; [unfold tc_ok; lia|]. split; [reflexivity|]. split; [reflexivity|]. exists []. cbn [app]. rewrite app_nil_r. split; [reflexivity|]. split; [reflexivity|]. unfold zlen in *. cbn [length]. lia.
Qed.

Lemma take_top t n : tc_ok t -> 0 <= n <= t_used t -> cached t = slots_read (t_slots t) 0 (t_used t - n) ++ slots_read (t_slots t) (t_used t - n) n.
Proof. intros O H. unfold cached. replace (t_used t) with ((t_used t - n) + n) at 1 by lia. rewrite slots_read_split by (unfold tc_ok in O; lia). reflexivity. Qed.

Lemma remove_locked_spec t n t' objs : tc_ok t -> 0 < n -> remove_locked t n = (t', objs) ->
  tc_ok t' /\ t_cap t' = t_cap t /\ t_max t' = t_max t /\ cached t = cached t' ++ objs /\ zlen objs = Z.min n (t_used t).
Proof.
  unfold remove_locked. intros O Hn. pose proof O as ((L1 & L2) & U & C). destruct (Z.eqb_spec (Z.min n (t_used t)) 0) as [G|G]; intros E; injection E as <- <-.
  - split; [assumption|]. rewrite app_nil_r. split; [reflexivity|]. split; [reflexivity|]. split; [reflexivity|]. unfold zlen; cbn [length]; lia.
  - split; [unfold tc_ok; cbn [t_lwm t_used t_cap t_max]; lia|]. split; [reflexivity|]. split; [reflexivity|]. split.
    + rewrite (take_top t (Z.min n (t_used t)) O) by lia. reflexivity.
    + apply slots_read_len. lia.
Qed.

Lemma plunder_round_spec b t r t' buf r' : 0 <= b -> tc_ok t -> 0 <= r -> plunder_round b t r = (t', buf, r') ->
  tc_ok t' /\ t_cap t' = t_cap t /\ t_max t' = t_max t /\ cached t = cached t' ++ buf /\ 0 <= r' /\ zlen buf <= b.
Proof.
  unfold plunder_round. intros Hb O Hr. pose proof O as ((L1 & L2) & U & C). cbv zeta.
  destruct (Z.eqb_spec (Z.min (Z.min b (t_used t)) r) 0) as [G|G]; intros E; injection E as <- <- <-.
  - split; [assumption|]. rewrite app_nil_r. split; [reflexivity|]. split; [reflexivity|]. split; [reflexivity|]. unfold zlen; cbn [length]; lia.
  - split; [unfold tc_ok; cbn [t_lwm t_used t_cap t_max]; lia|]. split; [reflexivity|]. split; [reflexivity|]. split; [|split; [lia|rewrite slots_read_len; lia]].
    rewrite (take_top t (Z.min (Z.min b (t_used t)) r) O) by lia. reflexivity.
Qed.

Lemma grow_locked_spec b t t' ok : 0 <= b -> tc_ok t -> grow_locked b t = (t', ok) ->
  tc_ok t' /\ t_max t' = t_max t /\ cached t' = cached t /\ t_cap t' = (if ok then t_cap t + b else t_cap t).
Proof.
  unfold grow_locked. intros Hb O. pose proof O as ((L1 & L2) & U & C). destruct (Z.ltb_spec (t_max t) (t_cap t + b)) as [G|G]; intros E; injection E as <- <-; cbn [t_cap t_max].
  - auto.
  - split; [unfold tc_ok; cbn [t_lwm t_used t_cap t_max]; lia|]. auto.
Qed.

Lemma shrink_locked_spec b t t' buf ok : 0 <= b -> tc_ok t -> shrink_locked b t = (t', buf, ok) ->
  tc_ok t' /\ t_max t' = t_max t /\ cached t = cached t' ++ buf /\ zlen buf <= b /\ t_cap t' = (if ok then t_cap t - b else t_cap t) /\ (buf <> [] -> ok = true).
Proof.
  unfold shrink_locked. intros Hb O. pose proof O as ((L1 & L2) & U & C). cbv zeta.
  destruct (Z.eqb_spec (t_cap t) 0) as [Z0|Z0]; [intros E; injection E as <- <- <-; rewrite app_nil_r; unfold zlen; cbn [length]; split; [assumption|split; [reflexivity|split; [reflexivity|split; [lia|split; [reflexivity|congruence]]]]]|].
  destruct (Z.leb_spec (t_cap t) b) as [Z1|Z1]; [intros E; injection E as <- <- <-; rewrite app_nil_r; unfold zlen; cbn [length]; split; [assumption|split; [reflexivity|split; [reflexivity|split; [lia|split; [reflexivity|congruence]]]]]|].
  rewrite Z.min_l by lia. destruct (Z.leb_spec b (t_cap t - t_used t)) as [Z2|Z2]; intros E; injection E as <- <- <-; cbn [t_cap t_max].
  - split; [unfold tc_ok; cbn [t_lwm t_used t_cap t_max]; lia|]. rewrite app_nil_r. unfold zlen. cbn [length]. split; [reflexivity|split; [reflexivity|split; [lia|split; [reflexivity|reflexivity]]]].
  - split; [unfold tc_ok; cbn [t_lwm t_used t_cap t_max]; lia|]. split; [reflexivity|]. split; [|split; [rewrite slots_read_len; lia|split; [reflexivity|reflexivity]]].
    rewrite (take_top t (b - (t_cap t - t_used t)) O) by lia. reflexivity.
Qed.

(** One step keeps the invariant and loses or invents nothing. *)
Definition held (a : tact) : list Z := carried a ++ match a with TDone got _ => got | _ => [] end.
Lemma tstep_spec b t a lock got t' a' l : 0 <= b -> tc_ok t -> act_ok a -> tstep b t a lock got = (t', a', l) ->
  tc_ok t' /\ act_ok a' /\ t_max t' = t_max t /\
  Permutation (held a ++ cached t ++ obtained l) (held a' ++ cached t' ++ forwarded l).
Proof.
  intros Hb O Ha. destruct a as [batch|batch|batch|n|n|n| |buf r|r| | |buf|res ok]; cbn [tstep act_ok] in *.
  - intros E. injection E as <- <- <-. split; [assumption|]. split; [destruct (_ <? _); exact I|]. split; [reflexivity|]. destruct (_ <? _); unfold held; cbn; reflexivity.
  - destruct (insert_locked t batch) as (t1 & rest) eqn:E1. destruct (insert_locked_spec t batch t1 rest O E1) as (O1 & _ & M1 & fit & -> & Ec & _).
    intros E. injection E as <- <- <-. split; [assumption|]. split; [destruct rest; exact I|]. split; [assumption|]. rewrite Ec.
    destruct rest; unfold held, tdone; cbn [carried obtained forwarded app]; rewrite ?app_nil_r; pcount.
  - intros E. injection E as <- <- <-. split; [assumption|]. split; [exact I|]. split; [reflexivity|]. unfold held, tdone. cbn [carried obtained forwarded app]. rewrite !app_nil_r. pcount.
  - intros E. injection E as <- <- <-. split; [assumption|]. split; [destruct (_ =? _); exact Ha|]. split; [reflexivity|]. destruct (_ =? _); unfold held; cbn; reflexivity.
  - destruct (remove_locked t n) as (t1 & objs) eqn:E1. destruct (remove_locked_spec t n t1 objs O Ha E1) as (O1 & _ & M1 & Ec & _).
    intros E. injection E as <- <- <-. split; [assumption|]. split; [destruct objs; [exact Ha|exact I]|]. split; [assumption|]. rewrite Ec.
    destruct objs; unfold held; cbn [carried obtained forwarded app]; rewrite ?app_nil_r; pcount.
  - intros E. injection E as <- <- <-. split; [assumption|]. split; [exact I|]. split; [reflexivity|]. unfold held. cbn [carried obtained forwarded app]. rewrite !app_nil_r. pcount.
  - destruct (t_max t =? 0); [intros E; injection E as <- <- <-; split; [assumption|]; split; [exact I|]; split; [reflexivity|]; unfold held; cbn; reflexivity|].
    destruct lock; cbn [negb]; [|intros E; injection E as <- <- <-; split; [assumption|]; split; [exact I|]; split; [reflexivity|]; unfold held; cbn; reflexivity].
    set (t0 := TC (t_used t) (t_cap t) (t_slots t) (t_used t) (t_max t)). assert (O0 : tc_ok t0) by (unfold tc_ok, t0 in *; cbn [t_lwm t_used t_cap t_max]; lia).
    assert (Hr : 0 <= t_lwm t) by (unfold tc_ok in O; lia). destruct (plunder_round b t0 (t_lwm t)) as ((t1 & buf) & r1) eqn:E1.
    destruct (plunder_round_spec b t0 (t_lwm t) t1 buf r1 Hb O0 Hr E1) as (O1 & _ & M1 & Ec & Hr1 & _). cbn [plunder_next].
    intros E. injection E as <- <- <-. split; [assumption|]. split; [destruct buf; [exact I|exact Hr1]|]. split; [assumption|]. change (cached t) with (cached t0). rewrite Ec.
    destruct buf; unfold held, tdone; cbn [carried obtained forwarded app]; rewrite ?app_nil_r; pcount.
  - intros E. injection E as <- <- <-. split; [assumption|]. split; [exact Ha|]. split; [reflexivity|]. unfold held. cbn [carried obtained forwarded app]. rewrite !app_nil_r. pcount.
  - destruct lock; cbn [negb]; [|intros E; injection E as <- <- <-; split; [assumption|]; split; [exact I|]; split; [reflexivity|]; unfold held; cbn; reflexivity].
    destruct (plunder_round b t r) as ((t1 & buf) & r1) eqn:E1. destruct (plunder_round_spec b t r t1 buf r1 Hb O Ha E1) as (O1 & _ & M1 & Ec & Hr1 & _). cbn [plunder_next].
    intros E. injection E as <- <- <-. split; [assumption|]. split; [destruct buf; [exact I|exact Hr1]|]. split; [assumption|]. rewrite Ec.
    destruct buf; unfold held, tdone; cbn [carried obtained forwarded app]; rewrite ?app_nil_r; pcount.
  - destruct (grow_locked b t) as (t1 & ok) eqn:E1. destruct (grow_locked_spec b t t1 ok Hb O E1) as (O1 & M1 & Ec & _).
    intros E. injection E as <- <- <-. split; [assumption|]. split; [exact I|]. split; [assumption|]. rewrite Ec. unfold held. cbn. reflexivity.
  - destruct (shrink_locked b t) as ((t1 & buf) & ok) eqn:E1. destruct (shrink_locked_spec b t t1 buf ok Hb O E1) as (O1 & M1 & Ec & _).
    intros E. injection E as <- <- <-. split; [assumption|]. split; [destruct buf; exact I|]. split; [assumption|]. rewrite Ec.
    destruct buf; unfold held; cbn [carried obtained forwarded app]; rewrite ?app_nil_r; pcount.
  - intros E. injection E as <- <- <-. split; [assumption|]. split; [exact I|]. split; [reflexivity|]. unfold held, tdone. cbn [carried obtained forwarded app]. rewrite !app_nil_r. pcount.
  - intros E. injection E as <- <- <-. split; [assumption|]. split; [exact I|]. split; [reflexivity|]. cbn [obtained forwarded]. reflexivity.
Qed.

Definition inv_t (mx : Z) (t : tc) (pool : list (tcall * tact)) (inb out : list Z) : Prop :=
  tc_ok t /\ t_max t = mx /\ Forall (fun x => act_ok (snd x)) pool /\
  Permutation (given pool ++ inb) (returned pool ++ out ++ cached t ++ in_flight pool).

Lemma reach_t_inv b cap mx t pool inb out : 0 <= b -> 0 <= cap <= mx -> reach_t b cap mx t pool inb out -> inv_t mx t pool inb out.
Proof.
  intros Hb Hc R. induction R as [|t pool inb out x R (O & M & F & P) Hx|t l1 x a l2 inb out lock got t' a' l R (O & M & F & P) E Hans].
  - split; [unfold tc_ok, tc_new; cbn; lia|]. split; [reflexivity|]. split; [constructor|]. cbn. reflexivity.
  - split; [assumption|]. split; [assumption|]. split; [constructor; [|assumption]; destruct x; cbn in *; auto|].
    destruct x; unfold given, returned, in_flight in *; cbn [flat_map fst snd tstart carried app] in *; try assumption. pcount.
  - apply Forall_app in F as (F1 & F2). inversion F2 as [|? ? Fa F3]; subst. cbn [snd] in Fa.
    destruct (tstep_spec b t a lock got t' a' l Hb O Fa E) as (O' & A' & M' & P').
    split; [assumption|]. split; [congruence|]. split; [apply Forall_app; split; [assumption|]; constructor; assumption|].
    unfold given, returned, in_flight, held in *. rewrite !flat_map_app in *. cbn [flat_map fst snd] in *. pcount.
Qed.

(** * C20 *)

(** In every interleaving: the objects given to the cache, together with those it obtained
    from the list below, are exactly those it returned, those it forwarded below, those it
    holds and those carried by calls that have not finished; counted with multiplicity. *)
Theorem tc_conserves : forall b cap mx t pool inb out,
  0 <= b -> 0 <= cap <= mx -> reach_t b cap mx t pool inb out ->
  Permutation (given pool ++ inb) (returned pool ++ out ++ cached t ++ in_flight pool).
Proof. intros b cap mx t pool inb out Hb Hc R. apply (reach_t_inv b cap mx t pool inb out Hb Hc R). Qed.
Print Assumptions tc_conserves.

(** In every interleaving: 0 <= used <= capacity <= max capacity. *)
Theorem tc_capacity : forall b cap mx t pool inb out,
  0 <= b -> 0 <= cap <= mx -> reach_t b cap mx t pool inb out ->
  0 <= t_used t <= t_cap t /\ t_cap t <= mx /\ Z.of_nat (length (cached t)) = t_used t.
Proof.
  intros b cap mx t pool inb out Hb Hc R. destruct (reach_t_inv b cap mx t pool inb out Hb Hc R) as (O & M & _). unfold tc_ok in O.
  split; [lia|]. split; [lia|]. apply (slots_read_len (t_slots t) 0 (t_used t)). lia.
Qed.
Print Assumptions tc_capacity.

(** If objects enter (from callers or from below) only when they are not inside, no object
    is ever inside twice or handed out twice: each step preserves it. *)
Theorem tc_no_duplicates : forall b cap mx t l1 x a l2 inb out lock got t' a' l,
  0 <= b -> 0 <= cap <= mx -> reach_t b cap mx t (l1 ++ (x, a) :: l2) inb out ->
  tstep b t a lock got = (t', a', l) ->
  NoDup (cached t ++ in_flight (l1 ++ (x, a) :: l2) ++ obtained l) ->
  NoDup (cached t' ++ in_flight (l1 ++ (x, a') :: l2) ++ forwarded l ++ match a, a' with TDone _ _, _ => [] | _, TDone res _ => res | _, _ => [] end).
Proof.
  intros b cap mx t l1 x a l2 inb out lock got t' a' l Hb Hc R E D. destruct (reach_t_inv _ _ _ _ _ _ _ Hb Hc R) as (O & M & F & _).
  apply Forall_app in F as (_ & F2). inversion F2 as [|? ? Fa _]; subst. cbn [snd] in Fa.
  destruct (tstep_spec b t a lock got t' a' l Hb O Fa E) as (_ & _ & _ & P).
  eapply Permutation_NoDup; [|exact D]. unfold in_flight, held in *. rewrite !flat_map_app. cbn [flat_map snd].
  set (res' := match a' with TDone res _ => res | _ => [] end) in P.
  destruct a; try (fold res'; clearbody res'; pcount). cbn [tstep] in E. injection E as <- <- <-. cbn [carried obtained forwarded app] in *. pcount.
Qed.
Print Assumptions tc_no_duplicates.

(** RemoveRange returns at most as many objects as asked for, and the buffers of plunder and
    shrink (of kMaxObjectsToMove entries) never overflow: they hold at most one batch. *)
Definition result_ok (b : Z) (x : tcall * tact) : Prop :=
  match snd x with
  | TRemove n | TRemoveLock n | TRemoveMiss n => fst x = CRemove n
  | TPlunderFlush buf _ => zlen buf <= b /\ fst x = CPlunder
  | TShrinkFlush buf => zlen buf <= b /\ fst x = CShrink
  | TInsert batch | TInsertLock batch | TInsertMiss batch => match fst x with CInsert all => zlen batch <= zlen all | _ => False end
  | TDone got _ => match fst x with CRemove n => zlen got <= n | _ => got = [] end
  | TPlunder | TPlunderLoop _ => fst x = CPlunder | TGrow => fst x = CGrow | TShrink => fst x = CShrink
  end.
Theorem tc_bounds : forall b cap mx t pool inb out x a,
  0 <= b -> 0 <= cap <= mx -> reach_t b cap mx t pool inb out -> In (x, a) pool ->
  match a with
  | TDone got _ => match x with CRemove n => zlen got <= n | _ => got = [] end
  | TPlunderFlush buf _ | TShrinkFlush buf => zlen buf <= b
  | _ => True
  end.
Proof.
  intros b cap mx t pool inb out x a Hb Hc R Hin.
  assert (G : Forall (result_ok b) pool).
  { clear x a Hin. induction R as [|t pool inb out x R IH Hx|t l1 x a l2 inb out lock got t' a' l R IH E Hans]; [constructor|constructor; [destruct x; cbn; auto; lia|assumption]|].
    destruct (reach_t_inv _ _ _ _ _ _ _ Hb Hc R) as (O & _ & F & _).
    apply Forall_app in F as (_ & F2). inversion F2 as [|? ? Fa _]; subst. cbn [snd] in Fa. clear F2.
    apply Forall_app in IH as (I1 & I2). inversion I2 as [|? ? Ia I3]; subst. apply Forall_app. split; [assumption|]. constructor; [|assumption]. clear I1 I2 I3 R.
    unfold result_ok in *. cbn [fst snd] in *. destruct a as [batch|batch|batch|n|n|n| |buf r|r| | |buf|res ok]; cbn [tstep act_ok] in *.
    - injection E as <- <- <-. destruct (_ <? _); assumption.
    - destruct (insert_locked t batch) as (t1 & rest) eqn:E1. destruct (insert_locked_spec t batch t1 rest O E1) as (_ & _ & _ & fit & -> & _ & _).
      injection E as <- <- <-. destruct x; try contradiction. destruct rest; cbn; [reflexivity|]. unfold zlen in *. rewrite app_length in Ia. cbn [length] in *. lia.
    - injection E as <- <- <-. destruct x; try contradiction. reflexivity.
    - injection E as <- <- <-. destruct (_ =? _); assumption.
    - destruct (remove_locked t n) as (t1 & objs) eqn:E1. destruct (remove_locked_spec t n t1 objs O Fa E1) as (_ & _ & _ & _ & L).
      injection E as <- <- <-. subst x. destruct objs; [reflexivity|]. lia.
    - injection E as <- <- <-. subst x. exact Hans.
    - subst x. destruct (t_max t =? 0); [injection E as <- <- <-; reflexivity|]. destruct lock; cbn [negb] in E; [|injection E as <- <- <-; reflexivity].
      set (t0 := TC (t_used t) (t_cap t) (t_slots t) (t_used t) (t_max t)) in E. assert (O0 : tc_ok t0) by (unfold tc_ok, t0 in *; cbn [t_lwm t_used t_cap t_max]; lia).
      assert (Hr : 0 <= t_lwm t) by (unfold tc_ok in O; lia). destruct (plunder_round b t0 (t_lwm t)) as ((t1 & buf) & r1) eqn:E1.
      destruct (plunder_round_spec b t0 (t_lwm t) t1 buf r1 Hb O0 Hr E1) as (_ & _ & _ & _ & _ & L). cbn [plunder_next] in E. injection E as <- <- <-. destruct buf; [reflexivity|]. split; [assumption|reflexivity].
    - injection E as <- <- <-. apply Ia.
    - subst x. destruct lock; cbn [negb] in E; [|injection E as <- <- <-; reflexivity].
      destruct (plunder_round b t r) as ((t1 & buf) & r1) eqn:E1.
      destruct (plunder_round_spec b t r t1 buf r1 Hb O Fa E1) as (_ & _ & _ & _ & _ & L). cbn [plunder_next] in E. injection E as <- <- <-. destruct buf; [reflexivity|]. split; [assumption|reflexivity].
    - destruct (grow_locked b t) as (t1 & ok1). injection E as <- <- <-. subst x. reflexivity.
    - destruct (shrink_locked b t) as ((t1 & buf) & ok1) eqn:E1. destruct (shrink_locked_spec b t t1 buf ok1 Hb O E1) as (_ & _ & _ & L & _).
      injection E as <- <- <-. subst x. destruct buf; [reflexivity|]. split; [assumption|reflexivity].
    - injection E as <- <- <-. destruct Ia as (_ & ->). reflexivity.
    - injection E as <- <- <-. assumption. }
  rewrite Forall_forall in G. specialize (G _ Hin). unfold result_ok in G. cbn [fst snd] in G. destruct a; try exact I; try tauto; exact G.
Qed.
Print Assumptions tc_bounds.

(** LIFO: a batch that fits and is asked for again comes back, in order, and the cache is
    as before. *)
Theorem tc_lifo : forall t batch t1 t2 objs,
  tc_ok t -> batch <> [] -> insert_locked t batch = (t1, []) -> remove_locked t1 (zlen batch) = (t2, objs) ->
  objs = batch /\ cached t2 = cached t /\ t_cap t2 = t_cap t.
Proof.
  intros t batch t1 t2 objs O Hb E1 E2. destruct (insert_locked_spec t batch t1 [] O E1) as (O1 & C1 & _ & fit & E & Ec & L). rewrite app_nil_r in E. subst fit.
  assert (Hn : 0 < zlen batch) by (destruct batch; [congruence|unfold zlen; cbn [length]; lia]).
  destruct (remove_locked_spec t1 (zlen batch) t2 objs O1 Hn E2) as (O2 & C2 & _ & Ec2 & L2). rewrite Ec in Ec2.
  assert (Lo : length objs = length batch).
  { assert (zlen batch <= t_used t1).
    { pose proof (f_equal zlen Ec) as EL. unfold zlen in EL at 2. rewrite app_length, Nat2Z.inj_add in EL. unfold cached in EL. rewrite slots_read_len in EL by (unfold tc_ok in O1; lia). unfold zlen in *. lia. }
    unfold zlen in *. lia. }
  assert (X : forall (a b c d : list Z), a ++ b = c ++ d -> length d = length b -> b = d /\ a = c).
  { intros p q r s H HL. assert (length p = length r) by (apply (f_equal (@length Z)) in H; rewrite !app_length in H; lia).
    revert r H H0. induction p as [|u p IH]; intros [|v r] H H0; cbn in *; try lia; [split; [assumption|reflexivity]|]. injection H as -> H. destruct (IH r H) as (? & ->); [lia|]. auto. }
  destruct (X _ _ _ _ Ec2 Lo) as (-> & ->). split; [reflexivity|]. split; [reflexivity|congruence].
Qed.
Print Assumptions tc_lifo.

(** The initial capacities: within the maximum, which is at most 64 batches and at most one
    batch or 1 MiB of objects. *)
Theorem capacity_needed_spec : forall cl bytes objs cap mx,
  0 < cl -> 0 < bytes -> 0 < objs -> capacity_needed cl bytes objs = (cap, mx) ->
  0 < cap <= mx /\ mx <= 64 * objs /\ cap <= 16 * objs /\ (mx <= objs \/ mx * bytes <= 2 ^ 20) /\ cap mod objs = 0 /\ mx mod objs = 0.
Proof.
  intros cl bytes objs cap mx Hc Hb Ho. unfold capacity_needed, kMaxCapacityInBatches, kInitialCapacityInBatches.
  replace ((cl <=? 0) || (bytes <=? 0)) with false by lia. cbv zeta.
  set (q := 1024 * 1024 / (bytes * objs)). assert (Hq : 0 <= q) by (apply Z.div_pos; nia).
  assert (Hq2 : (bytes * objs) * q <= 1024 * 1024) by (apply Z.mul_div_le; nia). clearbody q.
  intros E. injection E as <- <-.
  assert (M : exists k, 1 <= k <= 64 /\ Z.min (64 * objs) (Z.max objs (q * objs)) = k * objs /\ (k = 1 \/ k <= q)).
  { destruct (Z.le_gt_cases q 1).
    - exists 1. split; [lia|]. split; [nia|]. left; reflexivity.
    - exists (Z.min 64 q). split; [lia|]. split; [nia|]. right; lia. }
  destruct M as (k & Hk & -> & Hkq).
  assert (M2 : Z.min (16 * objs) (k * objs) = Z.min 16 k * objs) by nia. rewrite M2.
  split; [nia|]. split; [nia|]. split; [nia|]. split; [|split; apply Z_mod_mult].
  destruct Hkq as [->|Hkq]; [left; lia|]. right. assert (k * objs * bytes <= q * (bytes * objs)) by nia. lia.
Qed.
Print Assumptions capacity_needed_spec.

(** * C21 *)

(** The capacity changes of the redistribution are those of the cache functions, whatever
    the cache contains; all other operations leave the capacity alone.  So the theorem
    below holds with any client operations in between. *)
Theorem grow_capacity : forall c caps k t, t_cap t = caps k -> t_max t = r_max c k ->
  t_cap (fst (grow_locked (r_batch c k) t)) = fst (cap_grow c caps k) k /\ snd (grow_locked (r_batch c k) t) = snd (cap_grow c caps k) /\
  can_increase (r_batch c k) t = cap_can c caps k.
Proof.
  intros c caps k t H1 H2. unfold grow_locked, cap_grow, can_increase, cap_can. rewrite H1, H2. destruct (_ <? _); cbn [fst snd t_cap]; rewrite ?upd_same; auto.
Qed.
Theorem shrink_capacity : forall c caps k t, t_cap t = caps k ->
  t_cap (fst (fst (shrink_locked (r_batch c k) t))) = fst (cap_shrink c caps k) k /\ snd (shrink_locked (r_batch c k) t) = snd (cap_shrink c caps k).
Proof.
  intros c caps k t H1. unfold shrink_locked, cap_shrink. rewrite H1. destruct (_ =? _); [auto|]. destruct (_ <=? _); [auto|]. cbv zeta.
  destruct (_ <=? _); cbn [fst snd t_cap]; rewrite upd_same; auto.
Qed.
Theorem other_steps_keep_capacity : forall b t a lock got,
  0 <= b -> tc_ok t -> act_ok a -> a <> TGrow -> a <> TShrink -> t_cap (fst (fst (tstep b t a lock got))) = t_cap t.
Proof.
  intros b t a lock got Hb O Ha N1 N2. destruct a as [batch|batch|batch|n|n|n| |buf r|r| | |buf|res ok]; cbn [tstep act_ok] in *; try reflexivity; try congruence.
  - destruct (insert_locked t batch) as (t1 & rest) eqn:E1. apply (insert_locked_spec t batch t1 rest O E1).
  - destruct (remove_locked t n) as (t1 & objs) eqn:E1. apply (remove_locked_spec t n t1 objs O Ha E1).
  - destruct (t_max t =? 0); [reflexivity|]. destruct lock; [|reflexivity]. cbn [negb].
    set (t0 := TC (t_used t) (t_cap t) (t_slots t) (t_used t) (t_max t)). assert (O0 : tc_ok t0) by (unfold tc_ok, t0 in *; cbn [t_lwm t_used t_cap t_max]; lia).
    assert (Hr : 0 <= t_lwm t) by (unfold tc_ok in O; lia). destruct (plunder_round b t0 (t_lwm t)) as ((t1 & buf) & r1) eqn:E1.
    apply (plunder_round_spec b t0 (t_lwm t) t1 buf r1 Hb O0 Hr E1).
  - destruct lock; [|reflexivity]. cbn [negb]. destruct (plunder_round b t r) as ((t1 & buf) & r1) eqn:E1. apply (plunder_round_spec b t r t1 buf r1 Hb O Ha E1).
Qed.
Print Assumptions grow_capacity. Print Assumptions shrink_capacity. Print Assumptions other_steps_keep_capacity.

(** ** Sorting *)
Definition miss_le (x y : Z * Z) : Prop := snd y <= snd x.
Lemma miss_insert_perm x l : Permutation (miss_insert x l) (x :: l).
Proof. induction l as [|y l IH]; cbn [miss_insert]; [reflexivity|]. destruct (miss_before x y); [reflexivity|]. rewrite IH. apply perm_swap. Qed.
Lemma miss_sort_perm l : Permutation (miss_sort l) l.
Proof. induction l as [|x l IH]; [reflexivity|]. cbn [miss_sort fold_right]. rewrite miss_insert_perm. now constructor. Qed.
Lemma miss_before_le x y : if miss_before x y then miss_le x y else miss_le y x.
Proof. unfold miss_before, miss_le. destruct (Z.eqb_spec (snd x) (snd y)); [destruct (_ <? _); lia|]. destruct (Z.ltb_spec (snd y) (snd x)); lia. Qed.
Lemma miss_insert_sorted x l : StronglySorted miss_le l -> StronglySorted miss_le (miss_insert x l).
Proof.
  induction 1 as [|y l S IH F]; cbn [miss_insert]; [repeat constructor|]. pose proof (miss_before_le x y) as H. destruct (miss_before x y).
  - constructor; [constructor; assumption|]. constructor; [assumption|]. eapply Forall_impl; [|exact F]. unfold miss_le in *. intros; lia.
  - constructor; [assumption|]. rewrite Forall_forall in *. intros z Hz. apply (Permutation_in _ (miss_insert_perm x l)) in Hz. destruct Hz as [<-|Hz]; auto.
Qed.
Lemma miss_sort_sorted l : StronglySorted miss_le (miss_sort l).
Proof. induction l as [|x l IH]; [constructor|]. cbn [miss_sort fold_right]. now apply miss_insert_sorted. Qed.
Lemma sorted_nth l : StronglySorted miss_le l -> forall i j, (i <= j < length l)%nat -> snd (nth j l (0, 0)) <= snd (nth i l (0, 0)).
Proof.
  induction 1 as [|x l S IH F]; intros i j H; cbn [length] in H; [lia|]. destruct i, j; cbn [nth]; try lia.
  - rewrite Forall_forall in F. apply (F (nth j l (0, 0))). apply nth_In. lia.
  - apply IH. lia.
Qed.

(** ** The redistribution *)

(** [grown] and [shrunk] are the classes that got and lost a batch. *)
Definition moved (c : rcfg) (caps caps' : Z -> Z) (grown shrunk : list Z) : Prop :=
  forall k, caps' k = caps k + (if in_dec Z.eq_dec k grown then r_batch c k else 0) - (if in_dec Z.eq_dec k shrunk then r_batch c k else 0).

Definition caps_ok (c : rcfg) (caps : Z -> Z) : Prop := forall k, 0 <= caps k <= r_max c k.

(** Indices of the sorted array. *)
Definition loop_state (c : rcfg) (ms : list (Z * Z)) (caps0 caps : Z -> Z) (g s : Z) (G S : list Z) : Prop :=
  (forall k, caps k = caps0 k + (if in_dec Z.eq_dec k (map (cls ms) G) then r_batch c k else 0) - (if in_dec Z.eq_dec k (map (cls ms) S) then r_batch c k else 0)) /\
  NoDup (G ++ S) /\ (forall i, In i G -> 0 <= i < g /\ mss ms i <> 0) /\ (forall i, In i S -> s < i < Z.of_nat (length ms)) /\
  caps_ok c caps /\ (forall i, In i S -> 0 < caps (cls ms i)) /\
  (forall i j, In i G -> In j S -> i < j).

Lemma cls_inj ms i j : NoDup (map fst ms) -> 0 <= i < Z.of_nat (length ms) -> 0 <= j < Z.of_nat (length ms) -> cls ms i = cls ms j -> i = j.
Proof.
  intros D Hi Hj E. unfold cls in E. rewrite <- !(map_nth fst) in E. rewrite (NoDup_nth _ (fst (0, 0))) in D.
  apply Z2Nat.inj; try lia. apply D; [rewrite map_length; lia|rewrite map_length; lia|exact E].
Qed.
Lemma cls_In_map ms i l : NoDup (map fst ms) -> 0 <= i < Z.of_nat (length ms) -> (forall j, In j l -> 0 <= j < Z.of_nat (length ms)) ->
  In (cls ms i) (map (cls ms) l) -> In i l.
Proof. intros D Hi Hl H. apply in_map_iff in H as (j & E & Hj). rewrite <- (cls_inj ms j i D (Hl j Hj) Hi E). assumption. Qed.

Lemma shrink_loop_spec c ms caps0 G S : (forall k, 0 <= r_batch c k) -> NoDup (map fst ms) ->
  forall fuel caps g s caps' s' ok, (Z.to_nat (s - g) <= fuel)%nat -> 0 <= g -> s < Z.of_nat (length ms) ->
  loop_state c ms caps0 caps g s G S -> shrink_loop c fuel ms caps g s = (caps', s', ok) ->
  s' <= s /\ if ok then g < s' /\ loop_state c ms caps0 caps' g (s' - 1) G (s' :: S) /\ (forall i, i <> s' -> 0 <= i < Z.of_nat (length ms) -> caps' (cls ms i) = caps (cls ms i))
             else caps' = caps /\ s' <= g \/ caps' = caps /\ s' = s /\ s <= g.
Proof.
  intros Hb D. induction fuel as [|fuel IH]; intros caps g s caps' s' ok Hf Hg Hs L E; cbn [shrink_loop] in E.
  - injection E as <- <- <-. split; [lia|]. right. repeat split; lia.
  - destruct (Z.ltb_spec g s) as [Hgs|Hgs].
    2:{ injection E as <- <- <-. split; [lia|]. right. repeat split; lia. }
    unfold cap_shrink in E. destruct L as (L1 & L2 & L3 & L4 & L5 & L6 & L7).
    assert (Hrec : shrink_loop c fuel ms caps g (s - 1) = (caps', s', ok) -> s' <= s /\ (if ok then g < s' /\ loop_state c ms caps0 caps' g (s' - 1) G (s' :: S) /\
      (forall i, i <> s' -> 0 <= i < Z.of_nat (length ms) -> caps' (cls ms i) = caps (cls ms i)) else caps' = caps /\ s' <= g \/ caps' = caps /\ s' = s /\ s <= g)).
    { intros E'. assert (L' : loop_state c ms caps0 caps g (s - 1) G S). { unfold loop_state. split; [exact L1|]. split; [exact L2|]. split; [exact L3|]. split; [intros i Hi; apply L4 in Hi; lia|]. split; [exact L5|]. split; [exact L6|exact L7]. }
      destruct (IH caps g (s - 1) caps' s' ok ltac:(lia) Hg ltac:(lia) L' E') as (Q1 & Q2). split; [lia|]. destruct ok; [exact Q2|]. left. destruct Q2 as [(-> & Q)|(-> & -> & Q)]; split; auto; lia. }
    destruct (Z.eqb_spec (caps (cls ms s)) 0) as [Z0|Z0]; [apply Hrec; exact E|].
    destruct (Z.leb_spec (caps (cls ms s)) (r_batch c (cls ms s))) as [Z1|Z1]; [apply Hrec; exact E|].
    injection E as <- <- <-. split; [lia|]. split; [lia|]. rewrite Z.min_l by lia.
    assert (NS : ~ In s S) by (intros H; apply L4 in H; lia). assert (NG : ~ In s G) by (intros H; apply L3 in H; lia).
    assert (BS : forall j, In j S -> 0 <= j < Z.of_nat (length ms)) by (intros j H; apply L4 in H; lia).
    assert (BG : forall j, In j G -> 0 <= j < Z.of_nat (length ms)) by (intros j H; apply L3 in H; lia).
    assert (OT : forall i, i <> s -> 0 <= i < Z.of_nat (length ms) -> upd caps (cls ms s) (caps (cls ms s) - r_batch c (cls ms s)) (cls ms i) = caps (cls ms i)).
    { intros i Ni Hi. apply upd_other. intros Ec. apply Ni. apply (cls_inj ms i s D); try assumption; lia. }
    split; [|exact OT]. unfold loop_state. split; [|split; [|split; [|split; [|split; [|split]]]]].
    + intros k. destruct (Z.eq_dec k (cls ms s)) as [->|Nk].
      * rewrite upd_same, (L1 (cls ms s)). cbn [map]. destruct (in_dec Z.eq_dec (cls ms s) (map (cls ms) S)) as [I|I].
        { exfalso. apply NS. apply (cls_In_map ms s S D); auto; lia. }
        destruct (in_dec Z.eq_dec (cls ms s) (cls ms s :: map (cls ms) S)) as [I2|I2]; [lia|exfalso; apply I2; now left].
      * rewrite upd_other by assumption. rewrite (L1 k). cbn [map]. f_equal.
        destruct (in_dec Z.eq_dec k (map (cls ms) S)) as [I|I], (in_dec Z.eq_dec k (cls ms s :: map (cls ms) S)) as [I2|I2]; try reflexivity.
        -- exfalso. apply I2. now right.
        -- destruct I2 as [I2|I2]; [congruence|contradiction].
    + apply (Permutation_NoDup (l := s :: G ++ S)); [apply Permutation_middle|]. constructor; [rewrite in_app_iff; tauto|assumption].
    + exact L3.
    + intros i [<-|Hi]; [lia|]. apply L4 in Hi. lia.
    + intros k. destruct (Z.eq_dec k (cls ms s)) as [->|Nk]; [rewrite upd_same|rewrite upd_other by assumption; apply L5].
      pose proof (L5 (cls ms s)). pose proof (Hb (cls ms s)). lia.
    + intros i [<-|Hi]; [rewrite upd_same; lia|]. destruct (Z.eq_dec i s) as [->|Ni]; [contradiction|]. rewrite OT by (auto; apply BS; assumption). apply L6. assumption.
    + intros i j Hi [<-|Hj]; [apply L3 in Hi; lia|auto].
Qed.

Lemma grow_first_try c fuel ms caps g s : (0 < fuel)%nat -> g < s -> cap_can c caps (cls ms g) = true ->
  grow_loop c fuel ms caps g s = (upd caps (cls ms g) (caps (cls ms g) + r_batch c (cls ms g)), g, true).
Proof.
  intros Hf Hgs Hc. destruct fuel; [lia|]. cbn [grow_loop]. replace (g <? s) with true by lia. unfold cap_grow, cap_can in *.
  replace (r_max c (cls ms g) <? caps (cls ms g) + r_batch c (cls ms g)) with false by lia. reflexivity.
Qed.

Lemma grow_state c ms caps0 caps g s G S : NoDup (map fst ms) -> 0 <= g < s -> s < Z.of_nat (length ms) -> (forall k, 0 <= r_batch c k) ->
  loop_state c ms caps0 caps g (s - 1) G (s :: S) -> cap_can c caps (cls ms g) = true -> mss ms g <> 0 ->
  loop_state c ms caps0 (upd caps (cls ms g) (caps (cls ms g) + r_batch c (cls ms g))) (g + 1) (s - 1) (g :: G) (s :: S).
Proof.
  intros D Hg Hs Hb (L1 & L2 & L3 & L4 & L5 & L6 & L7) Hc Hm. unfold cap_can in Hc.
  assert (BS : forall j, In j (s :: S) -> 0 <= j < Z.of_nat (length ms)) by (intros j H; apply L4 in H; lia).
  assert (BG : forall j, In j G -> 0 <= j < Z.of_nat (length ms)) by (intros j H; apply L3 in H; lia).
  assert (NG : ~ In g G) by (intros H; apply L3 in H; lia). assert (NS : ~ In g (s :: S)) by (intros H; apply L4 in H; lia).
  assert (NcG : ~ In (cls ms g) (map (cls ms) G)) by (intros H; apply NG, (cls_In_map ms g G D); auto; lia).
  assert (NcS : ~ In (cls ms g) (map (cls ms) (s :: S))) by (intros H; apply NS, (cls_In_map ms g (s :: S) D); auto; lia).
  unfold loop_state. split; [|split; [|split; [|split; [|split; [|split]]]]].
  - intros k. destruct (Z.eq_dec k (cls ms g)) as [->|Nk].
    + rewrite upd_same, (L1 (cls ms g)). destruct (in_dec Z.eq_dec (cls ms g) (map (cls ms) G)); [contradiction|].
      destruct (in_dec Z.eq_dec (cls ms g) (map (cls ms) (s :: S))); [contradiction|].
      destruct (in_dec Z.eq_dec (cls ms g) (map (cls ms) (g :: G))) as [I|I]; [lia|exfalso; apply I; now left].
    + rewrite upd_other by assumption. rewrite (L1 k). f_equal. f_equal.
      destruct (in_dec Z.eq_dec k (map (cls ms) G)) as [I|I], (in_dec Z.eq_dec k (map (cls ms) (g :: G))) as [I2|I2]; try reflexivity.
      * exfalso. apply I2. now right.
      * destruct I2 as [I2|I2]; [congruence|contradiction].
  - cbn [app]. constructor; [rewrite in_app_iff; tauto|assumption].
  - intros i [<-|Hi]; [split; [lia|assumption]|]. apply L3 in Hi as (Hi & Hi2). split; [lia|assumption].
  - exact L4.
  - intros k. destruct (Z.eq_dec k (cls ms g)) as [->|Nk]; [rewrite upd_same|rewrite upd_other by assumption; apply L5].
    pose proof (L5 (cls ms g)). pose proof (Hb (cls ms g)). lia.
  - intros i Hi. rewrite upd_other; [apply L6; assumption|]. intros E. apply NS. rewrite <- (cls_inj ms i g D); auto. lia.
  - intros i j [<-|Hi] Hj; [|auto]. apply L4 in Hj. lia.
Qed.

Lemma resize_loop_spec c ms caps0 : (forall k, 0 <= r_batch c k) -> NoDup (map fst ms) -> 0 <= r_limit c ->
  forall fuel caps g s G S, 0 <= g -> s < Z.of_nat (length ms) ->
  loop_state c ms caps0 caps g s G S -> length G = length S -> Z.of_nat (length G) <= r_limit c ->
  exists caps' G' S' g' s', resize_loop c fuel ms caps g s (Z.of_nat (length G)) (Z.of_nat (length S)) = (caps', Z.of_nat (length G'), Z.of_nat (length S')) /\
    0 <= g' /\ loop_state c ms caps0 caps' g' s' G' S' /\ length G' = length S' /\ Z.of_nat (length G') <= r_limit c.
Proof.
  intros Hb D Hl0. induction fuel as [|fuel IH]; intros caps g s G S Hg Hs L HL Hlim; cbn [resize_loop].
  - exists caps, G, S, g, s. auto.
  - assert (Stop : exists caps' G' S' g' s', (caps, Z.of_nat (length G), Z.of_nat (length S)) = (caps', Z.of_nat (length G'), Z.of_nat (length S')) /\
      0 <= g' /\ loop_state c ms caps0 caps' g' s' G' S' /\ length G' = length S' /\ Z.of_nat (length G') <= r_limit c) by (exists caps, G, S, g, s; auto).
    destruct (Z.ltb_spec g s) as [Hgs|Hgs]; cbn [negb]; [|exact Stop].
    destruct (Z.eqb_spec (Z.of_nat (length G)) (r_limit c)) as [HE|HE]; [exact Stop|].
    destruct (cap_can c caps (cls ms g)) eqn:Ec; cbn [negb].
    2:{ replace (s + 1 - 1) with s by lia. apply IH; try assumption; try lia. destruct L as (L1 & L2 & L3 & L4 & L5 & L6 & L7). unfold loop_state.
        split; [exact L1|]. split; [exact L2|]. split; [intros i Hi; apply L3 in Hi as (? & ?); split; [lia|assumption]|]. auto. }
    destruct (Z.eqb_spec (mss ms g) 0) as [Em|Em]; [exact Stop|]. clear Stop.
    destruct (shrink_loop c (Z.to_nat (s - g)) ms caps g s) as ((caps1 & s1) & ok1) eqn:E1.
    destruct (shrink_loop_spec c ms caps0 G S Hb D (Z.to_nat (s - g)) caps g s caps1 s1 ok1 ltac:(lia) Hg Hs L E1) as (Q1 & Q2). destruct ok1.
    + destruct Q2 as (Q2 & L' & Q3). assert (Ec1 : cap_can c caps1 (cls ms g) = true).
      { unfold cap_can in *. rewrite (Q3 g) by lia. assumption. }
      rewrite (grow_first_try c (Z.to_nat (s1 - g)) ms caps1 g s1) by (try assumption; lia).
      pose proof (grow_state c ms caps0 caps1 g s1 G S D ltac:(lia) ltac:(lia) Hb L' Ec1 Em) as L2.
      replace (Z.of_nat (length G) + 1) with (Z.of_nat (length (g :: G))) by (cbn [length]; lia).
      replace (Z.of_nat (length S) + 1) with (Z.of_nat (length (s1 :: S))) by (cbn [length]; lia).
      apply IH; try assumption; cbn [length]; lia.
    + assert (Hx : caps1 = caps /\ s1 <= g) by (destruct Q2 as [?|(? & ? & ?)]; [assumption|lia]). destruct Hx as (-> & Hs1).
      replace (Z.to_nat (s1 - g)) with 0%nat by lia. cbn [grow_loop]. rewrite !Z.add_0_r. apply IH; try assumption; try lia.
      destruct L as (L1 & L2 & L3 & L4 & L5 & L6 & L7). unfold loop_state.
      split; [exact L1|]. split; [exact L2|]. split; [intros i Hi; apply L3 in Hi as (? & ?); split; [lia|assumption]|]. split; [intros i Hi; apply L4 in Hi; lia|]. auto.
Qed.

(** For all capacities and miss counts the redistribution ends (without its final loop ever
    running); some classes gain one batch and equally many others lose one, and nothing
    else changes; no capacity leaves its range and none is taken to zero; only classes with
    misses gain, and no class that loses has had more misses than one that gains. *)
Theorem resize_conserves : forall c misses caps,
  (forall k, 0 <= r_batch c k) -> 0 <= r_limit c -> (forall k, 0 <= caps k <= r_max c k) -> NoDup (map fst misses) ->
  exists caps' grown shrunk,
    (forall fuel, resize_caches c fuel misses caps = Some caps') /\
    (forall k, caps' k = caps k + (if in_dec Z.eq_dec k grown then r_batch c k else 0) - (if in_dec Z.eq_dec k shrunk then r_batch c k else 0)) /\
    NoDup (grown ++ shrunk) /\ length grown = length shrunk /\ Z.of_nat (length grown) <= r_limit c /\
    (forall k, 0 <= caps' k <= r_max c k) /\ (forall k, In k shrunk -> 0 < caps' k) /\
    (forall k, In k (grown ++ shrunk) -> In k (map fst misses)) /\
    (forall k m, In k grown -> In (k, m) misses -> m <> 0) /\
    (forall k m k' m', In k grown -> In (k, m) misses -> In k' shrunk -> In (k', m') misses -> m' <= m).
Proof.
  intros c misses caps Hb Hl Hcap D. set (ms := miss_sort misses). pose proof (miss_sort_perm misses) as P. fold ms in P.
  assert (Dm : NoDup (map fst ms)) by (apply (Permutation_NoDup (l := map fst misses)); [apply Permutation_map; symmetry; assumption|assumption]).
  assert (L0 : loop_state c ms caps caps 0 (Z.of_nat (length ms) - 1) [] []).
  { unfold loop_state. cbn [map In app]. split; [intros k; destruct (in_dec Z.eq_dec k []) as [[]|]; lia|]. split; [constructor|]. split; [tauto|]. split; [tauto|]. split; [exact Hcap|]. split; tauto. }
  destruct (resize_loop_spec c ms caps Hb Dm Hl (length ms) caps 0 (Z.of_nat (length ms) - 1) [] [] ltac:(lia) ltac:(lia) L0 eq_refl ltac:(cbn; lia))
    as (caps' & G & S & g & s & E & Hg & (L1 & L2 & L3 & L4 & L5 & L6 & L7) & HL & Hlim).
  assert (BG : forall i, In i G -> 0 <= i < Z.of_nat (length ms)).
  { intros i Hi. split; [apply L3 in Hi; lia|]. destruct S as [|j S]; [destruct G; [destruct Hi|discriminate]|]. pose proof (L7 i j Hi (or_introl eq_refl)). pose proof (L4 j (or_introl eq_refl)). lia. }
  assert (BS : forall i, In i S -> 0 <= i < Z.of_nat (length ms)).
  { intros i Hi. split; [|apply L4 in Hi; lia]. destruct G as [|j G]; [destruct S; [destruct Hi|discriminate]|]. pose proof (L7 j i (or_introl eq_refl) Hi). pose proof (L3 j (or_introl eq_refl)). lia. }
  assert (Mss : forall i m, 0 <= i < Z.of_nat (length ms) -> In (cls ms i, m) misses -> m = mss ms i).
  { intros i m Hi Hin. apply (Permutation_in _ (Permutation_sym P)) in Hin. apply (In_nth _ _ (0, 0)) in Hin as (j & Hj & Ej).
    assert (cls ms (Z.of_nat j) = cls ms i) by (unfold cls at 1; rewrite Nat2Z.id, Ej; reflexivity).
    assert (Z.of_nat j = i) by (apply (cls_inj ms _ _ Dm); [lia|assumption|assumption]). subst i. unfold mss. rewrite Nat2Z.id, Ej. reflexivity. }
  exists caps', (map (cls ms) G), (map (cls ms) S).
  split; [|split; [exact L1|split; [|split; [|split; [|split; [exact L5|split; [|split; [|split]]]]]]]].
  - intros fuel. unfold resize_caches. fold ms. rewrite Nat2Z.id. cbn [length] in E. change (Z.of_nat 0) with 0 in E. rewrite E.
    destruct fuel; cbn [settle]; rewrite HL, Z.ltb_irrefl; reflexivity.
  - rewrite <- map_app. clear - L2 BG BS Dm.
    assert (B : forall i, In i (G ++ S) -> 0 <= i < Z.of_nat (length ms)) by (intros i Hi; apply in_app_iff in Hi as [Hi|Hi]; auto).
    clear BG BS. induction L2 as [|i l N L2 IH]; [constructor|]. cbn [map]. constructor.
    + intros H. apply N. apply (cls_In_map ms i l Dm); [apply B; now left|intros; apply B; now right|assumption].
    + apply IH. intros; apply B; now right.
  - rewrite !map_length. assumption.
  - rewrite map_length. assumption.
  - intros k Hk. apply in_map_iff in Hk as (i & <- & Hi). apply L6. assumption.
  - intros k Hk. rewrite <- map_app in Hk. apply in_map_iff in Hk as (i & <- & Hi). apply (Permutation_in _ (Permutation_map fst P)).
    unfold cls. apply in_map. apply nth_In. apply in_app_iff in Hi as [Hi|Hi]; [apply BG in Hi|apply BS in Hi]; lia.
  - intros k m Hk Hm. apply in_map_iff in Hk as (i & <- & Hi). rewrite (Mss i m (BG i Hi) Hm). apply L3. assumption.
  - intros k m k' m' Hk Hm Hk' Hm'. apply in_map_iff in Hk as (i & <- & Hi). apply in_map_iff in Hk' as (j & <- & Hj).
    rewrite (Mss i m (BG i Hi) Hm), (Mss j m' (BS j Hj) Hm'). unfold mss. pose proof (L7 i j Hi Hj). pose proof (BG i Hi). pose proof (BS j Hj).
    apply (sorted_nth ms (miss_sort_sorted misses)). lia.
Qed.
Print Assumptions resize_conserves.

(** The interval misses count what was added since the last commit. *)
Theorem interval_misses_spec : forall ti ci tr cr, 0 <= ci <= ti -> 0 <= cr <= tr -> (ti - ci) + (tr - cr) < 2 ^ 64 ->
  interval_misses (ti, ci) (tr, cr) = (ti - ci) + (tr - cr).
Proof.
  intros. unfold interval_misses, commit_misses. cbn [fst snd]. rewrite wrap64_small.
  - destruct (Z.ltb_spec ci ti), (Z.ltb_spec cr tr); lia.
  - unfold two64. destruct (Z.ltb_spec ci ti), (Z.ltb_spec cr tr); lia.
Qed.
Print Assumptions interval_misses_spec.

(** ** Examples *)

(** A cache of capacity 3: five objects inserted (two overflow), plundered while another
    thread removes. *)
Definition run1 (b : Z) (t : tc) (a : tact) (n : nat) : tc * tact := Nat.iter n (fun x => fst (tstep b (fst x) (snd x) true [])) (t, a).
Example ex_insert : let w := run1 2 (tc_new 3 8) (TInsert [11; 12; 13; 14; 15]) 2 in
  cached (fst w) = [11; 12; 13] /\ snd w = TInsertMiss [14; 15].
Proof. split; reflexivity. Qed.
Example ex_reach : exists t pool, reach_t 2 3 8 t pool [] [14; 15] /\ cached t = [11] /\ returned pool = [12; 13].
Proof.
  pose proof (T_new 2 3 8) as R. apply (T_call _ _ _ _ _ _ _ (CInsert [11; 12; 13; 14; 15])) in R; [|cbn; congruence].
  eapply (T_step _ _ _ _ [] _ _ []) with (lock := true) (got := []) in R; [|reflexivity|exact I].
  eapply (T_step _ _ _ _ [] _ _ []) with (lock := true) (got := []) in R; [|reflexivity|exact I].
  eapply (T_step _ _ _ _ [] _ _ []) with (lock := true) (got := []) in R; [|reflexivity|exact I].
  apply (T_call _ _ _ _ _ _ _ (CRemove 2)) in R; [|reflexivity].
  eapply (T_step _ _ _ _ [] _ _ [_]) with (lock := true) (got := []) in R; [|reflexivity|exact I].
  eapply (T_step _ _ _ _ [] _ _ [_]) with (lock := true) (got := []) in R; [|reflexivity|exact I].
  eexists _, _. split; [exact R|]. split; reflexivity.
Qed.
Example ex_capacity : capacity_needed 5 64 32 = (512, 2048) /\ capacity_needed 80 262144 2 = (4, 4).
Proof. split; reflexivity. Qed.
Definition ex_rc : rcfg := RCfg (fun k => if k =? 0 then 0 else 4) (fun k => if k =? 0 then 0 else 16) 2.
Example ex_resize : match resize_caches ex_rc 0 [(0, 0); (1, 5); (2, 9); (3, 0); (4, 1)] (fun k => if k =? 0 then 0 else if k =? 2 then 16 else 8) with
  | Some caps => map caps [0; 1; 2; 3; 4] = [0; 12; 16; 4; 8] | None => False end.
Proof. reflexivity. Qed.
