(** Property C37: epoch arithmetic and window coverage of the time series tracker. *)
From Verif Require Import Base TimeSeries.

(** * Epoch numbers *)

Lemma wrap64_small x : 0 <= x < 2 ^ 64 -> wrap64 x = x.
Proof. intros. unfold wrap64, two64. apply Z.mod_small. lia. Qed.

(** The multiply-and-shift is exact division for every clock value and every epoch
    length that is not a power of two. *)
Theorem epoch_is_quotient : forall d now, 0 < d < 2 ^ 64 -> 0 <= now < 2 ^ 63 -> (forall k, d <> 2 ^ k) -> epoch_at d now = now / d.
Proof.
  intros d now Hd Hn Hp. unfold epoch_at, epoch_ticks_m, div_precision, bit_width.
  replace (d =? 0) with false by lia. pose proof (Z.log2_spec d ltac:(lia)) as (L1 & L2). set (b := Z.log2 d) in *.
  assert (Hb : 0 <= b) by apply Z.log2_nonneg. assert (Hb2 : b < 64).
  { destruct (Z_lt_le_dec b 64); [assumption|]. pose proof (Z.pow_le_mono_r 2 64 b ltac:(lia) ltac:(lia)). lia. }
  assert (L3 : 2 ^ b < d). { specialize (Hp b). lia. }
  replace (63 + (b + 1)) with (64 + b) by lia.
  assert (P1 : 2 ^ (64 + b) = 2 ^ 64 * 2 ^ b) by (apply Z.pow_add_r; lia).
  assert (P2 : 2 ^ (64 + b) = 2 ^ 63 * 2 ^ Z.succ b).
  { rewrite <- Z.pow_add_r by lia. f_equal. lia. }
  pose proof (Z.pow_pos_nonneg 2 b ltac:(lia) Hb) as Pb.
  set (q := 2 ^ (64 + b) / d). set (p := 2 ^ (64 + b)) in *.
  pose proof (Z.div_mod p d ltac:(lia)) as Q. fold q in Q. pose proof (Z.mod_pos_bound p d ltac:(lia)) as R.
  set (r := p mod d) in *. clearbody r q.
  assert (Q1 : q < 2 ^ 64). { destruct (Z_lt_le_dec q (2 ^ 64)) as [|C]; [assumption|exfalso]. assert (2 ^ 64 * d <= q * d) by (apply Z.mul_le_mono_nonneg_r; lia).
    assert (2 ^ 64 * 2 ^ b < 2 ^ 64 * d) by (apply Z.mul_lt_mono_pos_l; lia). lia. }
  assert (Q0 : 0 <= q). { destruct (Z_lt_le_dec q 0) as [C|]; [exfalso|assumption]. assert (q * d <= -1 * d) by (apply Z.mul_le_mono_nonneg_r; lia). lia. }
  assert (Q2 : q + 1 < 2 ^ 64).
  { destruct (Z.eq_dec (q + 1) (2 ^ 64)) as [C|]; [exfalso|lia]. assert (E : q * d = (2 ^ 64 - 1) * d) by (f_equal; lia).
    assert (2 ^ b + 1 <= d) by lia. assert ((2 ^ 64 - 1) * (2 ^ b + 1) <= (2 ^ 64 - 1) * d) by (apply Z.mul_le_mono_nonneg_l; lia).
    assert (2 ^ b < 2 ^ 64). { apply Z.pow_lt_mono_r; lia. } lia. }
  rewrite (wrap64_small q) by lia. rewrite (wrap64_small (q + 1)) by lia.
  assert (M : 0 <= (q + 1) * now < 2 ^ 128).
  { split; [apply Z.mul_nonneg_nonneg; lia|]. apply Z.le_lt_trans with (2 ^ 64 * now); [apply Z.mul_le_mono_nonneg_r; lia|]. lia. }
  rewrite (Z.mod_small _ _ M). rewrite Z.shiftr_div_pow2 by (clear - Hb; lia). fold p.
  assert (E : (q + 1) * now / p = now / d).
  { pose proof (Z.div_mod now d ltac:(lia)) as N. pose proof (Z.mod_pos_bound now d ltac:(lia)) as N2.
    set (nq := now / d) in *. set (nr := now mod d) in *. clearbody nq nr.
    symmetry. apply Z.div_unique with (r := (q + 1) * now - p * nq); [|lia]. left.
    (* d * ((q+1) now - p nq) = p nr + (d - r) now, between 0 and d p *)
    assert (K : d * ((q + 1) * now - p * nq) = p * nr + (d - r) * now).
    { replace (d * ((q + 1) * now - p * nq)) with ((d * q + d) * now - p * (d * nq)) by ring.
      replace (d * q) with (p - r) by lia. replace (d * nq) with (now - nr) by lia. ring. }
    assert (K0 : 0 <= p * nr) by (apply Z.mul_nonneg_nonneg; lia).
    assert (K1 : 0 <= (d - r) * now) by (apply Z.mul_nonneg_nonneg; lia).
    assert (K2 : (d - r) * now < p).
    { apply Z.le_lt_trans with (d * now); [apply Z.mul_le_mono_nonneg_r; lia|].
      rewrite P2. apply Z.le_lt_trans with (2 ^ Z.succ b * now); [apply Z.mul_le_mono_nonneg_r; lia|].
      rewrite Z.mul_comm. apply Z.mul_lt_mono_pos_r; lia. }
    assert (K3 : p * nr <= p * (d - 1)) by (apply Z.mul_le_mono_nonneg_l; lia).
    split.
    - apply Z.mul_le_mono_pos_l with (p := d); [lia|]. lia.
    - apply Z.mul_lt_mono_pos_l with (p := d); [lia|]. rewrite K. replace (d * p) with (p * (d - 1) + p) by ring. lia. }
  rewrite E. apply wrap64_small. split; [apply Z.div_pos; lia|]. apply Z.div_lt_upper_bound; [lia|].
  assert (1 * 2 ^ 64 <= d * 2 ^ 64) by (apply Z.mul_le_mono_nonneg_r; lia). lia.
Qed.
Print Assumptions epoch_is_quotient.

(** Finding: when the epoch lasts exactly a power of two of clock ticks the 65-bit
    reciprocal is truncated, the multiplier becomes 1 and the epoch number is 0 for
    ever: time never advances. *)
Theorem epoch_power_of_two_refuted : forall k now, 0 <= k < 64 -> 0 <= now < 2 ^ 63 -> epoch_at (2 ^ k) now = 0.
Proof.
  intros k now Hk Hn. unfold epoch_at, epoch_ticks_m, div_precision, bit_width.
  pose proof (Z.pow_pos_nonneg 2 k ltac:(lia) ltac:(lia)) as P. replace (2 ^ k =? 0) with false by lia.
  rewrite Z.log2_pow2 by lia. replace (63 + (k + 1)) with (64 + k) by lia. rewrite Z.pow_add_r by lia.
  rewrite Z.div_mul by lia. change (wrap64 (wrap64 (2 ^ 64) + 1)) with 1. rewrite Z.mul_1_l.
  rewrite (Z.mod_small now) by lia. rewrite Z.shiftr_div_pow2 by lia. rewrite Z.div_small; [reflexivity|].
  pose proof (Z.pow_le_mono_r 2 64 (64 + k) ltac:(lia) ltac:(lia)). lia.
Qed.
Print Assumptions epoch_power_of_two_refuted.

Example ex_epoch : epoch_at 3000000000 (2 ^ 63 - 1) = (2 ^ 63 - 1) / 3000000000 /\ epoch_at (2 ^ 31) (10 * 2 ^ 31) = 0.
Proof. split; reflexivity. Qed.

(** * The window *)

(** ** Specification *)

(** The values reported in epoch [e], in the order they were reported. *)
Definition at_epoch {V} (log : list (Z * V)) (e : Z) : list V := map snd (filter (fun x => fst x =? e) log).

(** Histories: [last] is the epoch of the latest call and [log] what was reported,
    with its epoch, since the clock last went backwards (or the construction). *)
Inductive reach_ts {P V} (K : Z) (nil : P) (rep : P -> V -> P) : tseries P -> Z -> list (Z * V) -> Prop :=
| R_new e : 0 <= e < 2 ^ 63 -> reach_ts K nil rep (ts_init nil e) e []
| R_report t last log e v : reach_ts K nil rep t last log -> 0 <= e < 2 ^ 63 ->
    reach_ts K nil rep (snd (ts_report K nil rep t e v)) e ((if e <? last then [] else log) ++ [(e, v)])
| R_tick t last log e : reach_ts K nil rep t last log -> 0 <= e < 2 ^ 63 ->
    reach_ts K nil rep (snd (update_clock K nil t e)) e (if e <? last then [] else log).

(** The [i]-th entry counted back from the current one, and the time between the
    current epoch and it. *)
Definition entry {P} (K : Z) (t : tseries P) (i : Z) : Z * P := ts_entries t ((ts_cur t - i) mod K).
Definition age {P} (K : Z) (t : tseries P) (i : Z) : Z := zsum (map (fun j => fst (entry K t j)) (zseq 0 (Z.to_nat i))).

(** ** Invariant *)
Fixpoint chain (e : Z) (h : list (Z * Z)) : Prop :=
  match h with [] => True | (x, d) :: h => x = e /\ 0 < d /\ chain (e - d) h end.
Definition total (h : list (Z * Z)) : Z := zsum (map snd h).

Record ts_inv {P V} (K : Z) (nil : P) (rep : P -> V -> P) (t : tseries P) (last : Z) (log : list (Z * V)) (h : list (Z * Z)) : Prop := {
  i_cur : 0 <= ts_cur t < K;
  i_last : ts_last t = last;
  i_range : 0 <= last < 2 ^ 63;
  i_hist : h <> [];
  i_chain : chain last h;
  i_total : total h <= last + 1;
  i_entries : forall i, 0 <= i < K -> entry K t i =
    match nth_error h (Z.to_nat i) with Some (e, d) => (d, fold_left rep (at_epoch log e) nil) | None => (0, nil) end;
  i_covered : ts_covered t = total (firstn (Z.to_nat K) h);
  i_log : forall e v, In (e, v) log -> In e (map fst h) }.

Lemma chain_pos h : forall e, chain e h -> Forall (fun x => 0 < snd x) h.
Proof. induction h as [|(x & d) h IH]; intros e C; constructor; cbn in *; [tauto|]. apply IH with (e - d). tauto. Qed.
Lemma total_nonneg h : Forall (fun x => 0 < snd x) h -> 0 <= total h.
Proof. induction 1; unfold total in *; cbn; lia. Qed.
Lemma chain_nth h : forall e n x d, chain e h -> nth_error h n = Some (x, d) -> x = e - total (firstn n h).
Proof.
  induction h as [|(x0 & d0) h IH]; intros e n x d C E; destruct n; try discriminate.
  - cbn in *. inversion E; subst. unfold total. cbn. lia.
  - cbn in C, E. destruct C as (-> & _ & C). rewrite (IH _ _ _ _ C E). unfold total. cbn. lia.
Qed.
Lemma chain_le h : forall e x, chain e h -> In x (map fst h) -> x <= e.
Proof.
  induction h as [|(x0 & d0) h IH]; intros e x C H; [destruct H|]. cbn in *. destruct C as (-> & Hd & C).
  destruct H as [H|H]; [lia|]. specialize (IH _ _ C H). lia.
Qed.
Lemma total_app a b : total (a ++ b) = total a + total b.
Proof. unfold total. now rewrite map_app, zsum_app. Qed.
Lemma forall_firstn {A} (Q : A -> Prop) n l : Forall Q l -> Forall Q (firstn n l).
Proof. intros F. rewrite Forall_forall in *. intros x H. apply F. rewrite <- (firstn_skipn n l). apply in_or_app. now left. Qed.
Lemma total_firstn_le n h : Forall (fun x => 0 < snd x) h -> total (firstn n h) <= total h.
Proof.
  intros F. rewrite <- (firstn_skipn n h) at 2. rewrite total_app. enough (0 <= total (skipn n h)) by lia.
  apply total_nonneg. rewrite Forall_forall in *. intros x H. apply F. rewrite <- (firstn_skipn n h). apply in_or_app. now right.
Qed.

Lemma firstn_S_nth {A} (l : list A) n : firstn (S n) l = firstn n l ++ match nth_error l n with Some x => [x] | None => [] end.
Proof.
  revert l. induction n as [|n IH]; intros [|x l]; try reflexivity. cbn [firstn nth_error app]. f_equal. apply IH.
Qed.

Lemma mod_step K c : 0 <= c < K -> (if c + 1 =? K then 0 else c + 1) = (c + 1) mod K.
Proof.
  intros. destruct (Z.eqb_spec (c + 1) K) as [E|E]; [rewrite E, Z_mod_same_full; reflexivity|]. rewrite Z.mod_small; lia.
Qed.
Lemma mod_back K j : 0 <= j < K -> (if j =? 0 then K else j) - 1 = (j - 1) mod K.
Proof.
  intros. destruct (Z.eqb_spec j 0) as [->|E].
  - replace (0 - 1) with (K - 1 + (-1) * K) by lia. rewrite Z.mod_add, Z.mod_small; lia.
  - rewrite Z.mod_small; lia.
Qed.
Lemma mod_eq_sub K c i : 0 < K -> 0 <= i < K -> (c - i) mod K = c mod K -> i = 0.
Proof.
  intros HK Hi E. assert (D : (i mod K) = 0).
  { replace i with (c - (c - i)) by lia. rewrite Zminus_mod, E, Z.sub_diag. apply Z.mod_0_l. lia. }
  rewrite Z.mod_small in D; lia.
Qed.

Lemma inv_init {P V} K (nil : P) (rep : P -> V -> P) e : 0 < K -> 0 <= e < 2 ^ 63 -> ts_inv K nil rep (ts_init nil e) e [] [(e, 1)].
Proof.
  intros HK He. constructor; cbn [ts_init ts_cur ts_last ts_covered]; try lia.
  - discriminate.
  - cbn. lia.
  - unfold total. cbn. lia.
  - intros i Hi. unfold entry. cbn [ts_init ts_entries ts_cur]. destruct (Z.eq_dec i 0) as [->|N].
    + rewrite Z.mod_small by lia. now rewrite upd_same.
    + rewrite upd_other. 2:{ intros E. apply N. apply (mod_eq_sub K 0); [lia|lia|]. rewrite E, Z.mod_0_l; lia. }
      destruct (Z.to_nat i) as [|n] eqn:En; [lia|]. cbn. now rewrite nth_error_nil || destruct n.
  - destruct (Z.to_nat K) eqn:E; [lia|]. cbn. now rewrite firstn_nil.
  - intros ? ? [].
Qed.

Lemma at_epoch_nil {V} (log : list (Z * V)) e : (forall v, ~ In (e, v) log) -> at_epoch log e = [].
Proof.
  unfold at_epoch. induction log as [|(x & v) log IH]; intros H; [reflexivity|]. cbn.
  destruct (Z.eqb_spec x e) as [->|N]; [exfalso; apply (H v); now left|]. apply IH. intros u Hu. apply (H u). now right.
Qed.
Lemma at_epoch_app {V} (l1 l2 : list (Z * V)) e : at_epoch (l1 ++ l2) e = at_epoch l1 e ++ at_epoch l2 e.
Proof. unfold at_epoch. now rewrite filter_app, map_app. Qed.

Lemma inv_advance {P V} K (nil : P) (rep : P -> V -> P) t last log h e : 0 < K ->
  ts_inv K nil rep t last log h -> last < e < 2 ^ 63 ->
  ts_inv K nil rep (snd (update_clock K nil t e)) e log ((e, e - last) :: h) /\ fst (update_clock K nil t e) = true.
Proof.
  intros HK I He. destruct I as [C1 C2 C3 C4 C5 C6 C7 C8 C9]. unfold update_clock. rewrite C2.
  replace (e <? last) with false by lia. replace (e =? last) with false by lia. cbv zeta. split; [|reflexivity]. cbn [snd].
  rewrite mod_step by assumption. rewrite (wrap64_small (e - last)) by lia.
  pose proof (chain_pos h last C5) as Fp.
  assert (Ho : fst (ts_entries t ((ts_cur t + 1) mod K)) = total (firstn (Z.to_nat K) h) - total (firstn (Z.to_nat (K - 1)) h) /\
     0 <= fst (ts_entries t ((ts_cur t + 1) mod K))).
  { pose proof (C7 (K - 1) ltac:(lia)) as E. unfold entry in E.
    replace (ts_cur t - (K - 1)) with (ts_cur t + 1 + (-1) * K) in E by lia. rewrite Z.mod_add in E by lia. rewrite E.
    replace (Z.to_nat K) with (S (Z.to_nat (K - 1))) by lia. rewrite firstn_S_nth, total_app.
    destruct (nth_error h (Z.to_nat (K - 1))) as [(x & d)|] eqn:N.
    - cbn [fst]. unfold total at 2. cbn. split; [lia|]. apply nth_error_In in N. rewrite Forall_forall in Fp. specialize (Fp _ N). cbn in Fp. lia.
    - cbn [fst]. unfold total at 2. cbn. lia. }
  destruct Ho as (Ho & Ho0). pose proof (total_firstn_le (Z.to_nat K) h Fp) as T1. pose proof (total_firstn_le (Z.to_nat (K - 1)) h Fp) as T2.
  assert (T3 : 0 <= total (firstn (Z.to_nat (K - 1)) h)) by (apply total_nonneg, forall_firstn, Fp).
  constructor; cbn [ts_cur ts_last ts_covered]; try lia.
  - discriminate.
  - cbn. split; [reflexivity|]. split; [lia|]. now replace (e - (e - last)) with last by lia.
  - change (total ((e, e - last) :: h)) with (e - last + total h). lia.
  - intros i Hi. unfold entry. cbn [ts_entries ts_cur]. destruct (Z.eq_dec i 0) as [->|N].
    + rewrite Z.sub_0_r, Z.mod_mod, upd_same by lia. change (Z.to_nat 0) with 0%nat. cbn [nth_error]. rewrite at_epoch_nil; [reflexivity|].
      intros v Hv. apply C9 in Hv. pose proof (chain_le _ _ _ C5 Hv). lia.
    + rewrite upd_other.
      2:{ intros E. apply N. apply (mod_eq_sub K ((ts_cur t + 1) mod K)); [lia|lia|]. rewrite E, Z.mod_mod; lia. }
      rewrite Zminus_mod_idemp_l. replace (ts_cur t + 1 - i) with (ts_cur t - (i - 1)) by lia. fold (entry K t (i - 1)). rewrite C7 by lia.
      replace (Z.to_nat i) with (S (Z.to_nat (i - 1))) by lia. reflexivity.
  - rewrite C8. rewrite (wrap64_small (_ - _)) by lia. rewrite wrap64_small by lia.
    assert (Ef : firstn (Z.to_nat K) ((e, e - last) :: h) = (e, e - last) :: firstn (Z.to_nat (K - 1)) h).
    { replace (Z.to_nat K) with (S (Z.to_nat (K - 1))) by lia. reflexivity. }
    rewrite Ef. change (total ((e, e - last) :: firstn (Z.to_nat (K - 1)) h)) with (e - last + total (firstn (Z.to_nat (K - 1)) h)). lia.
  - intros x v Hx. right. eapply C9. exact Hx.
Qed.

Lemma inv_tick {P V} K (nil : P) (rep : P -> V -> P) t last log h e : 0 < K ->
  ts_inv K nil rep t last log h -> 0 <= e < 2 ^ 63 ->
  exists h', ts_inv K nil rep (snd (update_clock K nil t e)) e (if e <? last then [] else log) h'.
Proof.
  intros HK I He. pose proof (i_last _ _ _ _ _ _ _ I) as L. destruct (Z_lt_le_dec last e) as [H|H].
  - replace (e <? last) with false by lia. eexists. apply inv_advance; [assumption|eassumption|lia].
  - destruct (Z.ltb_spec e last) as [H1|H1].
    + exists [(e, 1)]. unfold update_clock. rewrite L. replace (e <? last) with true by lia. apply inv_init; assumption.
    + exists h. unfold update_clock. rewrite L. replace (e <? last) with false by lia. replace (e =? last) with true by lia. cbn [snd].
      replace e with last by lia. exact I.
Qed.

Lemma inv_put {P V} K (nil : P) (rep : P -> V -> P) t e log h v : 0 < K -> ts_inv K nil rep t e log h ->
  ts_inv K nil rep (let (d, p) := ts_entries t (ts_cur t) in
    TSeries (upd (ts_entries t) (ts_cur t) (d, rep p v)) (ts_last t) (ts_cur t) (ts_covered t)) e (log ++ [(e, v)]) h.
Proof.
  intros HK I. destruct I as [C1 C2 C3 C4 C5 C6 C7 C8 C9]. destruct (ts_entries t (ts_cur t)) as (d & p) eqn:E0.
  destruct h as [|(e0 & d0) h]; [congruence|]. cbn in C5. destruct C5 as (-> & Hd & C5).
  pose proof (C7 0 ltac:(lia)) as H0. unfold entry in H0. rewrite Z.sub_0_r, Z.mod_small, E0 in H0 by lia. change (Z.to_nat 0) with 0%nat in H0. cbn [nth_error] in H0. inversion H0; subst d p.
  constructor; cbn [ts_cur ts_last ts_covered]; try assumption; try lia.
  - cbn. split; [reflexivity|split; assumption].
  - intros i Hi. unfold entry. cbn [ts_entries ts_cur]. destruct (Z.eq_dec i 0) as [->|N].
    + rewrite Z.sub_0_r, Z.mod_small, upd_same by lia. change (Z.to_nat 0) with 0%nat. cbn [nth_error]. rewrite at_epoch_app, fold_left_app.
      replace (at_epoch [(e, v)] e) with [v]; [reflexivity|]. unfold at_epoch. cbn. now rewrite Z.eqb_refl.
    + rewrite upd_other.
      2:{ intros E. apply N. apply (mod_eq_sub K (ts_cur t)); [lia|lia|]. rewrite E, Z.mod_small; lia. }
      fold (entry K t i). rewrite C7 by lia. destruct (Z.to_nat i) as [|n] eqn:En; [lia|]. cbn [nth_error].
      destruct (nth_error h n) as [(x & dx)|] eqn:Ex; [|reflexivity]. rewrite at_epoch_app.
      assert (x <= e - d0). { apply (chain_le _ _ _ C5). apply nth_error_In in Ex. apply in_map_iff. exists (x, dx). now split. }
      replace (at_epoch [(e, v)] x) with (@List.nil V); [now rewrite app_nil_r|]. unfold at_epoch. cbn. now replace (e =? x) with false by lia.
  - intros x u Hx. apply in_app_or in Hx as [Hx|[Hx|[]]]; [eapply C9; exact Hx|]. inversion Hx; subst. now left.
Qed.

Lemma reach_inv {P V} K (nil : P) (rep : P -> V -> P) t last log : 0 < K -> reach_ts K nil rep t last log -> exists h, ts_inv K nil rep t last log h.
Proof.
  intros HK R. induction R as [e He|t last log e v R (h & I) He|t last log e R (h & I) He].
  - exists [(e, 1)]. apply inv_init; assumption.
  - destruct (inv_tick K nil rep t last log h e HK I He) as (h' & I'). exists h'. unfold ts_report.
    destruct (update_clock K nil t e) as (b & t') eqn:E. cbn [snd] in I'. pose proof (inv_put K nil rep t' e _ h' v HK I') as Q.
    destruct (ts_entries t' (ts_cur t')) as (d & p). exact Q.
  - apply inv_tick with h; assumption.
Qed.

Lemma firstn_le_le {A} (h : list A) (a b : nat) : (a <= b)%nat -> exists x, firstn b h = firstn a h ++ x.
Proof.
  intros. exists (firstn (b - a) (skipn a h)). replace b with (a + (b - a))%nat at 1 by lia.
  revert h. clear H. generalize (b - a)%nat as c. intros c. induction a as [|a IH]; intros h; [reflexivity|].
  destruct h; cbn [Nat.add firstn skipn app]; [now rewrite firstn_nil|]. f_equal. apply IH.
Qed.

Lemma age_eq {P V} K (nil : P) (rep : P -> V -> P) t last log h i : ts_inv K nil rep t last log h -> 0 <= i <= K ->
  age K t i = total (firstn (Z.to_nat i) h).
Proof.
  intros I. revert i. assert (G : forall n, Z.of_nat n <= K -> age K t (Z.of_nat n) = total (firstn n h)).
  { induction n as [|n IH]; intros Hn; [reflexivity|]. unfold age in *. rewrite Nat2Z.id in *.
    replace (S n) with (n + 1)%nat by lia. rewrite zseq_app, map_app, zsum_app. rewrite IH by lia.
    replace (n + 1)%nat with (S n) by lia. rewrite firstn_S_nth, total_app. f_equal. cbn [zseq map zsum].
    rewrite (i_entries _ _ _ _ _ _ _ I) by lia. rewrite Z.add_0_l, Nat2Z.id. destruct (nth_error h n) as [(x & d)|]; unfold total; cbn; lia. }
  intros i Hi. rewrite <- (Z2Nat.id i) at 1 by lia. apply G. lia.
Qed.

(** For every history of reports and clock updates, the clock going backwards
    included: the first [n] entries, counted back from the current one, lie in strictly
    decreasing epochs and hold exactly the aggregate of the values reported in their
    epoch; the others are empty.  The covered time is the sum of the gaps, and every
    value reported in the covered time is in an entry. *)
Theorem timeseries_window : forall P V K (nil : P) (rep : P -> V -> P) t last log,
  0 < K -> reach_ts K nil rep t last log ->
  exists n, 1 <= n <= K /\
    (forall i, 0 <= i < n -> 0 < fst (entry K t i) /\ snd (entry K t i) = fold_left rep (at_epoch log (last - age K t i)) nil) /\
    (forall i, n <= i < K -> entry K t i = (0, nil)) /\
    ts_covered t = age K t K /\ age K t n = age K t K /\ 1 <= ts_covered t <= last + 1 /\
    (forall e v, In (e, v) log -> last - ts_covered t < e -> exists i, 0 <= i < n /\ e = last - age K t i).
Proof.
  intros P V K nil rep t last log HK R. destruct (reach_inv K nil rep t last log HK R) as (h & I).
  pose proof I as [C1 C2 C3 C4 C5 C6 C7 C8 C9]. pose proof (chain_pos h last C5) as Fp.
  assert (Hn : 1 <= Z.of_nat (length h)) by (destruct h; [congruence|cbn; lia]).
  exists (Z.min K (Z.of_nat (length h))). split; [lia|]. split; [|split; [|split; [|split; [|split]]]].
  - intros i Hi. rewrite C7 by lia. destruct (nth_error h (Z.to_nat i)) as [(x & d)|] eqn:N.
    2:{ apply nth_error_None in N. lia. }
    cbn [fst snd]. split; [apply nth_error_In in N; rewrite Forall_forall in Fp; apply (Fp _ N)|].
    rewrite (chain_nth _ _ _ _ _ C5 N). rewrite (age_eq _ _ _ _ _ _ _ i I) by lia. reflexivity.
  - intros i Hi. rewrite C7 by lia. destruct (nth_error h (Z.to_nat i)) as [(x & d)|] eqn:N; [|reflexivity].
    assert (H : nth_error h (Z.to_nat i) <> None) by congruence. apply nth_error_Some in H. lia.
  - rewrite C8. rewrite (age_eq _ _ _ _ _ _ _ K I) by lia. reflexivity.
  - rewrite !(age_eq _ _ _ _ _ _ _ _ I) by lia. destruct (Z.min_spec K (Z.of_nat (length h))) as [(H & ->)|(H & ->)]; [reflexivity|].
    rewrite Nat2Z.id, !firstn_all2 by lia. reflexivity.
  - rewrite C8. split; [|pose proof (total_firstn_le (Z.to_nat K) h Fp); lia].
    destruct h as [|(x & d) h]; [congruence|]. destruct (Z.to_nat K) as [|k] eqn:Ek; [lia|]. cbn [firstn].
    inversion Fp as [|? ? F1 F2]; subst. cbn in F1. change (total ((x, d) :: firstn k h)) with (d + total (firstn k h)).
    pose proof (total_nonneg _ (forall_firstn _ k h F2)). lia.
  - intros e v Hin Hlt. pose proof (C9 _ _ Hin) as H. apply in_map_iff in H as ((x & d) & Ex & H). cbn in Ex. subst x.
    apply In_nth_error in H as (n & N). assert (Hl : (n < length h)%nat) by (apply nth_error_Some; congruence).
    pose proof (chain_nth _ _ _ _ _ C5 N) as E. assert (Hk : (n < Z.to_nat K)%nat).
    { destruct (Nat.lt_ge_cases n (Z.to_nat K)) as [|G]; [assumption|exfalso].
      destruct (firstn_le_le h _ _ G) as (y & Ey). assert (Fy : Forall (fun z => 0 < snd z) y).
      { pose proof (forall_firstn _ n h Fp) as F. rewrite Ey in F. apply Forall_app in F. tauto. }
      rewrite Ey, total_app in E. rewrite C8 in Hlt. pose proof (total_nonneg _ Fy). lia. }
    exists (Z.of_nat n). split; [lia|]. rewrite (age_eq _ _ _ _ _ _ _ _ I) by lia. rewrite Nat2Z.id. exact E.
Qed.
Print Assumptions timeseries_window.

(** Report tells whether the call moved forward to a new epoch. *)
Theorem timeseries_moved : forall P V K (nil : P) (rep : P -> V -> P) t last log e v,
  0 < K -> reach_ts K nil rep t last log -> 0 <= e < 2 ^ 63 ->
  (fst (ts_report K nil rep t e v) = true <-> last < e).
Proof.
  intros P V K nil rep t last log e v HK R He. destruct (reach_inv K nil rep t last log HK R) as (h & I).
  pose proof (i_last _ _ _ _ _ _ _ I) as L. unfold ts_report, update_clock. rewrite L.
  destruct (Z.ltb_spec e last); [|destruct (Z.eqb_spec e last)]; cbn [ts_entries ts_cur ts_init];
    match goal with |- context [let (_, _) := ?x in _] => destruct x end; cbn; split; intros; try lia; try discriminate; try reflexivity.
Qed.
Print Assumptions timeseries_moved.

(** ** Iteration *)

(** Iter calls back, oldest first, with every entry whose payload is not empty; the
    sequence number is the position in the buffer. *)
Theorem timeseries_iter : forall P V K (nil : P) (rep : P -> V -> P) emp t last log,
  0 < K -> reach_ts K nil rep t last log ->
  ts_iter K emp t =
    map (fun s => (s, fst (entry K t (K - 1 - s)), snd (entry K t (K - 1 - s))))
      (filter (fun s => negb (emp (snd (entry K t (K - 1 - s))))) (zseq 0 (Z.to_nat K))).
Proof.
  intros P V K nil rep emp t last log HK R. destruct (reach_inv K nil rep t last log HK R) as (h & I).
  pose proof (i_cur _ _ _ _ _ _ _ I) as C. unfold ts_iter. rewrite mod_step by assumption.
  assert (G : forall n s, 0 <= s -> iter_loop K emp t n s ((ts_cur t + 1 + s) mod K) =
    map (fun s => (s, fst (entry K t (K - 1 - s)), snd (entry K t (K - 1 - s))))
      (filter (fun s => negb (emp (snd (entry K t (K - 1 - s))))) (zseq s n))).
  { induction n as [|n IH]; intros s Hs; [reflexivity|]. cbn [iter_loop zseq filter]. cbv zeta.
    rewrite mod_step by (apply Z.mod_pos_bound; lia). rewrite Zplus_mod_idemp_l. replace (ts_cur t + 1 + s + 1) with (ts_cur t + 1 + (s + 1)) by lia.
    rewrite IH by lia. assert (E : entry K t (K - 1 - s) = ts_entries t ((ts_cur t + 1 + s) mod K)).
    { unfold entry. f_equal. replace (ts_cur t - (K - 1 - s)) with (ts_cur t + 1 + s + (-1) * K) by lia. apply Z.mod_add. lia. }
    rewrite E. destruct (emp _); cbn [negb]; [reflexivity|]. cbn [map]. rewrite E. reflexivity. }
  specialize (G (Z.to_nat K) 0 ltac:(lia)). rewrite Z.add_0_r in G. exact G.
Qed.
Print Assumptions timeseries_iter.

(** IterBackwards over a window of [w >= 1] epochs (or all) calls back with the entries
    from the current one back, stopping with the first at which the window is covered:
    exactly the entries whose epoch is in the window. *)
Theorem timeseries_iter_back : forall P V K (nil : P) (rep : P -> V -> P) t last log want,
  0 < K -> reach_ts K nil rep t last log -> (forall w, want = Some w -> 1 <= w) ->
  let target := match want with None => ts_covered t | Some w => Z.min w (ts_covered t) end in
  exists m, 1 <= m <= K /\
    ts_iter_back K t want = map (fun i => (i, fst (entry K t i), snd (entry K t i))) (zseq 0 (Z.to_nat m)) /\
    (forall i, 0 <= i < m -> age K t i < target) /\ target <= age K t m.
Proof.
  intros P V K nil rep t last log want HK R Hw. destruct (timeseries_window P V K nil rep t last log HK R) as (n & Hn & W1 & W2 & W3 & W4 & W5 & _).
  destruct (reach_inv K nil rep t last log HK R) as (h & I). pose proof (i_cur _ _ _ _ _ _ _ I) as C. cbv zeta. fold (ts_target t want).
  assert (Ht : 1 <= ts_target t want <= ts_covered t).
  { unfold ts_target. destruct want as [w|]; [specialize (Hw _ eq_refl)|]; lia. }
  set (tg := ts_target t want) in *. unfold ts_iter_back. cbv zeta. fold tg.
  assert (A1 : forall i, 0 <= i < n -> age K t (i + 1) = age K t i + fst (entry K t i)).
  { intros i Hi. unfold age. replace (Z.to_nat (i + 1)) with (Z.to_nat i + 1)%nat by lia. rewrite zseq_app, map_app, zsum_app. cbn [zseq map zsum].
    rewrite Z.add_0_l, Z2Nat.id by lia. lia. }
  assert (A2 : forall i, 0 <= i <= n -> i <= age K t i).
  { intros i Hi. rewrite <- (Z2Nat.id i) by lia. assert (Hi2 : (Z.to_nat i <= Z.to_nat n)%nat) by lia. revert Hi2. generalize (Z.to_nat i) as x.
    induction x as [|x IH]; intros Hx; [change (Z.of_nat 0) with 0; apply Z.le_refl|]. replace (Z.of_nat (S x)) with (Z.of_nat x + 1) by lia.
    rewrite A1 by lia. pose proof (W1 (Z.of_nat x) ltac:(lia)) as (D & _). specialize (IH ltac:(lia)). lia. }
  assert (G : forall k i, 0 <= i -> i + Z.of_nat k = Z.min K tg -> age K t i < tg -> (forall j, 0 <= j < i -> age K t j < tg) ->
    exists m, i < m <= K /\ back_loop K t tg k i ((ts_cur t - i) mod K) (age K t i) =
      map (fun i => (i, fst (entry K t i), snd (entry K t i))) (zseq i (Z.to_nat (m - i))) /\ (forall j, 0 <= j < m -> age K t j < tg) /\ tg <= age K t m).
  { induction k as [|k IH]; intros i Hi Hk Hlt Hall.
    - exfalso. destruct (Z_le_gt_dec n i) as [L|L].
      + assert (n <= i <= K) by lia. assert (Hmon : age K t n <= age K t i).
        { rewrite !(age_eq _ _ _ _ _ _ _ _ I) by lia. destruct (firstn_le_le h (Z.to_nat n) (Z.to_nat i) ltac:(lia)) as (y & Ey). rewrite Ey, total_app.
          assert (Fy : Forall (fun z => 0 < snd z) y). { pose proof (forall_firstn _ (Z.to_nat i) h (chain_pos _ _ (i_chain _ _ _ _ _ _ _ I))) as F. rewrite Ey in F. apply Forall_app in F. tauto. }
          pose proof (total_nonneg _ Fy). lia. }
        lia.
      + pose proof (A2 i ltac:(lia)). assert (i = K \/ i = tg) as [E|E] by lia; [lia|lia].
    - cbn [back_loop]. cbv zeta. change (ts_entries t ((ts_cur t - i) mod K)) with (entry K t i).
      assert (Hin : i < n).
      { destruct (Z_lt_le_dec i n); [assumption|exfalso]. assert (Hmon : age K t n <= age K t i).
        { rewrite !(age_eq _ _ _ _ _ _ _ _ I) by lia. destruct (firstn_le_le h (Z.to_nat n) (Z.to_nat i) ltac:(lia)) as (y & Ey). rewrite Ey, total_app.
          assert (Fy : Forall (fun z => 0 < snd z) y). { pose proof (forall_firstn _ (Z.to_nat i) h (chain_pos _ _ (i_chain _ _ _ _ _ _ _ I))) as F. rewrite Ey in F. apply Forall_app in F. tauto. }
          pose proof (total_nonneg _ Fy). lia. }
        lia. }
      rewrite <- A1 by lia. destruct (Z.leb_spec tg (age K t (i + 1))) as [D|D].
      + exists (i + 1). split; [lia|]. replace (i + 1 - i) with 1 by lia. split; [reflexivity|]. split; [|assumption].
        intros j Hj. destruct (Z.eq_dec j i) as [->|]; [assumption|apply Hall; lia].
      + rewrite mod_back by (apply Z.mod_pos_bound; lia). rewrite Zminus_mod_idemp_l. replace (ts_cur t - i - 1) with (ts_cur t - (i + 1)) by lia.
        destruct (IH (i + 1) ltac:(lia) ltac:(lia) D) as (m & Hm & Em & Hall' & Htg).
        { intros j Hj. destruct (Z.eq_dec j i) as [->|]; [assumption|apply Hall; lia]. }
        exists m. split; [lia|]. split; [|split; assumption]. rewrite Em.
        replace (Z.to_nat (m - i)) with (S (Z.to_nat (m - (i + 1)))) by lia. reflexivity. }
  destruct (G (Z.to_nat (Z.min K tg)) 0 ltac:(lia) ltac:(lia)) as (m & Hm & Em & Hall & Htg).
  - change (age K t 0) with 0. lia.
  - intros; lia.
  - exists m. split; [lia|]. rewrite Z.sub_0_r in Em. rewrite Z.mod_small in Em by lia. rewrite Z.sub_0_r in Em.
    split; [exact Em|]. split; assumption.
Qed.
Print Assumptions timeseries_iter_back.

(** The most recent record is the aggregate of the previous entry, with the number of
    epochs since it. *)
Theorem timeseries_recent : forall P V K (nil : P) (rep : P -> V -> P) t last log,
  1 < K -> reach_ts K nil rep t last log ->
  fst (ts_recent K t) = fst (entry K t 0) /\ snd (ts_recent K t) = snd (entry K t 1) /\ age K t 1 = fst (ts_recent K t).
Proof.
  intros P V K nil rep t last log HK R. destruct (reach_inv K nil rep t last log ltac:(lia) R) as (h & I).
  pose proof (i_cur _ _ _ _ _ _ _ I) as C. unfold ts_recent, age, entry. change (Z.to_nat 1) with 1%nat. cbn [fst snd zseq map zsum]. rewrite Z.sub_0_r, (Z.mod_small (ts_cur t)) by lia.
  split; [reflexivity|]. split; [|lia]. do 2 f_equal. replace (ts_cur t + K - 1) with (ts_cur t - 1 + 1 * K) by lia. apply Z.mod_add. lia.
Qed.
Print Assumptions timeseries_recent.

(** ** A concrete history: 3 slots, sums as payload; epochs skipped and wrapped. *)
Definition ex_rep (p v : Z) : Z := p + v.
Definition ex_run : tseries Z :=
  fold_left (fun t x => snd (ts_report 3 0 ex_rep t (fst x) (snd x))) [(10, 5); (10, 6); (12, 1); (15, 2); (15, 3); (16, 9)] (ts_init 0 10).
Example ex_run_reach : reach_ts 3 0 ex_rep ex_run 16 [(10, 5); (10, 6); (12, 1); (15, 2); (15, 3); (16, 9)].
Proof.
  unfold ex_run. cbn [fold_left].
  change [(10, 5); (10, 6); (12, 1); (15, 2); (15, 3); (16, 9)] with ((((((([] ++ [(10, 5)]) ++ [(10, 6)]) ++ [(12, 1)]) ++ [(15, 2)]) ++ [(15, 3)]) ++ [(16, 9)])).
  change 16 with (fst (16, 9)) at 1.
  apply (R_report 3 0 ex_rep _ 15 _ 16 9); [|lia]. apply (R_report 3 0 ex_rep _ 15 _ 15 3); [|lia]. apply (R_report 3 0 ex_rep _ 12 _ 15 2); [|lia].
  apply (R_report 3 0 ex_rep _ 10 _ 12 1); [|lia]. apply (R_report 3 0 ex_rep _ 10 _ 10 6); [|lia]. apply (R_report 3 0 ex_rep _ 10 _ 10 5); [|lia].
  apply R_new. lia.
Qed.
Example ex_run_result : map (entry 3 ex_run) [0; 1; 2] = [(1, 9); (3, 5); (2, 1)] /\ ts_covered ex_run = 6 /\
  ts_iter_back 3 ex_run (Some 2) = [(0, 1, 9); (1, 3, 5)] /\ ts_iter 3 (fun p => p =? 5) ex_run = [(0, 2, 1); (2, 1, 9)].
Proof. vm_compute. repeat split. Qed.
(** The clock going backwards starts afresh. *)
Example ex_run_regress : map (entry 3 (snd (ts_report 3 0 ex_rep ex_run 4 7))) [0; 1; 2] = [(1, 7); (0, 0); (0, 0)].
Proof. reflexivity. Qed.
