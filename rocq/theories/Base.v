(** Shared conventions of the model: machine integers are [Z] values; an
    operation on [size_t]/[uintptr_t] that can wrap is written with [wrap64].
    Arrays are total functions updated pointwise by [upd]. *)
From Coq Require Export ZArith Lia List Bool.
From Coq Require Export ZifyBool ZifyNat ZifyN.
Export ListNotations.
Open Scope Z_scope.

Ltac dlia := Z.div_mod_to_equations; lia.

Arguments Z.mul : simpl never.
Arguments Z.add : simpl never.
Arguments Z.sub : simpl never.
Arguments Z.div : simpl never.
Arguments Z.modulo : simpl never.
Arguments Z.pow : simpl never.
Arguments Z.shiftl : simpl never.
Arguments Z.shiftr : simpl never.
Arguments Z.land : simpl never.
Arguments Z.lor : simpl never.
Arguments Z.ldiff : simpl never.
Arguments Z.of_nat : simpl never.
Arguments Z.to_nat : simpl never.

(** [size_t] arithmetic: reduction modulo 2^64. *)
Definition two64 : Z := 2 ^ 64.
Definition wrap64 (x : Z) : Z := x mod two64.

(** A value that a [size_t] can hold. *)
Definition u64 (x : Z) : Prop := 0 <= x < two64.

(** Pointwise update of an array represented as a function. *)
Definition upd {A : Type} (f : Z -> A) (i : Z) (v : A) : Z -> A :=
  fun j => if Z.eqb j i then v else f j.

Lemma upd_same {A} (f : Z -> A) i v : upd f i v i = v.
Proof. unfold upd. now rewrite Z.eqb_refl. Qed.

Lemma upd_other {A} (f : Z -> A) i v j : j <> i -> upd f i v j = f j.
Proof. unfold upd. intros H. destruct (Z.eqb_spec j i); congruence. Qed.

(** [std::copy] of [n] cells from [src] to [dst] (non overlapping). *)
Definition copy_range {A} (f : Z -> A) (src dst n : Z) : Z -> A :=
  fun j => if (dst <=? j) && (j <? dst + n) then f (src + (j - dst)) else f j.

Lemma copy_range_in {A} (f : Z -> A) src dst n j :
  dst <= j < dst + n -> copy_range f src dst n j = f (src + (j - dst)).
Proof. unfold copy_range. intros H. now replace ((dst <=? j) && (j <? dst + n)) with true by lia. Qed.

Lemma copy_range_out {A} (f : Z -> A) src dst n j :
  ~ (dst <= j < dst + n) -> copy_range f src dst n j = f j.
Proof. unfold copy_range. intros H. now replace ((dst <=? j) && (j <? dst + n)) with false by lia. Qed.

(** A power of two ([absl::has_single_bit]). *)
Definition is_pow2 (x : Z) : Prop := exists k, 0 <= k /\ x = 2 ^ k.

Lemma is_pow2_pos x : is_pow2 x -> 0 < x.
Proof. intros (k & Hk & ->). apply Z.pow_pos_nonneg; lia. Qed.

Lemma is_pow2_divide a b : is_pow2 a -> is_pow2 b -> a <= b -> (a | b).
Proof.
  intros (k & Hk & ->) (m & Hm & ->) Hle.
  assert (k <= m) by (apply (Z.pow_le_mono_r_iff 2); lia).
  exists (2 ^ (m - k)). rewrite <- Z.pow_add_r by lia. f_equal; lia.
Qed.

(** [(x & (a-1)) == 0], the [IsAlignedTo] test, is divisibility. *)
Lemma land_pow2_mod x k : 0 <= k -> Z.land x (2 ^ k - 1) = x mod 2 ^ k.
Proof.
  intros Hk. rewrite <- Z.land_ones by lia. f_equal.
  rewrite Z.ones_equiv. lia.
Qed.

Lemma land_pow2_mod' x a : is_pow2 a -> Z.land x (a - 1) = x mod a.
Proof. intros (k & Hk & ->). now apply land_pow2_mod. Qed.

(** Rounding down by masking: [x & ~(a-1)]. *)
Lemma ldiff_pow2 x k : 0 <= k -> Z.ldiff x (2 ^ k - 1) = x - x mod 2 ^ k.
Proof.
  intros Hk.
  replace (2 ^ k - 1) with (Z.ones k) by (rewrite Z.ones_equiv; lia).
  rewrite Z.ldiff_ones_r by lia.
  rewrite Z.shiftl_mul_pow2, Z.shiftr_div_pow2 by lia.
  pose proof (Z.pow_pos_nonneg 2 k ltac:(lia) Hk).
  pose proof (Z.div_mod x (2 ^ k) ltac:(lia)). lia.
Qed.

Lemma ldiff_pow2' x a : is_pow2 a -> Z.ldiff x (a - 1) = x - x mod a.
Proof. intros (k & Hk & ->). now apply ldiff_pow2. Qed.

(** Option monad. *)
Definition obind {A B} (m : option A) (f : A -> option B) : option B :=
  match m with Some a => f a | None => None end.
Notation "'let?' x ':=' m 'in' k" := (obind m (fun x => k))
  (at level 200, x pattern, m at level 100, k at level 200, right associativity).

(** Fold over a list of operations. *)
Definition run {S O} (step : S -> O -> S) (s : S) (ops : list O) : S :=
  fold_left step ops s.

Lemma run_app {S O} (step : S -> O -> S) s l1 l2 :
  run step s (l1 ++ l2) = run step (run step s l1) l2.
Proof. unfold run. apply fold_left_app. Qed.

Lemma run_inv {S O} (step : S -> O -> S) (P : S -> Prop) :
  (forall s o, P s -> P (step s o)) ->
  forall ops s, P s -> P (run step s ops).
Proof. unfold run. intros H ops. induction ops; cbn; intros s HP; auto. Qed.

Fixpoint orun {S O} (step : S -> O -> option S) (s : S) (ops : list O) : option S :=
  match ops with
  | [] => Some s
  | o :: ops => match step s o with Some s' => orun step s' ops | None => None end
  end.

Lemma orun_inv {S O} (step : S -> O -> option S) (P : S -> Prop) :
  (forall s o s', P s -> step s o = Some s' -> P s') ->
  forall ops s s', P s -> orun step s ops = Some s' -> P s'.
Proof.
  intros H ops. induction ops as [|o ops IH]; cbn; intros s s' HP Hr.
  - now inversion Hr; subst.
  - destruct (step s o) as [s1|] eqn:E; [|discriminate].
    apply (IH s1 s'); [eapply H; eassumption | assumption].
Qed.

(** Sums of lists of integers. *)
Fixpoint zsum (l : list Z) : Z :=
  match l with [] => 0 | a :: l => a + zsum l end.

Lemma zsum_app l1 l2 : zsum (l1 ++ l2) = zsum l1 + zsum l2.
Proof. induction l1; cbn; lia. Qed.

Lemma zsum_cons a l : zsum (a :: l) = a + zsum l.
Proof. reflexivity. Qed.

(** Number of indices in [i, i+n) that satisfy [P]. *)
Fixpoint zcount (P : Z -> bool) (i : Z) (n : nat) : Z :=
  match n with
  | O => 0
  | S n => (if P i then 1 else 0) + zcount P (i + 1) n
  end.

Lemma zcount_ext P Q n : forall i,
  (forall j, i <= j < i + Z.of_nat n -> P j = Q j) -> zcount P i n = zcount Q i n.
Proof.
  induction n as [|n IH]; intros i H; cbn [zcount]; [reflexivity|].
  rewrite (H i) by lia. rewrite (IH (i + 1)); [reflexivity|]. intros; apply H; lia.
Qed.

Lemma zcount_app P n m : forall i,
  zcount P i (n + m) = zcount P i n + zcount P (i + Z.of_nat n) m.
Proof.
  induction n as [|n IH]; intros i; cbn [zcount Nat.add].
  - now replace (i + Z.of_nat 0) with i by lia.
  - rewrite IH. replace (i + 1 + Z.of_nat n) with (i + Z.of_nat (S n)) by lia. lia.
Qed.

Lemma zcount_bound P n : forall i, 0 <= zcount P i n <= Z.of_nat n.
Proof.
  induction n as [|n IH]; intros i; cbn [zcount]; [lia|].
  specialize (IH (i + 1)). destruct (P i); lia.
Qed.

Lemma zcount_all P n : forall i,
  (forall j, i <= j < i + Z.of_nat n -> P j = true) -> zcount P i n = Z.of_nat n.
Proof.
  induction n as [|n IH]; intros i H; cbn [zcount]; [reflexivity|].
  rewrite (H i) by lia. rewrite (IH (i + 1)); [lia|]. intros; apply H; lia.
Qed.

Lemma zcount_none P n : forall i,
  (forall j, i <= j < i + Z.of_nat n -> P j = false) -> zcount P i n = 0.
Proof.
  induction n as [|n IH]; intros i H; cbn [zcount]; [reflexivity|].
  rewrite (H i) by lia. rewrite (IH (i + 1)); [lia|]. intros; apply H; lia.
Qed.

Lemma zcount_zero_inv P n : forall i, zcount P i n = 0 ->
  forall j, i <= j < i + Z.of_nat n -> P j = false.
Proof.
  induction n as [|n IH]; intros i H j Hj; cbn [zcount] in H; [lia|].
  pose proof (zcount_bound P n (i + 1)).
  destruct (Z.eq_dec j i) as [->|]; [destruct (P i); [lia|reflexivity]|].
  apply (IH (i + 1)); [destruct (P i); lia|lia].
Qed.

Lemma zcount_full_inv P n : forall i, zcount P i n = Z.of_nat n ->
  forall j, i <= j < i + Z.of_nat n -> P j = true.
Proof.
  induction n as [|n IH]; intros i H j Hj; cbn [zcount] in H; [lia|].
  pose proof (zcount_bound P n (i + 1)).
  destruct (Z.eq_dec j i) as [->|]; [destruct (P i); [reflexivity|lia]|].
  apply (IH (i + 1)); [destruct (P i); lia|lia].
Qed.

(** Splitting a count at an inner range. *)
Lemma zcount_split P i n a m : i <= a -> 0 <= m -> a + m <= i + n ->
  zcount P i (Z.to_nat n) =
  zcount P i (Z.to_nat (a - i)) + zcount P a (Z.to_nat m) + zcount P (a + m) (Z.to_nat (i + n - (a + m))).
Proof.
  intros H1 H2 H3.
  replace (Z.to_nat n) with (Z.to_nat (a - i) + (Z.to_nat m + Z.to_nat (i + n - (a + m))))%nat by lia.
  rewrite !zcount_app.
  replace (i + Z.of_nat (Z.to_nat (a - i))) with a by lia.
  replace (a + Z.of_nat (Z.to_nat m)) with (a + m) by lia. lia.
Qed.

(** Changing the predicate on [a, a+m) only. *)
Lemma zcount_change P Q i n a m : i <= a -> 0 <= m -> a + m <= i + n ->
  (forall j, ~ (a <= j < a + m) -> P j = Q j) ->
  zcount P i (Z.to_nat n) - zcount P a (Z.to_nat m) =
  zcount Q i (Z.to_nat n) - zcount Q a (Z.to_nat m).
Proof.
  intros H1 H2 H3 H4.
  rewrite (zcount_split P i n a m), (zcount_split Q i n a m) by assumption.
  rewrite (zcount_ext P Q (Z.to_nat (a - i)) i) by (intros; apply H4; lia).
  rewrite (zcount_ext P Q (Z.to_nat (i + n - (a + m))) (a + m)) by (intros; apply H4; lia). lia.
Qed.

(** ** Half-open ranges (start, length) and pairwise disjointness *)

Definition disj (a b : Z * Z) : Prop := fst a + snd a <= fst b \/ fst b + snd b <= fst a.
Definition in_rng (r : Z * Z) (j : Z) : Prop := fst r <= j < fst r + snd r.

Lemma disj_sym a b : disj a b -> disj b a.
Proof. unfold disj. lia. Qed.

Lemma fop_cons_inv {A} (R : A -> A -> Prop) x l :
  ForallOrdPairs R (x :: l) -> (forall y, In y l -> R x y) /\ ForallOrdPairs R l.
Proof. intros H. inversion H as [|? ? H1 H2]; subst. rewrite Forall_forall in H1. auto. Qed.

Lemma fop_cons {A} (R : A -> A -> Prop) x l :
  (forall y, In y l -> R x y) -> ForallOrdPairs R l -> ForallOrdPairs R (x :: l).
Proof. intros H1 H2. constructor; [apply Forall_forall|]; assumption. Qed.

Lemma fop_mid {A} (R : A -> A -> Prop) (Rsym : forall a b, R a b -> R b a) l1 x l2 :
  ForallOrdPairs R (l1 ++ x :: l2) <->
  (forall y, In y (l1 ++ l2) -> R x y) /\ ForallOrdPairs R (l1 ++ l2).
Proof.
  induction l1 as [|a l1 IH]; cbn [app].
  - split; [apply fop_cons_inv|intros (H1 & H2); apply fop_cons; assumption].
  - split.
    + intros H. apply fop_cons_inv in H. destruct H as (H1 & H2). apply IH in H2. destruct H2 as (H2 & H3).
      split.
      * intros y [<-|Hy]; [apply Rsym, H1, in_or_app; right; left; reflexivity|auto].
      * apply fop_cons; [|assumption]. intros y Hy. apply H1. apply in_app_or in Hy. apply in_or_app.
        destruct Hy; [auto|right; right; assumption].
    + intros (H1 & H2). apply fop_cons_inv in H2. destruct H2 as (H2 & H3). apply fop_cons.
      * intros y Hy. apply in_app_or in Hy. destruct Hy as [Hy|[<-|Hy]].
        -- apply H2, in_or_app; auto.
        -- apply Rsym, H1. left. reflexivity.
        -- apply H2, in_or_app; auto.
      * apply IH. split; [|assumption]. intros y Hy. apply H1. right. assumption.
Qed.

Lemma in_mid {A} (x y : A) l1 l2 : In y (l1 ++ x :: l2) <-> y = x \/ In y (l1 ++ l2).
Proof.
  rewrite !in_app_iff. cbn. split; intros H; intuition auto.
Qed.

Lemma length_mid {A} (x : A) l1 l2 : length (l1 ++ x :: l2) = S (length (l1 ++ l2)).
Proof. rewrite !app_length. cbn. lia. Qed.

(** The integers [i, i+1, ..., i+n-1]. *)
Fixpoint zseq (i : Z) (n : nat) : list Z :=
  match n with O => [] | S n => i :: zseq (i + 1) n end.

Lemma zseq_length i n : length (zseq i n) = n.
Proof. revert i. induction n; intros i; cbn; auto. Qed.

Lemma zseq_In i n x : In x (zseq i n) <-> i <= x < i + Z.of_nat n.
Proof.
  revert i. induction n as [|n IH]; intros i; cbn [zseq In]; [lia|].
  rewrite IH. lia.
Qed.

Lemma zseq_NoDup i n : NoDup (zseq i n).
Proof.
  revert i. induction n as [|n IH]; intros i; cbn; constructor; [|apply IH].
  rewrite zseq_In. lia.
Qed.

Lemma zseq_app i n m : zseq i (n + m) = zseq i n ++ zseq (i + Z.of_nat n) m.
Proof.
  revert i. induction n as [|n IH]; intros i; cbn [zseq Nat.add app].
  - f_equal. lia.
  - rewrite IH. do 3 f_equal. lia.
Qed.

Lemma zseq_map_shift i n d : map (fun x => x + d) (zseq i n) = zseq (i + d) n.
Proof.
  revert i. induction n as [|n IH]; intros i; cbn [zseq map]; [reflexivity|].
  rewrite IH. do 2 f_equal. lia.
Qed.

Lemma zseq_firstn i n k : (k <= n)%nat -> firstn k (zseq i n) = zseq i k.
Proof.
  revert i n. induction k as [|k IH]; intros i n H; [reflexivity|].
  destruct n as [|n]; [lia|]. cbn [zseq firstn]. rewrite IH by lia. reflexivity.
Qed.

Lemma wrap64_small x : 0 <= x < two64 -> wrap64 x = x.
Proof. intros H. unfold wrap64. apply Z.mod_small. assumption. Qed.
