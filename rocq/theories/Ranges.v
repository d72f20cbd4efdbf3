(** Ranges of integers, as pairs (start, length), and multisets of their elements. *)
From Verif Require Import Base.
From Coq Require Export Permutation.

(** The elements of a range, and of a list of ranges. *)
Definition rng (r : Z * Z) : list Z := zseq (fst r) (Z.to_nat (snd r)).
Definition rngs (l : list (Z * Z)) : list Z := flat_map rng l.
Definition rsum (l : list (Z * Z)) : Z := zsum (map snd l).
Definition in_rng (r : Z * Z) (x : Z) : Prop := fst r <= x < fst r + snd r.
(** Two ranges without a common element. *)
Definition apart (r1 r2 : Z * Z) : Prop := forall x, in_rng r1 x -> in_rng r2 x -> False.

Lemma rng_In r x : In x (rng r) <-> in_rng r x.
Proof. unfold rng, in_rng. rewrite zseq_In. lia. Qed.
Lemma rngs_In l x : In x (rngs l) <-> exists r, In r l /\ in_rng r x.
Proof. unfold rngs. rewrite in_flat_map. split; intros (r & A & B); exists r; rewrite rng_In in *; auto. Qed.
Lemma rngs_app a b : rngs (a ++ b) = rngs a ++ rngs b.
Proof. apply flat_map_app. Qed.
Lemma rngs_cons a b : rngs (a :: b) = rng a ++ rngs b.
Proof. reflexivity. Qed.
Lemma rng_length r : 0 <= snd r -> Z.of_nat (length (rng r)) = snd r.
Proof. intros. unfold rng. rewrite zseq_length. lia. Qed.
Lemma rng_split s n k : 0 <= n -> 0 <= k -> rng (s, n + k) = rng (s, n) ++ rng (s + n, k).
Proof. intros. unfold rng. cbn [fst snd]. rewrite Z2Nat.inj_add, zseq_app by lia. rewrite Z2Nat.id by lia. reflexivity. Qed.
Lemma rng_empty s : rng (s, 0) = [].
Proof. reflexivity. Qed.
Lemma rsum_cons a l : rsum (a :: l) = snd a + rsum l.
Proof. reflexivity. Qed.
Lemma rsum_app a b : rsum (a ++ b) = rsum a + rsum b.
Proof. unfold rsum. rewrite map_app, zsum_app. reflexivity. Qed.
Lemma rngs_length l : Forall (fun r => 0 <= snd r) l -> Z.of_nat (length (rngs l)) = rsum l.
Proof.
  induction 1 as [|r l H _ IH]; [reflexivity|].
  rewrite rngs_cons, app_length, Nat2Z.inj_add, rng_length, IH, rsum_cons by assumption. reflexivity.
Qed.
Lemma rsum_nonneg l : Forall (fun r => 0 <= snd r) l -> 0 <= rsum l.
Proof. intros. rewrite <- rngs_length by assumption. lia. Qed.

Lemma NoDup_app_iff {A} (a b : list A) : NoDup (a ++ b) <-> NoDup a /\ NoDup b /\ forall x, In x a -> In x b -> False.
Proof.
  induction a as [|y a IH]; cbn [app].
  - split; [intros H; split; [constructor|]; split; [assumption|intros x []]|tauto].
  - rewrite !NoDup_cons_iff, IH, in_app_iff. split.
    + intros (A1 & A2 & A3 & A4). split; [split; [tauto|assumption]|]. split; [assumption|]. intros x [->|Hx] Hb; [tauto|eauto].
    + intros ((A1 & A2) & A3 & A4). split; [intros [|]; [tauto|apply (A4 y); [left; reflexivity|assumption]]|]. split; [assumption|]. split; [assumption|].
      intros x Hx. apply A4. right. assumption.
Qed.

Lemma rngs_NoDup_apart l : NoDup (rngs l) <-> ForallOrdPairs apart l.
Proof.
  induction l as [|r l IH].
  - split; intros; [constructor|constructor].
  - rewrite rngs_cons, NoDup_app_iff, IH. split.
    + intros (A & B & C). constructor; [|assumption]. apply Forall_forall. intros r' Hr' x X1 X2.
      apply (C x); [apply rng_In; assumption|apply rngs_In; eauto].
    + intros H. inversion H as [|? ? H1 H2]; subst. split; [apply zseq_NoDup|]. split; [assumption|].
      intros x X1 X2. apply rng_In in X1. apply rngs_In in X2. destruct X2 as (r' & R1 & R2).
      rewrite Forall_forall in H1. exact (H1 r' R1 x X1 R2).
Qed.

(** A duplicate-free list inside [lo, hi) has at most hi - lo elements. *)
Lemma NoDup_bounded l lo hi : lo <= hi -> NoDup l -> (forall x, In x l -> lo <= x < hi) -> Z.of_nat (length l) <= hi - lo.
Proof.
  intros H ND Hb.
  assert (L : (length l <= length (zseq lo (Z.to_nat (hi - lo))))%nat).
  { apply NoDup_incl_length; [assumption|]. intros x Hx. apply zseq_In. specialize (Hb x Hx). lia. }
  rewrite zseq_length in L. lia.
Qed.

(** Permutations by counting occurrences. *)
Ltac rcount :=
  let z := fresh "z" in
  apply (Permutation_count_occ Z.eq_dec); intro z;
  repeat match goal with H : Permutation _ _ |- _ => apply (proj1 (Permutation_count_occ Z.eq_dec _ _)) with (x := z) in H end;
  repeat rewrite ?rngs_app, ?rngs_cons, ?rng_empty, ?count_occ_app in *; cbn [rngs flat_map count_occ] in *; lia.
