(** Lemmas about hinted lists. *)
From Coq Require Import Permutation.
From Verif Require Import Base Bitmap BitmapProofs HintedLists.

Definition hl_total (N : Z) (t : hlists) : list Z := concat (map (hl t) (zseq 0 (Z.to_nat N))).

(** The hint bitmap is exact and the element count is right. *)
Record hl_ok (N : Z) (t : hlists) : Prop := {
  hl_N : 0 < N;
  hl_wf : wf N (hbits t);
  hl_bit : forall i, 0 <= i < N -> (bit (hbits t) i = true <-> hl t i <> []);
  hl_size : hsize t = Z.of_nat (length (hl_total N t))
}.

Lemma rem1_perm x l : In x l -> Permutation l (x :: rem1 x l).
Proof.
  induction l as [|y l IH]; intros H; [destruct H|]. cbn [rem1]. destruct (Z.eqb_spec y x) as [->|Hne]; [reflexivity|].
  destruct H as [->|H]; [congruence|]. rewrite (IH H) at 1. apply perm_swap.
Qed.

Lemma rem1_In x y l : In y (rem1 x l) -> In y l.
Proof.
  induction l as [|z l IH]; cbn [rem1]; [auto|]. destruct (z =? x); intros H; [right; assumption|].
  destruct H as [->|H]; [left; reflexivity|right; auto].
Qed.

Lemma rem1_NoDup x l : NoDup l -> NoDup (rem1 x l) /\ ~ In x (rem1 x l).
Proof.
  induction l as [|y l IH]; intros H; cbn [rem1]; [split; [constructor|intros []]|].
  inversion H as [|? ? Hy Hn]; subst. destruct (IH Hn) as (A & B). destruct (Z.eqb_spec y x) as [->|Hne]; [auto|].
  split; [constructor; [intros Hin; apply Hy; apply (rem1_In x); assumption|assumption]|].
  intros [->|Hin]; [congruence|contradiction].
Qed.

Lemma rem1_other x y l : y <> x -> In y l -> In y (rem1 x l).
Proof.
  induction l as [|z l IH]; intros Hne H; [destruct H|]. cbn [rem1]. destruct (Z.eqb_spec z x) as [->|Hz].
  - destruct H as [->|H]; [congruence|assumption].
  - destruct H as [->|H]; [left; reflexivity|right; auto].
Qed.

Lemma concat_upd (f : Z -> list Z) i l n : forall a, a <= i < a + Z.of_nat n ->
  exists L R, concat (map f (zseq a n)) = L ++ f i ++ R /\ concat (map (upd f i l) (zseq a n)) = L ++ l ++ R.
Proof.
  induction n as [|n IH]; intros a H; [lia|]. cbn [zseq map concat]. destruct (Z.eq_dec a i) as [->|Hne].
  - exists [], (concat (map f (zseq (i + 1) n))). split; [reflexivity|]. cbn [app]. rewrite upd_same. f_equal. f_equal.
    apply map_ext_in. intros x Hx. apply zseq_In in Hx. apply upd_other. lia.
  - destruct (IH (a + 1) ltac:(lia)) as (L & R & E1 & E2). exists (f a ++ L), R. rewrite E1, E2, upd_other, <- !app_assoc by assumption. auto.
Qed.

Lemma hl_total_upd N t i l s b : 0 <= i < N ->
  Permutation (hl t i ++ hl_total N (MkHL (upd (hl t) i l) s b)) (l ++ hl_total N t).
Proof.
  intros Hi. unfold hl_total. cbn [hl]. destruct (concat_upd (hl t) i l (Z.to_nat N) 0 ltac:(lia)) as (L & R & -> & ->).
  rewrite !app_assoc. apply Permutation_app_tail. rewrite (Permutation_app_comm (hl t i) L), (Permutation_app_comm l L).
  rewrite <- !app_assoc. apply Permutation_app_head. apply Permutation_app_comm.
Qed.

Lemma hl_total_In N t x : In x (hl_total N t) <-> exists i, 0 <= i < N /\ In x (hl t i).
Proof.
  unfold hl_total. rewrite in_concat. split.
  - intros (l & Hl & Hx). apply in_map_iff in Hl. destruct Hl as (i & <- & Hi). apply zseq_In in Hi. exists i. split; [lia|assumption].
  - intros (i & Hi & Hx). exists (hl t i). split; [|assumption]. apply in_map. apply zseq_In. lia.
Qed.

Lemma hl_empty_ok N : 0 < N -> hl_ok N hl_empty.
Proof.
  intros HN. constructor; [assumption|apply clear_all_wf| |].
  - intros i Hi. cbn [hl hl_empty hbits]. rewrite bit_clear_all. split; [discriminate|congruence].
  - cbn [hsize hl_empty]. unfold hl_total. cbn [hl]. generalize (zseq 0 (Z.to_nat N)). induction l; [reflexivity|assumption].
Qed.

Lemma hl_add_ok N t x i : hl_ok N t -> 0 <= i < N -> hl_ok N (hl_add t x i) /\ Permutation (hl_total N (hl_add t x i)) (x :: hl_total N t).
Proof.
  intros [HN Hwf Hb Hs] Hi. pose proof (hl_total_upd N t i (x :: hl t i) (hsize t + 1) (fst (set_bit (hbits t) i)) Hi) as HP.
  assert (HP' : Permutation (hl_total N (hl_add t x i)) (x :: hl_total N t)).
  { cbn [app] in HP. rewrite (Permutation_middle (hl t i) (hl_total N t) x) in HP. apply Permutation_app_inv_l in HP. exact HP. }
  split; [|assumption].
  constructor; [assumption| | |].
  - cbn [hbits hl_add]. apply set_bit_wf; assumption.
  - intros j Hj. cbn [hbits hl_add hl]. destruct (set_bit (hbits t) i) as [b' o] eqn:E. apply set_bit_spec in E. destruct E as (_ & E).
    cbn [fst]. rewrite E. destruct (Z.eqb_spec j i) as [->|Hne]; cbn [orb].
    + rewrite upd_same. split; [discriminate|reflexivity].
    + rewrite upd_other by assumption. apply Hb. assumption.
  - rewrite HP'. cbn [hsize hl_add length]. lia.
Qed.

Lemma hl_unlink_spec N t x i : hl_ok N t -> 0 <= i < N -> In x (hl t i) ->
  let t' := hl_unlink t x i in
  wf N (hbits t') /\ (forall j, 0 <= j < N -> (bit (hbits t') j = true <-> hl t' j <> [])) /\
  Permutation (hl_total N t) (x :: hl_total N t') /\ hsize t' = hsize t.
Proof.
  intros [HN Hwf Hb Hs] Hi Hx. cbv zeta.
  assert (HP : Permutation (hl_total N t) (x :: hl_total N (hl_unlink t x i))).
  { unfold hl_unlink. set (b := match rem1 x (hl t i) with [] => _ | _ => _ end).
    pose proof (hl_total_upd N t i (rem1 x (hl t i)) (hsize t) b Hi) as HP.
    rewrite (rem1_perm x (hl t i) Hx) in HP at 1. cbn [app] in HP.
    rewrite (Permutation_middle (rem1 x (hl t i)) _ x) in HP. apply Permutation_app_inv_l in HP. symmetry. exact HP. }
  split; [|split; [|split; [assumption|reflexivity]]].
  - cbn [hbits hl_unlink]. destruct (rem1 x (hl t i)); [apply clear_bit_wf; assumption|assumption].
  - intros j Hj. cbn [hbits hl_unlink hl]. destruct (rem1 x (hl t i)) as [|y l] eqn:El.
    + destruct (clear_bit (hbits t) i) as [b' o] eqn:E. apply clear_bit_spec in E. destruct E as (_ & E). cbn [fst]. rewrite E.
      destruct (Z.eqb_spec j i) as [->|Hne]; cbn [negb andb].
      * rewrite upd_same. split; [discriminate|congruence].
      * rewrite upd_other by assumption. apply Hb. assumption.
    + destruct (Z.eqb_spec j i) as [->|Hne].
      * rewrite upd_same. split; [discriminate|]. intros _. apply Hb; [assumption|]. intros E0. rewrite E0 in Hx. destruct Hx.
      * rewrite upd_other by assumption. apply Hb. assumption.
Qed.

Lemma hl_remove_ok N t x i : hl_ok N t -> 0 <= i < N -> In x (hl t i) ->
  hl_ok N (hl_remove t x i) /\ Permutation (hl_total N t) (x :: hl_total N (hl_remove t x i)).
Proof.
  intros Ok Hi Hx. destruct (hl_unlink_spec N t x i Ok Hi Hx) as (A & B & C & D). split; [|exact C].
  constructor; [apply Ok|exact A|exact B|]. rewrite (hl_size _ _ Ok) in D. cbn [hsize hl_remove hl_set_size].
  rewrite D. rewrite C. cbn [length]. change (hl_total N (hl_remove t x i)) with (hl_total N (hl_unlink t x i)). lia.
Qed.

Lemma hl_move_ok N t x i j : hl_ok N t -> 0 <= i < N -> 0 <= j < N -> In x (hl t i) ->
  hl_ok N (hl_move t x i j) /\ Permutation (hl_total N (hl_move t x i j)) (hl_total N t).
Proof.
  intros Ok Hi Hj Hx. destruct (hl_remove_ok N t x i Ok Hi Hx) as (A & B).
  destruct (hl_add_ok N (hl_remove t x i) x j A Hj) as (C & D).
  assert (E : hl_add (hl_remove t x i) x j = hl_move t x i j).
  { unfold hl_add, hl_remove, hl_move, hl_set_size. cbn [hl hsize hbits hl_unlink]. f_equal. lia. }
  rewrite E in *. split; [assumption|]. rewrite D. symmetry. assumption.
Qed.

Lemma hl_peek_spec N t n : hl_ok N t -> 0 <= n < N ->
  exists r, hl_peek_least N t n = Some r /\
  match r with
  | None => forall i, n <= i < N -> hl t i = []
  | Some (x, i) => n <= i < N /\ (exists l, hl t i = x :: l) /\ forall j, n <= j < i -> hl t j = []
  end.
Proof.
  intros [HN Hwf Hb Hs] Hn. unfold hl_peek_least, find_set.
  destruct (find_value_spec N true (hbits t) n Hwf Hn) as (r & -> & F1 & F2 & F3). cbn [obind].
  assert (Hempty : forall i, n <= i < r -> hl t i = []).
  { intros i Hi. specialize (F2 i Hi). unfold gbit in F2. destruct (hl t i) eqn:E; [reflexivity|].
    assert (bit (hbits t) i = true) by (apply Hb; [lia|rewrite E; discriminate]). destruct (bit (hbits t) i); discriminate. }
  destruct (Z.eqb_spec r N) as [->|Hr].
  - exists None. split; [reflexivity|assumption].
  - assert (Hbr : bit (hbits t) r = true). { apply F3. lia. }
    destruct (hl t r) as [|x l] eqn:E.
    + exfalso. apply Hb in Hbr; [congruence|lia].
    + exists (Some (x, r)). split; [reflexivity|]. split; [lia|]. split; [eauto|assumption].
Qed.

Lemma hl_get_spec N t n : hl_ok N t -> 0 <= n < N ->
  exists r t', hl_get_least N t n = Some (r, t') /\
  match r with
  | None => t' = t /\ forall i, n <= i < N -> hl t i = []
  | Some x => exists i, n <= i < N /\ (exists l, hl t i = x :: l) /\ (forall j, n <= j < i -> hl t j = []) /\
      t' = hl_remove t x i
  end.
Proof.
  intros Ok Hn. destruct (hl_peek_spec N t n Ok Hn) as (r & E & Hr). unfold hl_peek_least in E. unfold hl_get_least.
  destruct (find_set N (hbits t) n) as [i|]; [|discriminate]. cbn [obind] in *.
  destruct (i =? N); [injection E as <-; exists None, t; auto|].
  destruct (hl t i) as [|x l] eqn:El; [discriminate|]. injection E as <-.
  exists (Some x). eexists. split; [reflexivity|]. destruct Hr as (A & B & C). exists i. split; [assumption|].
  split; [eauto|]. split; [assumption|reflexivity].
Qed.
