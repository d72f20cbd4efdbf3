(** C66: allocation hooks are told of each allocation and free, in order and as often as they are registered. *)
From Verif Require Import Base HookFront.

(** ** The specification, over what happened (newest first) *)

(** What the announced and silent events say of p: in use or not; [None] if they contradict each other. *)
Fixpoint told (p : Z) (l : list hev) : option bool :=
  match l with
  | [] => Some false
  | e :: l =>
    let st := told p l in
    match e with
    | ENew _ q _ | ESilentNew _ q => if q =? p then match st with Some false => Some true | _ => None end else st
    | EDelete _ q _ | ESilentDelete _ q => if q =? p then match st with Some true => Some false | _ => None end else st
    | _ => st
    end
  end.

Definition kind_eqb (a b : hkind) : bool := match a, b with KNew, KNew | KDelete, KDelete => true | _, _ => false end.
(** How often hook h is registered. *)
Fixpoint registered (k : hkind) (h : Z) (l : list hev) : Z :=
  match l with
  | [] => 0
  | EInserted _ k' h' :: l => registered k h l + (if kind_eqb k' k && (h' =? h) then 1 else 0)
  | ERemoved _ k' h' :: l => registered k h l - (if kind_eqb k' k && (h' =? h) then 1 else 0)
  | _ :: l => registered k h l
  end.
Definition times (h : Z) (l : list Z) : Z := Z.of_nat (count_occ Z.eq_dec l h).
Definition is_new (e : hev) : bool := match e with ENew _ _ _ => true | _ => false end.
(** No allocation was announced yet. *)
Definition none_yet (l : list hev) : bool := negb (existsb is_new l).
Definition silent_of (t : Z) (e : hev) : Prop :=
  match e with ESilentNew u _ | ESilentDelete u _ => u = t | _ => False end.

(** ** Lists of hooks *)

Lemma have_app n d h : have_hooks (n ++ [h]) d = true.
Proof. destruct n; reflexivity. Qed.
Lemma have_app_r n d h : have_hooks n (d ++ [h]) = true.
Proof. unfold have_hooks. destruct d; cbn; apply orb_true_r. Qed.
Lemma have_in n d h : In h n -> have_hooks n d = true.
Proof. destruct n; [intros []|reflexivity]. Qed.
Lemma have_in_r n d h : In h d -> have_hooks n d = true.
Proof. destruct d; [intros []|intros _]. apply orb_true_r. Qed.
Lemma times_app h l m : times h (l ++ m) = times h l + times h m.
Proof. unfold times. rewrite count_occ_app. lia. Qed.
Lemma times_one h x : times h [x] = if x =? h then 1 else 0.
Proof. unfold times. cbn. destruct (Z.eq_dec x h), (Z.eqb_spec x h); try congruence; reflexivity. Qed.
Lemma times_cons h x l : times h (x :: l) = (if x =? h then 1 else 0) + times h l.
Proof. change (x :: l) with ([x] ++ l). rewrite times_app, times_one. reflexivity. Qed.
Lemma times_remove1 x h l : In x l -> times h (remove1 x l) = times h l - (if x =? h then 1 else 0).
Proof.
  induction l as [|y l IH]; [intros []|]. intros [->|I]; cbn [remove1].
  - rewrite Z.eqb_refl, times_cons. destruct (x =? h); lia.
  - destruct (Z.eqb_spec y x) as [->|N]; rewrite !times_cons; [destruct (x =? h); lia|]. rewrite IH by assumption. lia.
Qed.
Lemma times_pos h l : In h l <-> 1 <= times h l.
Proof.
  unfold times. rewrite (count_occ_In Z.eq_dec l h). lia.
Qed.

Lemma times_none h l : ~ In h l -> times h l = 0.
Proof. intros N. unfold times. rewrite (proj1 (count_occ_not_In Z.eq_dec l h) N). reflexivity. Qed.

Lemma times_flat h m l : h <> 0 ->
  times h (flat_map (fun x => if x =? 0 then m else [x]) l) = times h l + times 0 l * times h m.
Proof.
  intros N. induction l as [|x l IH]; [reflexivity|]. cbn [flat_map]. rewrite times_app, IH, !times_cons.
  destruct (Z.eqb_spec x 0) as [->|Nx].
  - destruct (Z.eqb_spec 0 h); [congruence|]. lia.
  - rewrite times_one. lia.
Qed.

(** ** The invariants *)

Fixpoint have_log (l : list hev) : bool :=
  match l with [] => true | EEmptied :: _ => false | EInserted _ _ _ :: _ => true | _ :: l => have_log l end.
(** t left the fast path since there were last no hooks. *)
Fixpoint quiet (t : Z) (l : list hev) : bool :=
  match l with
  | [] => true
  | EEmptied :: _ => false
  | EOff u :: l => if u =? t then true else quiet t l
  | _ :: l => quiet t l
  end.
Definition pending (x : hpc) : option Z :=
  match x with HGot p | HTell p | HTold p | HToldLarge p | HRealloc p => Some p | _ => None end.

Definition off_ok (s : hfront) (t : Z) : Prop :=
  quiet t (f_log s) = true ->
  have_log (f_log s) = true /\ f_pc s t <> HAlloc false /\ (forall p, f_pc s t <> HFree p false) /\
  (f_cached s t = true -> (exists p, f_pc s t = HGot p) \/ f_pc s t = HPut).
Definition off_inv (s : hfront) : Prop :=
  have_hooks (f_new s) (f_del s) = have_log (f_log s) /\ forall t, off_ok s t.

(** [hf u]: what thread u holds; [pf u]: of it, what it has yet to announce or to put back; [o]: what
    is not in the allocator's hands; [tl]: what the events say. *)
Definition mem_ok (hf pf : Z -> option Z) (o : Z -> bool) (tl : Z -> option bool) : Prop :=
  (forall u v p, hf u = Some p -> hf v = Some p -> u = v) /\
  (forall u p, hf u = Some p -> o p = true) /\
  (forall u p, pf u = Some p -> hf u = Some p /\ tl p = Some false) /\
  (forall p, o p = false -> tl p = Some false) /\
  (forall p, o p = true -> (forall u, pf u <> Some p) -> tl p = Some true).
Definition mem_inv (s : hfront) : Prop :=
  mem_ok (fun u => held (f_pc s u)) (fun u => pending (f_pc s u)) (f_out s) (fun p => told p (f_log s)).

Definition reg_inv (s : hfront) : Prop :=
  (forall h, h <> 0 -> times h (f_new s) = registered KNew h (f_log s)) /\
  (forall h, h <> 0 -> times h (f_del s) = registered KDelete h (f_log s)) /\
  times 0 (f_new s) = (if none_yet (f_log s) then 1 else 0).

Lemma have_log_forced n d t l : have_log (forced n d t ++ l) = have_log l.
Proof. unfold forced. destruct (have_hooks n d); reflexivity. Qed.
Lemma quiet_forced_other n d t u l : u <> t -> quiet u (forced n d t ++ l) = quiet u l.
Proof. intros N. unfold forced. destruct (have_hooks n d); [|reflexivity]. cbn. destruct (Z.eqb_spec t u); [congruence|reflexivity]. Qed.
Lemma quiet_forced_no n d t u l : have_hooks n d = false -> quiet u (forced n d t ++ l) = quiet u l.
Proof. intros H. unfold forced. rewrite H. reflexivity. Qed.

Ltac at_thread u t := destruct (Z.eq_dec u t) as [->|?N]; [rewrite ?upd_same in *|rewrite ?upd_other in * by congruence].

(** Off the fast path. *)
Lemma off_step s s' : off_inv s -> hstep s s' -> off_inv s'.
Proof.
  intros (H & I) S. unfold off_inv, off_ok in *. destruct S; cbn [f_new f_del f_cached f_pc f_out f_log] in *.
  - (* uncache *) split; [exact H|]. intros u Q. destruct (I u Q) as (A & B & C & D). at_thread u t; auto.
    repeat split; auto; discriminate.
  - (* add *) split; [cbn; apply have_app|]. intros u Q. cbn in Q. destruct (I u Q) as (A & B & C & D).
    at_thread u t; [|auto]. split; [reflexivity|]. split; [discriminate|]. split; [discriminate|].
    intros X. destruct (D X) as [(p & Y)|Y]; congruence.
  - split; [cbn; apply have_app_r|]. intros u Q. cbn in Q. destruct (I u Q) as (A & B & C & D).
    at_thread u t; [|auto]. split; [reflexivity|]. split; [discriminate|]. split; [discriminate|].
    intros X. destruct (D X) as [(p & Y)|Y]; congruence.
  - (* remove *) unfold emptied. destruct (have_hooks (remove1 h n) d) eqn:E; cbn.
    + split; [rewrite <- H; symmetry; eapply have_in; eassumption|].
      intros u Q. destruct (I u Q) as (A & B & C & D). at_thread u t; [|auto].
      split; [exact A|]. split; [discriminate|]. split; [discriminate|].
      intros X. destruct (D X) as [(p & Y)|Y]; congruence.
    + split; [reflexivity|]. discriminate.
  - unfold emptied. destruct (have_hooks n (remove1 h d)) eqn:E; cbn.
    + split; [rewrite <- H; symmetry; eapply have_in_r; eassumption|].
      intros u Q. destruct (I u Q) as (A & B & C & D). at_thread u t; [|auto].
      split; [exact A|]. split; [discriminate|]. split; [discriminate|].
      intros X. destruct (D X) as [(p & Y)|Y]; congruence.
    + split; [reflexivity|]. discriminate.
  - (* changed *) cbn. rewrite have_log_forced. split; [exact H|]. intros u Q. unfold force.
    destruct (have_hooks n d) eqn:E.
    + at_thread u t.
      * split; [congruence|]. split; [discriminate|]. split; discriminate.
      * rewrite quiet_forced_other in Q by assumption. auto.
    + rewrite quiet_forced_no in Q by assumption. destruct (I u Q) as (A & _). congruence.
  - (* fast *) split; [exact H|]. intros u Q. cbn in Q. exact (I u Q).
  - (* slow *) split; [exact H|]. intros u Q. destruct (I u Q) as (A & B & C & D). at_thread u t; [|auto].
    split; [exact A|]. rewrite H, A. cbn. split; [discriminate|]. split; [discriminate|].
    intros X. destruct (D X) as [(p & Y)|Y]; congruence.
  - (* no hooks *) split; [exact H|]. intros u Q. cbn in Q. destruct (I u Q) as (A & B & C & D). at_thread u t; [|auto].
    congruence.
  - split; [exact H|]. intros u Q. destruct (I u Q) as (A & B & C & D). at_thread u t; [|auto].
    split; [exact A|]. split; [discriminate|]. split; [discriminate|]. intros _. left. eauto.
  - (* force *) rewrite have_log_forced. split; [exact H|]. intros u Q. unfold force.
    destruct (have_hooks n d) eqn:E.
    + at_thread u t.
      * split; [congruence|]. split; [discriminate|]. split; discriminate.
      * rewrite quiet_forced_other in Q by assumption. auto.
    + rewrite quiet_forced_no in Q by assumption. destruct (I u Q) as (A & _). congruence.
  - split; [exact H|]. intros u Q. destruct (I u Q) as (A & B & C & D). at_thread u t; [|auto].
    split; [exact A|]. split; [discriminate|]. split; [discriminate|].
    intros X. destruct (D X) as [(q & Y)|Y]; congruence.
  - split; [exact H|]. intros u Q. destruct (I u Q) as (A & B & C & D). at_thread u t; [|auto].
    split; [exact A|]. split; [discriminate|]. split; [discriminate|].
    intros X. destruct (D X) as [(q & Y)|Y]; congruence.
  - split; [exact H|]. intros u Q. cbn in Q. destruct (I u Q) as (A & B & C & D). at_thread u t; [|auto].
    split; [exact A|]. split; [discriminate|]. split; [discriminate|].
    intros X. destruct (D X) as [(q & Y)|Y]; congruence.
  - (* first *) cbn. rewrite have_log_forced. unfold emptied, force, forced. destruct (have_hooks (remove1 0 n) d) eqn:E; cbn.
    + split; [rewrite <- H; symmetry; eapply have_in; eassumption|]. intros u Q.
      at_thread u t.
      * split; [rewrite <- H; eapply have_in; eassumption|]. split; [discriminate|]. split; discriminate.
      * cbn in Q. destruct (Z.eqb_spec t u); [congruence|]. auto.
    + split; [reflexivity|]. discriminate.
  - split; [exact H|]. intros u Q. cbn in Q. exact (I u Q).
  - split; [exact H|]. intros u Q. destruct (I u Q) as (A & B & C & D). at_thread u t; [|auto].
    split; [exact A|]. rewrite H, A. cbn. split; [discriminate|]. split; [discriminate|].
    intros X. destruct (D X) as [(q & Y)|Y]; congruence.
  - split; [exact H|]. intros u Q. cbn in Q. destruct (I u Q) as (A & B & C & D). at_thread u t; [|auto].
    exfalso. exact (C p H0).
  - split; [exact H|]. intros u Q. cbn in Q. destruct (I u Q) as (A & B & C & D). at_thread u t; [|auto].
    split; [exact A|]. split; [discriminate|]. split; [discriminate|].
    intros X. destruct (D X) as [(q & Y)|Y]; congruence.
  - split; [exact H|]. intros u Q. destruct (I u Q) as (A & B & C & D). at_thread u t; [|auto].
    split; [exact A|]. split; [discriminate|]. split; [discriminate|]. auto.
  - rewrite have_log_forced. split; [exact H|]. intros u Q. unfold force.
    destruct (have_hooks n d) eqn:E.
    + at_thread u t.
      * split; [congruence|]. split; [discriminate|]. split; discriminate.
      * rewrite quiet_forced_other in Q by assumption. auto.
    + rewrite quiet_forced_no in Q by assumption. destruct (I u Q) as (A & _). congruence.
  - split; [exact H|]. intros u Q. destruct (I u Q) as (A & B & C & D). at_thread u t; [|auto].
    split; [exact A|]. split; [discriminate|]. split; [discriminate|].
    intros X. destruct (D X) as [(q & Y)|Y]; congruence.
  - split; [exact H|]. intros u Q. cbn in Q. destruct (I u Q) as (A & B & C & D). at_thread u t; [|auto].
    split; [exact A|]. split; [discriminate|]. split; [discriminate|].
    intros X. destruct (D X) as [(q & Y)|Y]; congruence.
  - split; [exact H|]. intros u Q. destruct (I u Q) as (A & B & C & D). at_thread u t; [|auto].
    split; [exact A|]. split; [discriminate|]. split; [discriminate|].
    intros X. destruct (D X) as [(q & Y)|Y]; congruence.
  - split; [exact H|]. intros u Q. cbn in Q. destruct (I u Q) as (A & B & C & D). at_thread u t; [|auto].
    split; [exact A|]. split; [discriminate|]. split; [discriminate|].
    intros X. destruct (D X) as [(q & Y)|Y]; congruence.
  - split; [exact H|]. intros u Q. cbn in Q. destruct (I u Q) as (A & B & C & D). at_thread u t; [|auto].
    split; [exact A|]. split; [discriminate|]. split; [discriminate|].
    intros X. destruct (D X) as [(q & Y)|Y]; congruence.
Qed.

Lemma off_reach s : hreach s -> off_inv s.
Proof.
  induction 1 as [|s s' R IH S]; [|eapply off_step; eassumption].
  split; [reflexivity|]. intros t _. cbn. repeat split; discriminate.
Qed.

(** In use and announced. *)
Lemma mem_announced t hf pf o tl p : mem_ok hf pf o tl ->
  (hf t = Some p /\ pf t = None) \/ (o p = true /\ forall u, hf u <> Some p) -> tl p = Some true.
Proof.
  intros (M1 & M2 & M3 & M4 & M5) [(A & B)|(A & B)].
  - apply M5; [eapply M2; eassumption|]. intros u X. destruct (M3 u p X) as (Y & _).
    rewrite (M1 u t p Y A) in X. congruence.
  - apply M5; [exact A|]. intros u X. destruct (M3 u p X) as (Y & _). exact (B u Y).
Qed.

(** Thread t changes to hold [h'] with [p'] pending; o and tl change at one object only. *)
Lemma mem_change t hf pf o tl hf' pf' o' tl' p : mem_ok hf pf o tl ->
  (forall u, u <> t -> hf' u = hf u /\ pf' u = pf u) ->
  (forall q, q <> p -> o' q = o q /\ tl' q = tl q) ->
  (forall q, hf t = Some q -> q = p) -> (forall q, hf' t = Some q -> q = p) -> (forall q, pf' t = Some q -> hf' t = Some q) ->
  (forall u, u <> t -> hf u <> Some p) ->
  (hf' t = Some p -> o' p = true) ->
  (pf' t = Some p -> tl' p = Some false) -> (o' p = false -> tl' p = Some false) ->
  (o' p = true -> pf' t <> Some p -> tl' p = Some true) ->
  mem_ok hf' pf' o' tl'.
Proof.
  intros (M1 & M2 & M3 & M4 & M5) U Q Ht Ht' Sub Other O1 T1 T2 T3.
  assert (HF : forall u, u <> t -> hf' u = hf u) by (intros u N; apply U; assumption).
  assert (PF : forall u, u <> t -> pf' u = pf u) by (intros u N; apply U; assumption).
  split; [|split; [|split; [|split]]].
  - intros u v q A B. destruct (Z.eq_dec u t) as [->|Nu]; destruct (Z.eq_dec v t) as [->|Nv]; [reflexivity| | |].
    + rewrite (HF v Nv) in B. rewrite (Ht' q A) in B. exfalso. exact (Other v Nv B).
    + rewrite (HF u Nu) in A. rewrite (Ht' q B) in A. exfalso. exact (Other u Nu A).
    + rewrite (HF u Nu) in A. rewrite (HF v Nv) in B. exact (M1 u v q A B).
  - intros u q A. destruct (Z.eq_dec u t) as [->|Nu].
    + pose proof (Ht' q A). subst q. apply O1. exact A.
    + rewrite (HF u Nu) in A. destruct (Z.eq_dec q p) as [->|Nq]; [exfalso; exact (Other u Nu A)|].
      rewrite (proj1 (Q q Nq)). eapply M2. exact A.
  - intros u q A. destruct (Z.eq_dec u t) as [->|Nu].
    + pose proof (Sub q A) as B. split; [exact B|]. pose proof (Ht' q B). subst q. apply T1. exact A.
    + rewrite (PF u Nu) in A. rewrite (HF u Nu). destruct (M3 u q A) as (B & C). split; [exact B|].
      destruct (Z.eq_dec q p) as [->|Nq]; [exfalso; exact (Other u Nu B)|]. rewrite (proj2 (Q q Nq)). exact C.
  - intros q A. destruct (Z.eq_dec q p) as [->|Nq]; [apply T2; exact A|].
    rewrite (proj1 (Q q Nq)) in A. rewrite (proj2 (Q q Nq)). apply M4. exact A.
  - intros q A B. destruct (Z.eq_dec q p) as [->|Nq]; [apply T3; [exact A|apply B]|].
    rewrite (proj1 (Q q Nq)) in A. rewrite (proj2 (Q q Nq)). apply M5; [exact A|].
    intros u X. destruct (Z.eq_dec u t) as [->|Nu].
    + destruct (M3 t q X) as (Y & _). exact (Nq (Ht q Y)).
    + apply (B u). rewrite (PF u Nu). exact X.
Qed.

Lemma mem_same hf pf o tl hf' pf' tl' : mem_ok hf pf o tl ->
  (forall u, hf' u = hf u /\ pf' u = pf u) -> (forall q, tl' q = tl q) -> mem_ok hf' pf' o tl'.
Proof.
  intros (M1 & M2 & M3 & M4 & M5) U Q.
  split; [|split; [|split; [|split]]].
  - intros u v q A B. rewrite (proj1 (U u)) in A. rewrite (proj1 (U v)) in B. eauto.
  - intros u q A. rewrite (proj1 (U u)) in A. eauto.
  - intros u q A. rewrite (proj2 (U u)) in A. rewrite (proj1 (U u)), Q. eauto.
  - intros q A. rewrite Q. eauto.
  - intros q A B. rewrite Q. apply M5; [exact A|]. intros u X. apply (B u). rewrite (proj2 (U u)). exact X.
Qed.

Lemma told_forced p n d t l : told p (forced n d t ++ l) = told p l.
Proof. unfold forced. destruct (have_hooks n d); reflexivity. Qed.
Lemma told_emptied p n d l : told p (emptied n d ++ l) = told p l.
Proof. unfold emptied. destruct (have_hooks n d); reflexivity. Qed.

(** No other thread holds what t holds. *)
Lemma mem_alone t hf pf o tl p : mem_ok hf pf o tl ->
  hf t = Some p \/ o p = false \/ (forall u, hf u <> Some p) -> forall u, u <> t -> hf u <> Some p.
Proof.
  intros (M1 & M2 & _) [A|[A|A]] u N X; [exact (N (M1 u t p X A))| |exact (A u X)].
  rewrite (M2 u p X) in A. discriminate.
Qed.

Ltac at_t t := match goal with H : ?pc t = _ |- _ => rewrite H in * end.
Ltac same_tac :=
  eapply mem_same; [eassumption| |intros q; cbn; rewrite ?told_forced, ?told_emptied; cbn; reflexivity];
  match goal with
  | H : _ = _ |- forall u, held (upd _ ?t _ u) = _ /\ _ => intros u; at_thread u t; [rewrite H|]; split; reflexivity
  | |- _ => intros; split; reflexivity
  end.

Lemma mem_step s s' : mem_inv s -> hstep s s' -> mem_inv s'.
Proof.
  intros M S. unfold mem_inv in *. destruct S; cbn [f_new f_del f_cached f_pc f_out f_log] in *; try same_tac.
  - (* fast *) apply mem_change with (t := t) (p := p) (1 := M).
    + intros u _. split; reflexivity.
    + intros q N. rewrite upd_other by congruence. cbn. destruct (Z.eqb_spec p q); [congruence|]. split; reflexivity.
    + rewrite H. discriminate.
    + rewrite H. discriminate.
    + rewrite H. discriminate.
    + eapply mem_alone; [exact M|]. auto.
    + intros _. apply upd_same.
    + rewrite H. discriminate.
    + rewrite upd_same. discriminate.
    + intros _ _. cbn. rewrite Z.eqb_refl. destruct M as (_ & _ & _ & M4 & _). rewrite (M4 p) by assumption. reflexivity.
  - (* no hooks *) apply mem_change with (t := t) (p := p) (1 := M); rewrite ?upd_same.
    + intros u N. rewrite upd_other by congruence. split; reflexivity.
    + intros q N. rewrite upd_other by congruence. cbn. destruct (Z.eqb_spec p q); [congruence|]. split; reflexivity.
    + rewrite H. discriminate.
    + discriminate.
    + discriminate.
    + eapply mem_alone; [exact M|]. auto.
    + reflexivity.
    + discriminate.
    + discriminate.
    + intros _ _. cbn. rewrite Z.eqb_refl. destruct M as (_ & _ & _ & M4 & _). rewrite (M4 p) by assumption. reflexivity.
  - (* take *) apply mem_change with (t := t) (p := p) (1 := M); rewrite ?upd_same.
    + intros u N. rewrite upd_other by congruence. split; reflexivity.
    + intros q N. rewrite upd_other by congruence. split; reflexivity.
    + rewrite H. discriminate.
    + cbn. congruence.
    + auto.
    + eapply mem_alone; [exact M|]. auto.
    + reflexivity.
    + intros _. destruct M as (_ & _ & _ & M4 & _). apply M4. assumption.
    + discriminate.
    + cbn. congruence.
  - apply mem_change with (t := t) (p := p) (1 := M); rewrite ?upd_same.
    + intros u N. rewrite upd_other by congruence. split; reflexivity.
    + intros q N. rewrite upd_other by congruence. split; reflexivity.
    + rewrite H. discriminate.
    + cbn. congruence.
    + auto.
    + eapply mem_alone; [exact M|]. auto.
    + reflexivity.
    + intros _. destruct M as (_ & _ & _ & M4 & _). apply M4. assumption.
    + discriminate.
    + cbn. congruence.
  - apply mem_change with (t := t) (p := p) (1 := M); rewrite ?upd_same.
    + intros u N. rewrite upd_other by congruence. split; reflexivity.
    + intros q N. rewrite upd_other by congruence. split; reflexivity.
    + rewrite H. discriminate.
    + cbn. congruence.
    + auto.
    + eapply mem_alone; [exact M|]. auto.
    + reflexivity.
    + intros _. destruct M as (_ & _ & _ & M4 & _). apply M4. assumption.
    + discriminate.
    + cbn. congruence.
  - (* tell *) pose proof M as (M1 & M2 & M3 & M4 & M5). specialize (M2 t p). specialize (M3 t p). rewrite H in M2, M3.
    destruct (M3 eq_refl) as (_ & F).
    apply mem_change with (t := t) (p := p) (1 := M); rewrite ?upd_same.
    + intros u N. rewrite upd_other by congruence. split; reflexivity.
    + intros q N. cbn. destruct (Z.eqb_spec p q); [congruence|]. split; reflexivity.
    + rewrite H. cbn. congruence.
    + discriminate.
    + discriminate.
    + eapply mem_alone; [exact M|]. rewrite H. auto.
    + discriminate.
    + discriminate.
    + rewrite M2 by reflexivity. discriminate.
    + intros _ _. cbn. rewrite Z.eqb_refl, F. reflexivity.
  - (* first *) pose proof M as (M1 & M2 & M3 & M4 & M5). specialize (M2 t p). specialize (M3 t p). rewrite H in M2, M3.
    destruct (M3 eq_refl) as (_ & F).
    apply mem_change with (t := t) (p := p) (1 := M); rewrite ?upd_same.
    + intros u N. rewrite upd_other by congruence. split; reflexivity.
    + intros q N. cbn. rewrite told_forced, told_emptied. destruct (Z.eqb_spec p q); [congruence|]. split; reflexivity.
    + rewrite H. cbn. congruence.
    + discriminate.
    + discriminate.
    + eapply mem_alone; [exact M|]. rewrite H. auto.
    + discriminate.
    + discriminate.
    + rewrite M2 by reflexivity. discriminate.
    + intros _ _. cbn. rewrite told_forced, told_emptied, Z.eqb_refl, F. reflexivity.
  - (* free fast *) apply mem_change with (t := t) (p := p) (1 := M).
    + intros u _. split; reflexivity.
    + intros q N. rewrite upd_other by congruence. cbn. destruct (Z.eqb_spec p q); [congruence|]. split; reflexivity.
    + rewrite H. discriminate.
    + rewrite H. discriminate.
    + rewrite H. discriminate.
    + eapply mem_alone; [exact M|]. auto.
    + rewrite H. discriminate.
    + rewrite H. discriminate.
    + intros _. cbn. rewrite Z.eqb_refl, (mem_announced t _ _ _ _ p M); auto.
    + rewrite upd_same. discriminate.
  - (* free slow *) apply mem_change with (t := t) (p := p) (1 := M); rewrite ?upd_same.
    + intros u N. rewrite upd_other by congruence. split; reflexivity.
    + intros q N. split; reflexivity.
    + rewrite H. discriminate.
    + cbn. congruence.
    + discriminate.
    + eapply mem_alone; [exact M|]. auto.
    + auto.
    + discriminate.
    + congruence.
    + intros _ _. apply (mem_announced t _ _ _ _ p M). auto.
  - (* free no hooks *) apply mem_change with (t := t) (p := p) (1 := M); rewrite ?upd_same.
    + intros u N. rewrite upd_other by congruence. split; reflexivity.
    + intros q N. rewrite upd_other by congruence. cbn. destruct (Z.eqb_spec p q); [congruence|]. split; reflexivity.
    + rewrite H. cbn. congruence.
    + discriminate.
    + discriminate.
    + eapply mem_alone; [exact M|]. rewrite H. auto.
    + discriminate.
    + discriminate.
    + intros _. cbn. rewrite Z.eqb_refl, (mem_announced t _ _ _ _ p M); [reflexivity|]. left. rewrite H. auto.
    + discriminate.
  - (* tell delete *) pose proof M as (M1 & M2 & _). specialize (M2 t p). rewrite H in M2.
    apply mem_change with (t := t) (p := p) (1 := M); rewrite ?upd_same.
    + intros u N. rewrite upd_other by congruence. split; reflexivity.
    + intros q N. cbn. destruct (Z.eqb_spec p q); [congruence|]. split; reflexivity.
    + rewrite H. cbn. congruence.
    + cbn. congruence.
    + auto.
    + eapply mem_alone; [exact M|]. rewrite H. auto.
    + auto.
    + intros _. cbn. rewrite Z.eqb_refl, (mem_announced t _ _ _ _ p M); [reflexivity|]. left. rewrite H. auto.
    + rewrite M2 by reflexivity. discriminate.
    + cbn. congruence.
  - (* put *) pose proof M as (M1 & M2 & M3 & _). specialize (M3 t p). rewrite H in M3. destruct (M3 eq_refl) as (_ & F).
    apply mem_change with (t := t) (p := p) (1 := M); rewrite ?upd_same.
    + intros u N. rewrite upd_other by congruence. split; reflexivity.
    + intros q N. rewrite upd_other by congruence. split; reflexivity.
    + rewrite H. cbn. congruence.
    + discriminate.
    + discriminate.
    + eapply mem_alone; [exact M|]. rewrite H. auto.
    + discriminate.
    + discriminate.
    + intros _. exact F.
    + discriminate.
  - pose proof M as (M1 & M2 & M3 & _). specialize (M3 t p). rewrite H in M3. destruct (M3 eq_refl) as (_ & F).
    apply mem_change with (t := t) (p := p) (1 := M); rewrite ?upd_same.
    + intros u N. rewrite upd_other by congruence. split; reflexivity.
    + intros q N. rewrite upd_other by congruence. split; reflexivity.
    + rewrite H. cbn. congruence.
    + discriminate.
    + discriminate.
    + eapply mem_alone; [exact M|]. rewrite H. auto.
    + discriminate.
    + discriminate.
    + intros _. exact F.
    + discriminate.
  - (* large *) apply mem_change with (t := t) (p := p) (1 := M); rewrite ?upd_same.
    + intros u N. rewrite upd_other by congruence. split; reflexivity.
    + intros q N. cbn. destruct (Z.eqb_spec p q); [congruence|]. split; reflexivity.
    + rewrite H. discriminate.
    + cbn. congruence.
    + auto.
    + eapply mem_alone; [exact M|]. auto.
    + auto.
    + intros _. cbn. rewrite Z.eqb_refl, (mem_announced t _ _ _ _ p M); auto.
    + congruence.
    + cbn. congruence.
  - pose proof M as (M1 & M2 & M3 & _). specialize (M3 t p). rewrite H in M3. destruct (M3 eq_refl) as (_ & F).
    apply mem_change with (t := t) (p := p) (1 := M); rewrite ?upd_same.
    + intros u N. rewrite upd_other by congruence. split; reflexivity.
    + intros q N. rewrite upd_other by congruence. split; reflexivity.
    + rewrite H. cbn. congruence.
    + discriminate.
    + discriminate.
    + eapply mem_alone; [exact M|]. rewrite H. auto.
    + discriminate.
    + discriminate.
    + intros _. exact F.
    + discriminate.
  - (* realloc *) apply mem_change with (t := t) (p := p) (1 := M); rewrite ?upd_same.
    + intros u N. rewrite upd_other by congruence. split; reflexivity.
    + intros q N. cbn. destruct (Z.eqb_spec p q); [congruence|]. split; reflexivity.
    + rewrite H. discriminate.
    + cbn. congruence.
    + auto.
    + eapply mem_alone; [exact M|]. auto.
    + auto.
    + intros _. cbn. rewrite Z.eqb_refl, (mem_announced t _ _ _ _ p M); auto.
    + congruence.
    + cbn. congruence.
  - pose proof M as (M1 & M2 & M3 & M4 & M5). specialize (M2 t p). specialize (M3 t p). rewrite H in M2, M3.
    destruct (M3 eq_refl) as (_ & F).
    apply mem_change with (t := t) (p := p) (1 := M); rewrite ?upd_same.
    + intros u N. rewrite upd_other by congruence. split; reflexivity.
    + intros q N. cbn. destruct (Z.eqb_spec p q); [congruence|]. split; reflexivity.
    + rewrite H. cbn. congruence.
    + discriminate.
    + discriminate.
    + eapply mem_alone; [exact M|]. rewrite H. auto.
    + discriminate.
    + discriminate.
    + rewrite M2 by reflexivity. discriminate.
    + intros _ _. cbn. rewrite Z.eqb_refl, F. reflexivity.
Qed.

(** What each event of a history satisfies, given the events before it. *)
Definition event_ok (e : hev) (l : list hev) : Prop :=
  match e with
  | ENew _ _ calls => forall h, h <> 0 -> times h calls = (if none_yet l then 2 else 1) * registered KNew h l
  | EDelete _ _ calls => forall h, h <> 0 -> times h calls = registered KDelete h l
  | ESilentNew t _ | ESilentDelete t _ => quiet t l = false
  | EChanged t => have_log l = true -> quiet t l = true
  | _ => True
  end.
Fixpoint events_ok (l : list hev) : Prop := match l with [] => True | e :: l => event_ok e l /\ events_ok l end.
Lemma events_split newer e older : events_ok (newer ++ e :: older) -> event_ok e older.
Proof. induction newer as [|x l IH]; cbn; [tauto|]. intros (_ & H). exact (IH H). Qed.

Lemma registered_forced k h n d t l : registered k h (forced n d t ++ l) = registered k h l.
Proof. unfold forced. destruct (have_hooks n d); reflexivity. Qed.
Lemma registered_emptied k h n d l : registered k h (emptied n d ++ l) = registered k h l.
Proof. unfold emptied. destruct (have_hooks n d); reflexivity. Qed.
Lemma none_forced n d t l : none_yet (forced n d t ++ l) = none_yet l.
Proof. unfold forced. destruct (have_hooks n d); reflexivity. Qed.
Lemma none_emptied n d l : none_yet (emptied n d ++ l) = none_yet l.
Proof. unfold emptied. destruct (have_hooks n d); reflexivity. Qed.
Lemma events_forced n d t l : events_ok (forced n d t ++ l) <-> events_ok l.
Proof. unfold forced. destruct (have_hooks n d); cbn; tauto. Qed.
Lemma events_emptied n d l : events_ok (emptied n d ++ l) <-> events_ok l.
Proof. unfold emptied. destruct (have_hooks n d); cbn; tauto. Qed.

Lemma reg_step s s' : reg_inv s -> hstep s s' -> reg_inv s'.
Proof.
  intros (R1 & R2 & R3) S. unfold reg_inv. destruct S; cbn [f_new f_del f_cached f_pc f_out f_log] in *;
    try (split; [exact R1|split; [exact R2|exact R3]]);
    try (cbn; rewrite ?none_forced; split; [intros; rewrite registered_forced; auto|split; [intros; rewrite registered_forced; auto|exact R3]]).
  - split; [|split].
    + intros x Nx. rewrite times_app, times_one, R1 by assumption. reflexivity.
    + intros x Nx. cbn. rewrite R2 by assumption. lia.
    + change (none_yet (EInserted t KNew h :: l)) with (none_yet l). rewrite times_app, times_one, R3.
      destruct (Z.eqb_spec h 0); [congruence|]. lia.
  - split; [|split].
    + intros x Nx. cbn. rewrite R1 by assumption. lia.
    + intros x Nx. rewrite times_app, times_one, R2 by assumption. reflexivity.
    + exact R3.
  - rewrite none_emptied. split; [|split].
    + intros x Nx. rewrite registered_emptied, times_remove1, R1 by assumption. reflexivity.
    + intros x Nx. rewrite registered_emptied. cbn. rewrite R2 by assumption. lia.
    + change (none_yet (ERemoved t KNew h :: l)) with (none_yet l). rewrite times_remove1 by assumption. rewrite R3.
      destruct (Z.eqb_spec h 0); [congruence|]. lia.
  - rewrite none_emptied. split; [|split].
    + intros x Nx. rewrite registered_emptied. cbn. rewrite R1 by assumption. lia.
    + intros x Nx. rewrite registered_emptied, times_remove1, R2 by assumption. reflexivity.
    + exact R3.
  - change (none_yet (EChanged t :: forced n d t ++ l)) with (none_yet (forced n d t ++ l)). rewrite none_forced.
    split; [|split; [|exact R3]]; intros x Nx; cbn; rewrite registered_forced; auto.
  - assert (T : times 0 n = 0).
    { apply times_none. assumption. }
    split; [exact R1|]. split; [exact R2|]. rewrite T in *. cbn. reflexivity.
  - split; [|split].
    + intros x Nx. cbn. rewrite registered_forced, registered_emptied, times_remove1, R1 by assumption.
      destruct (Z.eqb_spec 0 x); [congruence|lia].
    + intros x Nx. cbn. rewrite registered_forced, registered_emptied. auto.
    + rewrite times_remove1, R3 by assumption. pose proof (proj1 (times_pos 0 n) ltac:(assumption)).
      destruct (none_yet l); [reflexivity|lia].
  - assert (T : times 0 n = 0).
    { apply times_none. assumption. }
    split; [exact R1|]. split; [exact R2|]. rewrite T in *. cbn. reflexivity.
Qed.

Lemma new_calls_times n h : h <> 0 -> times h (new_calls n) = times h n + times 0 n * times h (remove1 0 n).
Proof. intros N. unfold new_calls. apply times_flat. exact N. Qed.

Lemma events_step s s' : off_inv s -> reg_inv s -> events_ok (f_log s) -> hstep s s' -> events_ok (f_log s').
Proof.
  intros (H & I) (R1 & R2 & R3) E S. unfold off_ok in I.
  destruct S; cbn [f_new f_del f_cached f_pc f_out f_log] in *; cbn [events_ok event_ok];
    rewrite ?events_emptied, ?events_forced; cbn [events_ok event_ok]; auto.
  - (* changed *) split; [|exact E]. rewrite have_log_forced, <- H. intros X. unfold forced. rewrite X. cbn. rewrite Z.eqb_refl. reflexivity.
  - (* fast *) split; [|exact E]. destruct (quiet t l) eqn:Q; [|reflexivity].
    destruct (I t Q) as (_ & _ & _ & D). destruct (D ltac:(assumption)) as [(q & X)|X]; congruence.
  - split; [|exact E]. destruct (quiet t l) eqn:Q; [|reflexivity]. destruct (I t Q) as (_ & B & _). congruence.
  - (* tell *) split; [|exact E]. intros h Nh. rewrite new_calls_times by assumption.
    assert (T : times 0 n = 0).
    { apply times_none. assumption. }
    rewrite T in *. destruct (none_yet l); [discriminate|]. rewrite R1 by assumption. lia.
  - (* first *) rewrite ?events_forced, ?events_emptied. split; [|exact E]. intros h Nh.
    rewrite none_forced, none_emptied, registered_forced, registered_emptied, new_calls_times by assumption.
    pose proof (proj1 (times_pos 0 n) ltac:(assumption)) as P.
    rewrite times_remove1 by assumption. rewrite R3 in *. destruct (none_yet l); [|lia].
    rewrite <- R1 by assumption. destruct (Z.eqb_spec 0 h); [congruence|]. lia.
  - split; [|exact E]. destruct (quiet t l) eqn:Q; [|reflexivity].
    destruct (I t Q) as (_ & _ & _ & D). destruct (D ltac:(assumption)) as [(q & X)|X]; congruence.
  - split; [|exact E]. destruct (quiet t l) eqn:Q; [|reflexivity]. destruct (I t Q) as (_ & _ & C & _).
    exfalso. eapply C. eassumption.
  - (* realloc new *) split; [|exact E]. intros h Nh. rewrite new_calls_times by assumption.
    assert (T : times 0 n = 0).
    { apply times_none. assumption. }
    rewrite T in *. destruct (none_yet l); [discriminate|]. rewrite R1 by assumption. lia.
Qed.

Lemma all_reach s : hreach s -> off_inv s /\ mem_inv s /\ reg_inv s /\ events_ok (f_log s).
Proof.
  induction 1 as [|s s' R (O & M & G & E) S].
  - split; [apply off_reach; constructor|]. split; [|split].
    + split; [|split; [|split; [|split]]]; cbn; intros; try discriminate. reflexivity.
    + split; [|split; [reflexivity|reflexivity]]. intros h N. cbn [f_new hf0]. rewrite times_one.
      destruct (Z.eqb_spec 0 h); [congruence|reflexivity].
    + exact I.
  - split; [eapply off_step; eassumption|]. split; [eapply mem_step; eassumption|].
    split; [eapply reg_step; eassumption|]. eapply events_step; eassumption.
Qed.

(** ** The properties *)

Lemma quiet_after t newer older : ~ In EEmptied newer -> quiet t older = true -> quiet t (newer ++ older) = true.
Proof.
  induction newer as [|e l IH]; intros N Q; [exact Q|]. cbn.
  assert (N' : ~ In EEmptied l) by (intros X; apply N; right; exact X).
  destruct e; try (apply IH; assumption).
  - destruct (t0 =? t); [reflexivity|]. apply IH; assumption.
  - exfalso. apply N. left. reflexivity.
Qed.
Lemma have_after mid older : ~ In EEmptied mid -> have_log older = true -> have_log (mid ++ older) = true.
Proof.
  induction mid as [|e l IH]; intros N Q; [exact Q|]. cbn.
  assert (N' : ~ In EEmptied l) by (intros X; apply N; right; exact X).
  destruct e; try (apply IH; assumption); [reflexivity|]. exfalso. apply N. left. reflexivity.
Qed.

Lemma no_silent t newer older : events_ok (newer ++ older) -> quiet t older = true -> ~ In EEmptied newer ->
  forall e, In e newer -> ~ silent_of t e.
Proof.
  intros E Q N e I S. apply in_split in I. destruct I as (a & b & ->).
  rewrite <- app_assoc in E. cbn in E. apply events_split in E.
  assert (X : quiet t (b ++ older) = true).
  { apply quiet_after; [|exact Q]. intros Y. apply N. apply in_or_app. right. right. exact Y. }
  destruct e; cbn in S; try contradiction; subst; cbn in E; congruence.
Qed.

(** From the return of a thread's call that registers a hook, until no hook is left, no malloc, free or
    realloc of this thread goes unannounced: for every schedule of all threads. *)
Theorem hooks_own_thread s t k h newer mid older : hreach s ->
  f_log s = newer ++ EChanged t :: mid ++ EInserted t k h :: older ->
  ~ In EEmptied newer -> ~ In EEmptied mid ->
  forall e, In e newer -> ~ silent_of t e.
Proof.
  intros R L N1 N2. destruct (all_reach s R) as (_ & _ & _ & E). rewrite L in E.
  pose proof (events_split _ _ _ E) as C. cbn in C.
  assert (Q : quiet t (mid ++ EInserted t k h :: older) = true) by (apply C, have_after; [exact N2|reflexivity]).
  eapply no_silent; [exact E| |exact N1]. cbn. exact Q.
Qed.
Print Assumptions hooks_own_thread.

(** Any other thread: from the first time it leaves the fast path. *)
Theorem hooks_after_slow_path s t newer older : hreach s ->
  f_log s = newer ++ EOff t :: older -> ~ In EEmptied newer ->
  forall e, In e newer -> ~ silent_of t e.
Proof.
  intros R L N. destruct (all_reach s R) as (_ & _ & _ & E). rewrite L in E.
  eapply no_silent; [exact E| |exact N]. cbn. rewrite Z.eqb_refl. reflexivity.
Qed.
Print Assumptions hooks_after_slow_path.

(** From the start of the program until there are no hooks: the hook for the first allocation misses none. *)
Theorem hooks_from_start s : hreach s -> ~ In EEmptied (f_log s) -> forall t e, In e (f_log s) -> ~ silent_of t e.
Proof.
  intros R N t. destruct (all_reach s R) as (_ & _ & _ & E).
  apply (no_silent t (f_log s) []); [rewrite app_nil_r; exact E|reflexivity|exact N].
Qed.
Print Assumptions hooks_from_start.

(** An announcement reaches each hook as often as it is registered at that moment - twice as often, if it
    announces the first allocation of all. *)
Theorem hooks_called_exactly s newer older e : hreach s -> f_log s = newer ++ e :: older ->
  match e with
  | ENew _ _ calls => forall h, h <> 0 -> times h calls = (if none_yet older then 2 else 1) * registered KNew h older
  | EDelete _ _ calls => forall h, h <> 0 -> times h calls = registered KDelete h older
  | _ => True
  end.
Proof.
  intros R L. destruct (all_reach s R) as (_ & _ & _ & E). rewrite L in E. apply events_split in E.
  destruct e; cbn in E |- *; auto.
Qed.
Print Assumptions hooks_called_exactly.

(** Announcements never contradict each other: no object is announced as allocated twice without being freed in
    between, nor freed twice; and when no call is under way, those announced and not freed are those in use. *)
Theorem hooks_in_order s p : hreach s ->
  told p (f_log s) <> None /\ ((forall t, f_pc s t = HIdle) -> told p (f_log s) = Some (f_out s p)).
Proof.
  intros R. destruct (all_reach s R) as (_ & (M1 & M2 & M3 & M4 & M5) & _). split.
  - destruct (f_out s p) eqn:O; [|rewrite (M4 p O); discriminate].
    intros X.
    assert (N : forall u, pending (f_pc s u) <> Some p).
    { intros u Y. destruct (M3 u p Y) as (_ & Z). congruence. }
    rewrite (M5 p O N) in X. discriminate.
  - intros A. destruct (f_out s p) eqn:O; [|apply M4; exact O].
    apply M5; [exact O|]. intros u. rewrite (A u). discriminate.
Qed.
Print Assumptions hooks_in_order.

(** ** What does not hold *)

(** A hook registered before the first allocation is called twice for it. *)
Theorem hooks_called_once_refuted :
  ~ (forall s t p calls h, hreach s -> In (ENew t p calls) (f_log s) -> times h calls <= 1 \/ 1 < registered KNew h (f_log s)).
Proof.
  intros X.
  assert (R : exists s, hreach s /\ In (ENew 1 64 [5; 5]) (f_log s) /\ registered KNew 5 (f_log s) = 1).
  { pose proof hr_init as R.
    eapply hr_step in R; [|apply (hs_add_new 1 5); [reflexivity|lia|reflexivity]].
    eapply hr_step in R; [|apply (hs_changed 1); reflexivity].
    eapply hr_step in R; [|apply (hs_alloc_large 1 64); reflexivity].
    eapply hr_step in R; [|apply (hs_tell_first 1 64); [reflexivity|left; reflexivity]].
    eexists. split; [exact R|]. cbn. split; [left; reflexivity|reflexivity]. }
  destruct R as (s & R & I & G). destruct (X s 1 64 [5; 5] 5 R I) as [Y|Y]; [vm_compute in Y; apply Y; reflexivity|lia].
Qed.
Print Assumptions hooks_called_once_refuted.

(** After thread 1 has registered a hook, thread 2 may make any number of calls that no hook is told of. *)
Theorem hooks_other_threads_refuted : forall k : nat, exists s newer older,
  hreach s /\ f_log s = newer ++ EChanged 1 :: EOff 1 :: EInserted 1 KNew 5 :: older /\ f_new s = [5] /\
  length newer = k /\ forall e, In e newer -> silent_of 2 e.
Proof.
  assert (B : forall k : nat, exists s newer older,
    hreach s /\ f_log s = newer ++ EChanged 1 :: EOff 1 :: EInserted 1 KNew 5 :: older /\ f_new s = [5] /\
    length newer = k /\ (forall e, In e newer -> silent_of 2 e) /\
    (forall t, f_pc s t = HIdle) /\ f_cached s 2 = true).
  { induction k as [|k (s & newer & older & R & L & F & Len & Sil & Idle & C)].
    - pose proof hr_init as R.
      eapply hr_step in R; [|apply (hs_alloc_large 2 64); reflexivity].
      eapply hr_step in R; [|apply (hs_tell_first 2 64); [reflexivity|left; reflexivity]].
      eapply hr_step in R; [|apply (hs_alloc_slow 2 false); reflexivity].
      eapply hr_step in R; [|apply (hs_alloc_no_hooks 2 128 true); reflexivity].
      eapply hr_step in R; [|apply (hs_add_new 1 5); [reflexivity|lia|reflexivity]].
      eapply hr_step in R; [|apply (hs_changed 1); reflexivity].
      eexists. exists []. eexists. split; [exact R|]. cbn.
      split; [reflexivity|]. split; [reflexivity|]. split; [reflexivity|]. split; [intros ? []|].
      split; [|reflexivity]. intros t.
      destruct (Z.eq_dec t 1) as [->|N1]; [reflexivity|]. destruct (Z.eq_dec t 2) as [->|N2]; [reflexivity|].
      rewrite !upd_other by congruence. reflexivity.
    - destruct s as [n d c pc o l]. cbn in *. destruct (o 128) eqn:O.
      + eapply hr_step in R; [|apply (hs_free_fast 2 128); [apply Idle|exact C|exact O|intros u; rewrite Idle; discriminate]].
        eexists. exists (ESilentDelete 2 128 :: newer), older. split; [exact R|]. cbn.
        split; [rewrite L; reflexivity|]. split; [exact F|]. split; [lia|].
        split; [intros e [<-|I]; [reflexivity|apply Sil; exact I]|]. split; [exact Idle|exact C].
      + eapply hr_step in R; [|apply (hs_alloc_fast 2 128); [apply Idle|exact C|exact O]].
        eexists. exists (ESilentNew 2 128 :: newer), older. split; [exact R|]. cbn.
        split; [rewrite L; reflexivity|]. split; [exact F|]. split; [lia|].
        split; [intros e [<-|I]; [reflexivity|apply Sil; exact I]|]. split; [exact Idle|exact C]. }
  intros k. destruct (B k) as (s & newer & older & R & L & F & Len & Sil & _). exists s, newer, older. auto.
Qed.
Print Assumptions hooks_other_threads_refuted.

(** ** A concrete case *)

(** Thread 1 allocates, then registers hooks 5 (twice) and 6, allocates a small object on the slow path and frees it. *)
Example hooks_example : exists s, hreach s /\
  f_log s = [EOff 1; EDelete 1 64 [6]; ENew 1 64 [5; 5]; EOff 1; EChanged 1; EOff 1; EInserted 1 KNew 5;
             EChanged 1; EOff 1; EInserted 1 KDelete 6; EChanged 1; EOff 1; EInserted 1 KNew 5; ENew 1 32 []; EEmptied] /\
  told 64 (f_log s) = Some false /\ told 32 (f_log s) = Some true.
Proof.
  pose proof hr_init as R.
  eapply hr_step in R; [|apply (hs_alloc_large 1 32); reflexivity].
  eapply hr_step in R; [|apply (hs_tell_first 1 32); [reflexivity|left; reflexivity]].
  eapply hr_step in R; [|apply (hs_add_new 1 5); [reflexivity|lia|reflexivity]].
  eapply hr_step in R; [|apply (hs_changed 1); reflexivity].
  eapply hr_step in R; [|apply (hs_add_del 1 6); [reflexivity|lia|reflexivity]].
  eapply hr_step in R; [|apply (hs_changed 1); reflexivity].
  eapply hr_step in R; [|apply (hs_add_new 1 5); [reflexivity|lia|reflexivity]].
  eapply hr_step in R; [|apply (hs_changed 1); reflexivity].
  eapply hr_step in R; [|apply (hs_alloc_slow 1 false); reflexivity].
  eapply hr_step in R; [|apply (hs_alloc_hooks 1 64 true); reflexivity].
  eapply hr_step in R; [|apply (hs_alloc_force 1 64); reflexivity].
  eapply hr_step in R; [|apply (hs_tell_new 1 64); [reflexivity|cbn; intuition lia]].
  eapply hr_step in R; [|apply (hs_free_slow 1 64 false); [reflexivity|reflexivity|]].
  2:{ intros u. destruct (Z.eq_dec u 1) as [->|N]; [cbn; discriminate|]. rewrite ?upd_other by congruence. discriminate. }
  eapply hr_step in R; [|apply (hs_tell_delete 1 64); reflexivity].
  eapply hr_step in R; [|apply (hs_free_put 1 64 true); reflexivity].
  eapply hr_step in R; [|apply (hs_free_force 1); reflexivity].
  eexists. split; [exact R|]. vm_compute. repeat split.
Qed.
