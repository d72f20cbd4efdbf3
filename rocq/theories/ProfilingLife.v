(** Invariants of the lifetime profiles in progress (Profiling.v). *)
From Coq Require Import Permutation.
From Verif Require Import Base TransferCache Flow FlowProofs ThreadCacheProofs ThreadCacheProps Profiling ProfilingProofs.

(** A profile [d] of a state with the reported samples [drep] and the freed ones [dead]. *)
Record dok (drep dead : list Z) (d : dsession) : Prop := {
  d_nodup : NoDup (map fst (d_out d) ++ d_tab d);
  d_intab : forall h, In h (d_tab d) -> In h drep /\ ~ In h dead;
  d_isdead : Permutation dead (map fst (d_out d) ++ d_dead d) }.
(** The profile has seen what it must have seen. *)
Definition seen (drep : list Z) (d : dsession) : Prop :=
  forall h, In h drep -> In h (d_live d) \/ d_gen d < h -> In h (d_tab d) \/ In (h, true) (d_out d).

Record PD (p : ppar) (s : pstate) : Prop := {
  e_dl1 : forall t, g_dlock s = Some t -> 0 <= t < p_nthr p /\ seed_of (g_pc s t) <> None;
  e_dl2 : forall t, 0 <= t < p_nthr p -> seed_of (g_pc s t) <> None -> g_dlock s = Some t;
  e_did : NoDup (map d_id (g_ds s));
  e_ok : forall d, In d (g_ds s) -> dok (g_drep s) (g_dead s) d;
  e_seen : forall d, In d (g_ds s) -> (forall t r e, 0 <= t < p_nthr p -> seed_of (g_pc s t) <> Some (d_id d, r, e)) -> seen (g_drep s) d;
  e_seed : forall t id r e, 0 <= t < p_nthr p -> seed_of (g_pc s t) = Some (id, r, e) ->
    (forall h, In h (g_dead s) -> In h e /\ ~ In h r) /\
    exists d, In d (g_ds s) /\ d_id d = id /\ d_tab d = [] /\ d_out d = [] /\ (forall h, In h (g_drep s) -> h <= d_gen d) /\ incl (d_live d) r }.

Lemma PD_init p : PD p pinit.
Proof. constructor; cbn; try discriminate; try (intros; congruence); try (intros d []); apply NoDup_nil. Qed.

Lemma PD_frame p s s' t q : PD p s -> g_pc s' = upd (g_pc s) t q -> g_dlock s' = g_dlock s -> g_ds s' = g_ds s ->
  g_drep s' = g_drep s -> g_dead s' = g_dead s -> seed_of q = seed_of (g_pc s t) -> PD p s'.
Proof.
  intros [D1 D2 D3 D4 D5 D6] E1 E2 E3 E4 E5 Hs.
  assert (X : forall t', seed_of (g_pc s' t') = seed_of (g_pc s t')).
  { intros t'. rewrite E1. destruct (Z.eq_dec t' t) as [->|N]; [rewrite upd_same; exact Hs|rewrite upd_other by exact N; reflexivity]. }
  constructor; rewrite ?E2, ?E3, ?E4, ?E5; try assumption.
  - intros t'. rewrite X. apply D1.
  - intros t'. rewrite X. apply D2.
  - intros d Hd H. apply D5; [exact Hd|]. intros t' r e Ht'. rewrite <- X. apply H. exact Ht'.
  - intros t' id r e Ht'. rewrite X. apply D6. exact Ht'.
Qed.

Lemma no_seed p s : PD p s -> g_dlock s = None -> forall t, 0 <= t < p_nthr p -> seed_of (g_pc s t) = None.
Proof.
  intros D E t Ht. destruct (seed_of (g_pc s t)) eqn:X; [|reflexivity]. rewrite (e_dl2 _ _ D t Ht) in E; [discriminate E|congruence].
Qed.

Lemma dok_malloc drep dead d h : dok drep dead d -> ~ In h drep -> ~ In h dead -> (forall x, In x dead -> In x drep) -> dok (h :: drep) dead (ds_malloc h d).
Proof.
  intros [D1 D2 D3] Hd Hx Hsub. unfold ds_malloc. destruct (member h (d_tab d)) eqn:Em.
  - apply member_iff in Em. apply D2 in Em. tauto.
  - apply member_false in Em. constructor; cbn [d_out d_tab d_dead].
    + apply (Permutation_NoDup (Permutation_middle (map fst (d_out d)) (d_tab d) h)). constructor; [|exact D1].
      rewrite in_app_iff. intros [X|X]; [|contradiction]. apply Hx. apply (Permutation_in h (Permutation_sym D3)). rewrite in_app_iff. left. exact X.
    + intros x [<-|X]; [split; [left; reflexivity|exact Hx]|]. apply D2 in X. split; [right; tauto|tauto].
    + exact D3.
Qed.
Lemma seen_malloc drep d h : seen drep d -> seen (h :: drep) (ds_malloc h d).
Proof.
  intros S x Hx Hc. unfold ds_malloc. destruct (member h (d_tab d)) eqn:Em.
  - cbn [d_tab d_out d_live d_gen] in *. destruct Hx as [<-|Hx]; [left; apply member_iff; exact Em|exact (S x Hx Hc)].
  - cbn [d_tab d_out d_live d_gen] in *. destruct Hx as [<-|Hx]; [left; left; reflexivity|]. destruct (S x Hx Hc) as [X|X]; [left; right; exact X|right; exact X].
Qed.
Lemma remove1_nodup_in h x l : NoDup l -> In x (remove1 h l) <-> In x l /\ x <> h.
Proof.
  induction l as [|a l IH]; cbn [remove1]; intros Nd; [cbn; tauto|]. inversion Nd; subst. destruct (Z.eqb_spec a h) as [->|N].
  - split; [intros X; split; [right; exact X|intros ->; contradiction]|]. intros [[->|X] Y]; [congruence|exact X].
  - cbn [In]. rewrite IH by assumption. split; [intros [->|X]; [split; [left; reflexivity|exact N]|tauto]|]. intros [[->|X] Y]; [left; reflexivity|right; tauto].
Qed.
Lemma dok_free drep dead d h : dok drep dead d -> ~ In h dead -> dok drep (h :: dead) (ds_free h d).
Proof.
  intros [D1 D2 D3] Hx. pose proof (NoDup_app_r' _ _ D1) as Nt. unfold ds_free. destruct (member h (d_tab d)) eqn:Em.
  - apply member_iff in Em. pose proof (remove1_perm h _ Em) as Pr. constructor; cbn [d_out d_tab d_dead map fst app].
    + apply (Permutation_NoDup (l := map fst (d_out d) ++ d_tab d)); [|exact D1]. clear - Pr. pcnt.
    + intros x X. apply (remove1_nodup_in h x _ Nt) in X. destruct X as [X Y]. apply D2 in X. split; [tauto|]. intros [Z|Z]; [congruence|tauto].
    + constructor. exact D3.
  - apply member_false in Em. constructor; cbn [d_out d_tab d_dead map fst app].
    + constructor; [|exact D1]. rewrite in_app_iff. intros [X|X]; [|contradiction]. apply Hx. apply (Permutation_in h (Permutation_sym D3)). rewrite in_app_iff. left. exact X.
    + intros x X. pose proof (D2 _ X) as [Y Z]. split; [exact Y|]. intros [<-|W]; [contradiction|exact (Z W)].
    + constructor. exact D3.
Qed.
Lemma seen_free drep dead d h : dok drep dead d -> seen drep d -> seen drep (ds_free h d).
Proof.
  intros [D1 D2 D3] S x Hx Hc. pose proof (NoDup_app_r' _ _ D1) as Nt. unfold ds_free. destruct (member h (d_tab d)) eqn:Em; cbn [ds_free d_out d_tab d_live d_gen] in *.
  - assert (Hc' : In x (d_live d) \/ d_gen d < x). { unfold ds_free in Hc. rewrite Em in Hc. exact Hc. }
    destruct (S x Hx Hc') as [X|X]; [|right; right; exact X]. destruct (Z.eq_dec x h) as [->|N]; [right; left; reflexivity|left; apply (remove1_nodup_in h x _ Nt); tauto].
  - assert (Hc' : In x (d_live d) \/ d_gen d < x). { unfold ds_free in Hc. rewrite Em in Hc. exact Hc. }
    destruct (S x Hx Hc') as [X|X]; [left; exact X|right; right; exact X].
Qed.

Lemma dead_drep p s h : PA p s -> In h (g_dead s) -> In h (g_drep s).
Proof. intros A H. apply (Permutation_in h (Permutation_sym (a_drep _ _ A))). rewrite !in_app_iff. tauto. Qed.
Lemma dead_ever p s h : PA p s -> In h (g_dead s) -> In h (g_ever s) /\ ~ In h (g_reg s).
Proof.
  intros A H. split; [apply (Permutation_in h (Permutation_sym (a_ever _ _ A))); rewrite !in_app_iff; tauto|].
  intros X. apply (Permutation_in h (a_reg _ _ A)) in X. rewrite in_app_iff in X. pose proof (a_nd _ _ A) as Nd. destruct X as [X|X].
  - apply (NoDup_app_disj _ _ h Nd X). rewrite in_app_iff. tauto.
  - apply (subl _ _ _ _ sub_reg) in X. apply NoDup_app_r' in Nd. exact (NoDup_app_disj _ _ h Nd H X).
Qed.
Lemma ever_drep p s : PA p s -> incl (g_ever s) (g_drep s).
Proof.
  intros A h H. apply (Permutation_in h (a_ever _ _ A)) in H. apply (Permutation_in h (Permutation_sym (a_drep _ _ A))). rewrite !in_app_iff in *.
  destruct H as [H|[H|H]]; [tauto|tauto|]. right. right. apply fm_In in H. apply fm_In. destruct H as (t & X & Y). exists t. split; [exact X|].
  clear X. destruct (g_pc s t); cbn in *; tauto.
Qed.
Lemma drep_gen p s h : PA p s -> In h (g_drep s) -> h <= g_gen s.
Proof.
  intros A H. apply (Permutation_in h (a_drep _ _ A)) in H. apply (a_gen _ _ A). rewrite !in_app_iff in *.
  destruct H as [H|[H|H]]; [tauto|tauto|]. right. right. exact (subl _ _ _ _ sub_drep H).
Qed.
Lemma live_reg p s : PA p s -> incl (g_live s) (g_reg s).
Proof. intros A h H. apply (Permutation_in h (Permutation_sym (a_reg _ _ A))). rewrite !in_app_iff. tauto. Qed.

Lemma map_id_malloc h l : map d_id (map (ds_malloc h) l) = map d_id l.
Proof. rewrite map_map. reflexivity. Qed.
Lemma ds_free_id h d : d_id (ds_free h d) = d_id d.
Proof. unfold ds_free. destruct (member _ _); reflexivity. Qed.
Lemma ds_seed_id id f l d : d_id (ds_seed id f l d) = d_id d.
Proof. unfold ds_seed. destruct (_ =? _); reflexivity. Qed.

Lemma same_id (l : list dsession) a b : NoDup (map d_id l) -> In a l -> In b l -> d_id a = d_id b -> a = b.
Proof.
  induction l as [|c l IH]; [intros _ []|]. cbn [map]. intros Nd. inversion Nd; subst. intros [->|Ha] [->|Hb] E; [reflexivity| | |exact (IH H2 Ha Hb E)].
  - exfalso. apply H1. rewrite E. apply in_map. exact Hb.
  - exfalso. apply H1. rewrite <- E. apply in_map. exact Ha.
Qed.

Ltac pdf t q E :=
  match goal with D : PD ?p ?s |- _ =>
    apply (PD_frame p s _ t q D); [psimp; reflexivity|psimp; reflexivity|psimp; reflexivity|psimp; reflexivity|psimp; reflexivity|rewrite E; reflexivity] end.

Lemma PD_step p s t found s' l : PA p s -> PB p s -> PD p s -> 0 <= t < p_nthr p -> iter_ok s t found -> pstep p s t found = Some (s', l) -> PD p s'.
Proof.
  intros A B D Ht Hit. unfold pstep, iter_ok in *.
  destruct (g_pc s t) as [|x|h|h|h|h|h|h|h|h|h v|h r0 e0|h|h|h|h|r0 e0|id r0 e0] eqn:E; intros H; try discriminate H.
  - injection H as <- <-. pdf t (M2 (g_gen s + 1)) E.
  - injection H as <- <-. pdf t (M3 h) E.
  - injection H as <- <-. pdf t (M4 h) E.
  - (* M4 *) destruct (g_dlock s) eqn:El; [discriminate|]. injection H as <- <-.
    pose proof (no_seed _ _ D El) as Ns.
    assert (Hh : In h (hheld (g_pc s t))) by (rewrite E; left; reflexivity).
    assert (Hnd : ~ In h (g_drep s)).
    { intros X. apply (held_stage p s t h hdrep _ A Ht Hh) in X; [rewrite E in X; exact X|exact sub_drep|exact (a_drep _ _ A)]. }
    destruct (held_not_live _ _ _ _ A Ht Hh) as [_ Hx].
    assert (Ns' : forall t', 0 <= t' < p_nthr p -> seed_of (upd (g_pc s) t (M5 h) t') = None).
    { intros t' Ht'. destruct (Z.eq_dec t' t) as [->|N]; [rewrite upd_same; reflexivity|rewrite upd_other by exact N; exact (Ns _ Ht')]. }
    destruct D as [D1 D2 D3 D4 D5 D6]. constructor; psimp.
    + intros t' X. discriminate X.
    + intros t' Ht' X. rewrite (Ns' _ Ht') in X. congruence.
    + rewrite map_id_malloc. exact D3.
    + intros d Hd. apply in_map_iff in Hd. destruct Hd as (d0 & <- & Hd). apply dok_malloc; [exact (D4 _ Hd)|exact Hnd|exact Hx|].
      intros x. exact (dead_drep p s x A).
    + intros d Hd _. apply in_map_iff in Hd. destruct Hd as (d0 & <- & Hd). apply seen_malloc. apply (D5 _ Hd).
      intros t' r e Ht'. rewrite (Ns _ Ht'). discriminate.
    + intros t' id r e Ht' X. rewrite (Ns' _ Ht') in X. discriminate X.
  - injection H as <- <-. pdf t (M6 h) E.
  - injection H as <- <-. pdf t (M7 h) E.
  - destruct (_ || _); injection H as <- <-; [pdf t PIdle E|pdf t (M8 h) E].
  - destruct (g_plock s); [discriminate|]. destruct (negb _); injection H as <- <-; [pdf t PIdle E|pdf t (M9 h) E].
  - injection H as <- <-. pdf t (M10 h (g_size s)) E.
  - injection H as <- <-. pdf t (M11 h (g_reg s) (g_ever s)) E.
  - injection H as <- <-. pdf t PIdle E.
  - injection H as <- <-. pdf t (F2 h) E.
  - injection H as <- <-. pdf t (F3 h) E.
  - destruct (_ <=? _) in H; [|discriminate]. injection H as <- <-. pdf t (F4 h) E.
  - (* F4 *) destruct (g_dlock s) eqn:El; [discriminate|]. injection H as <- <-.
    pose proof (no_seed _ _ D El) as Ns.
    assert (Hh : In h (hheld (g_pc s t))) by (rewrite E; left; reflexivity).
    destruct (held_not_live _ _ _ _ A Ht Hh) as [_ Hx].
    assert (Ns' : forall t', 0 <= t' < p_nthr p -> seed_of (upd (g_pc s) t PIdle t') = None).
    { intros t' Ht'. destruct (Z.eq_dec t' t) as [->|N]; [rewrite upd_same; reflexivity|rewrite upd_other by exact N; exact (Ns _ Ht')]. }
    destruct D as [D1 D2 D3 D4 D5 D6]. constructor; psimp.
    + intros t' X. discriminate X.
    + intros t' Ht' X. rewrite (Ns' _ Ht') in X. congruence.
    + rewrite map_map. rewrite (map_ext _ d_id) by (intros d; apply ds_free_id). exact D3.
    + intros d Hd. apply in_map_iff in Hd. destruct Hd as (d0 & <- & Hd). apply dok_free; [exact (D4 _ Hd)|exact Hx].
    + intros d Hd _. apply in_map_iff in Hd. destruct Hd as (d0 & <- & Hd). apply (seen_free _ (g_dead s)); [exact (D4 _ Hd)|]. apply (D5 _ Hd).
      intros t' r e Ht'. rewrite (Ns _ Ht'). discriminate.
    + intros t' id r e Ht' X. rewrite (Ns' _ Ht') in X. discriminate X.
  - injection H as <- <-. pdf t PIdle E.
  - (* Seed *) injection H as <- <-.
    assert (El : g_dlock s = Some t) by (apply (e_dl2 _ _ D t Ht); rewrite E; discriminate).
    destruct (e_seed _ _ D t id r0 e0 Ht) as (Hdd & d1 & I1 & I2 & I3 & I4 & I5 & I6); [rewrite E; reflexivity|].
    destruct (b_iter _ _ B t r0 e0 Ht) as (J1 & J2 & J3); [rewrite E; reflexivity|].
    destruct Hit as (K1 & K2 & K3).
    assert (Ns : forall t', 0 <= t' < p_nthr p -> t' <> t -> seed_of (g_pc s t') = None).
    { intros t' Ht' N. destruct (seed_of (g_pc s t')) eqn:X; [|reflexivity]. assert (Y : g_dlock s = Some t') by (apply (e_dl2 _ _ D t' Ht'); congruence). congruence. }
    assert (Ns' : forall t', 0 <= t' < p_nthr p -> seed_of (upd (g_pc s) t PIdle t') = None).
    { intros t' Ht'. destruct (Z.eq_dec t' t) as [->|N]; [rewrite upd_same; reflexivity|rewrite upd_other by exact N; exact (Ns _ Ht' N)]. }
    assert (Hlr : incl (g_live s) (g_reg s)) by exact (live_reg p s A).
    assert (Hed : incl (g_ever s) (g_drep s)) by exact (ever_drep p s A).
    destruct D as [D1 D2 D3 D4 D5 D6]. constructor; psimp.
    + intros t' X. discriminate X.
    + intros t' Ht' X. rewrite (Ns' _ Ht') in X. congruence.
    + rewrite map_map. rewrite (map_ext _ d_id) by (intros d; apply ds_seed_id). exact D3.
    + intros d Hd. apply in_map_iff in Hd. destruct Hd as (d0 & <- & Hd). unfold ds_seed. destruct (Z.eqb_spec (d_id d0) id) as [Ei|Ni]; [|exact (D4 _ Hd)].
      assert (d0 = d1) as -> by (apply (same_id (g_ds s)); [exact D3|exact Hd|exact I1|congruence]).
      destruct (D4 _ I1) as [Q1 Q2 Q3]. constructor; cbn [d_out d_tab d_dead]; rewrite ?I3, ?I4, ?app_nil_r in *; cbn [map app] in *.
      * exact K1.
      * intros h Hh. destruct (K3 _ Hh) as [X|[X Y]].
        { split; [apply Hed, J2, J1; exact X|]. intros Z. apply Hdd in Z. tauto. }
        { split; [apply Hed; exact X|]. intros Z. apply Hdd in Z. tauto. }
      * exact Q3.
    + intros d Hd _. apply in_map_iff in Hd. destruct Hd as (d0 & <- & Hd). unfold ds_seed. destruct (Z.eqb_spec (d_id d0) id) as [Ei|Ni].
      * assert (d0 = d1) as -> by (apply (same_id (g_ds s)); [exact D3|exact Hd|exact I1|congruence]).
        intros h Hh Hc. cbn [d_out d_tab d_live d_gen] in *. left. rewrite in_app_iff. left. destruct Hc as [Hc|Hc].
        { apply filter_In in Hc. destruct Hc as [X Y]. apply member_iff in Y. apply K2; [apply I6; exact X|apply Hlr; exact Y]. }
        { apply I5 in Hh. lia. }
      * apply (D5 _ Hd). intros t' r e Ht'. destruct (Z.eq_dec t' t) as [->|N]; [rewrite E; cbn [seed_of]; congruence|rewrite (Ns _ Ht' N); discriminate].
    + intros t' id' r e Ht' X. rewrite (Ns' _ Ht') in X. discriminate X.
Qed.

Lemma dok_new s id : dok (g_drep s) (g_dead s) (DS id [] [] (g_live s) (g_dead s) (g_gen s)).
Proof. constructor; cbn [d_out d_tab d_dead map app]; [constructor|intros h []|reflexivity]. Qed.

Lemma PD_call p s t o s' l : PA p s -> PB p s -> PD p s -> 0 <= t < p_nthr p -> g_pc s t = PIdle -> pcall s t o = Some (s', l) -> PD p s'.
Proof.
  intros A B D Ht E H. destruct o as [x|h| | |id|id|id|id]; cbn [pcall] in H.
  - injection H as <- <-. pdf t (M1 x) E.
  - destruct (member h (g_live s)) eqn:Em; [|discriminate]. injection H as <- <-. pdf t (F1 h) E.
  - injection H as <- <-. pdf t (Dump (g_reg s) (g_ever s)) E.
  - destruct (g_plock s); [discriminate|]. injection H as <- <-. exact D.
  - destruct (member id _) eqn:Em; [discriminate|]. injection H as <- <-. destruct D as [D1 D2 D3 D4 D5 D6]. constructor; psimp; assumption.
  - destruct (find _ _); [|discriminate]. injection H as <- <-. destruct D as [D1 D2 D3 D4 D5 D6]. constructor; psimp; assumption.
  - destruct (member id _) eqn:Em; [discriminate|]. apply member_false in Em. destruct (g_dlock s) eqn:El; [discriminate|]. injection H as <- <-.
    pose proof (no_seed _ _ D El) as Ns. destruct D as [D1 D2 D3 D4 D5 D6].
    constructor; psimp.
    + intros t' X. injection X as <-. rewrite upd_same. split; [exact Ht|discriminate].
    + intros t' Ht' X. destruct (Z.eq_dec t' t) as [->|N]; [reflexivity|]. rewrite upd_other in X by exact N. rewrite (Ns _ Ht') in X. congruence.
    + cbn [map d_id]. constructor; assumption.
    + intros d [<-|Hd]; [exact (dok_new s id)|exact (D4 _ Hd)].
    + intros d [<-|Hd] X.
      * exfalso. apply (X t (g_reg s) (g_ever s) Ht). rewrite upd_same. reflexivity.
      * apply (D5 _ Hd). intros t' r e Ht'. rewrite (Ns _ Ht'). discriminate.
    + intros t' id' r e Ht' X. destruct (Z.eq_dec t' t) as [->|N]; [rewrite upd_same in X|rewrite upd_other in X by exact N; rewrite (Ns _ Ht') in X; discriminate X].
      cbn [seed_of] in X. injection X as <- <- <-. split; [intros h Hh; exact (dead_ever p s h A Hh)|].
      eexists. split; [left; reflexivity|]. cbn [d_id d_tab d_out d_gen d_live]. repeat (split; [reflexivity|]).
      split; [intros h Hh; exact (drep_gen p s h A Hh)|exact (live_reg p s A)].
  - destruct (g_dlock s) eqn:El; [discriminate|]. destruct (find _ _); [|discriminate]. injection H as <- <-.
    pose proof (no_seed _ _ D El) as Ns. destruct D as [D1 D2 D3 D4 D5 D6]. constructor; psimp.
    + intros t' X. discriminate X.
    + intros t' Ht' X. rewrite (Ns _ Ht') in X. congruence.
    + apply NoDup_map_filter. exact D3.
    + intros d' Hd. apply D4. apply filter_In in Hd. tauto.
    + intros d' Hd X. apply D5; [apply filter_In in Hd; tauto|exact X].
    + intros t' id' r e Ht' X. rewrite (Ns _ Ht') in X. discriminate X.
Qed.

(** ** Everything together *)
Record PI (p : ppar) (s : pstate) : Prop := { i_a : PA p s; i_b : PB p s; i_d : PD p s }.

Lemma PI_move p s m s' : PI p s -> pmove p s m s' -> PI p s'.
Proof.
  intros [A B D] H. destruct H as [s t o s' l Ht E H|s t f s' l Ht Hf H].
  - constructor; [exact (PA_call _ _ _ _ _ _ A Ht E H)|exact (PB_call _ _ _ _ _ _ A B Ht E H)|exact (PD_call _ _ _ _ _ _ A B D Ht E H)].
  - constructor; [exact (PA_step _ _ _ _ _ _ A Ht H)|exact (PB_step _ _ _ _ _ _ A B Ht H)|exact (PD_step _ _ _ _ _ _ A B D Ht Hf H)].
Qed.
Lemma PI_runs p s ms s' : PI p s -> pruns p s ms s' -> PI p s'.
Proof. intros I H. induction H as [|s m s1 ms s2 H1 H2 IH]; [exact I|]. exact (IH (PI_move _ _ _ _ I H1)). Qed.
Lemma PI_reach p s : preach p s -> PI p s.
Proof. intros (ms & H). refine (PI_runs _ _ _ _ _ H). constructor; [apply PA_init|apply PB_init|apply PD_init]. Qed.
