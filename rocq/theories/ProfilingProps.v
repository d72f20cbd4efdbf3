(** The profiles are exact (C45). *)
From Coq Require Import Permutation.
From Verif Require Import Base TransferCache Flow FlowProofs ThreadCacheProofs ThreadCacheProps Profiling ProfilingProofs ProfilingLife.

(** ** The specification *)
(** No thread is in a call. *)
Definition quiet (p : ppar) (s : pstate) : Prop := forall t, 0 <= t < p_nthr p -> g_pc s t = PIdle.
(** [h] was returned by malloc: the program has it, is freeing it, or has freed it. *)
Definition freeing (q : ppc) : list Z := match q with F1 h | F2 h | F3 h | F4 h => [h] | _ => [] end.
Definition returned (p : ppar) (s : pstate) (h : Z) : Prop :=
  In h (g_live s) \/ In h (g_dead s) \/ exists t, 0 <= t < p_nthr p /\ In h (freeing (g_pc s t)).
(** The thread [t] takes no step. *)
Definition waits (t : Z) (ms : list (Z * plabel)) : Prop := forall m, In m ms -> fst m <> t.
Definition not_stopped (id : Z) (ms : list (Z * plabel)) : Prop :=
  forall m, In m ms -> (forall l, snd m <> PAlloc id l) /\ (forall o r, snd m <> PLife id o r).
Fixpoint total (b : sample -> Z) (info : Z -> sample) (l : list Z) : Z := match l with [] => 0 | h :: r => b (info h) + total b info r end.

Lemma total_wsum b i l : total b i l = wsum b i l.
Proof. induction l as [|h l IH]; [reflexivity|]. rewrite wsum_cons. cbn [total]. rewrite IH. reflexivity. Qed.

(** ** What a move keeps *)
Lemma other_pc p s t l s' t' : pmove p s (t, l) s' -> t' <> t -> g_pc s' t' = g_pc s t'.
Proof.
  intros H N. inversion H; subst.
  - destruct o; cbn [pcall] in *; repeat match goal with X : context [match ?d with _ => _ end] |- _ => destruct d; try discriminate X end;
      match goal with X : Some _ = Some _ |- _ => injection X as <- <- end; psimp; rewrite ?upd_other by exact N; reflexivity.
  - match goal with X : pstep _ _ _ _ = _ |- _ => unfold pstep in X; rename X into Hx end.
    destruct (g_pc s t); try discriminate Hx; repeat match goal with X : context [match ?d with _ => _ end] |- _ => destruct d; try discriminate X end;
      injection Hx as <- <-; psimp; rewrite ?upd_other by exact N; reflexivity.
Qed.
Lemma waits_pc p s ms s' t : pruns p s ms s' -> waits t ms -> g_pc s' t = g_pc s t.
Proof.
  intros H. induction H as [|s [t1 l] s1 ms s2 H1 H2 IH]; intros W; [reflexivity|]. rewrite IH by (intros m Hm; apply W; right; exact Hm).
  apply (other_pc _ _ _ _ _ _ H1). intros ->. apply (W (t1, l)); [left; reflexivity|reflexivity].
Qed.

Lemma move_grows p s m s' : pmove p s m s' -> incl (g_dead s) (g_dead s') /\ g_gen s <= g_gen s'.
Proof.
  intros H. inversion H; subst.
  - destruct o; cbn [pcall] in *; repeat match goal with X : context [match ?d with _ => _ end] |- _ => destruct d; try discriminate X end;
      match goal with X : Some _ = Some _ |- _ => injection X as <- <- end; psimp; (split; [apply incl_refl|lia]).
  - match goal with X : pstep _ _ _ _ = _ |- _ => unfold pstep in X; rename X into Hx end.
    destruct (g_pc s t); try discriminate Hx; repeat match goal with X : context [match ?d with _ => _ end] |- _ => destruct d; try discriminate X end;
      injection Hx as <- <-; psimp; (split; [first [apply incl_refl|apply incl_tl, incl_refl]|lia]).
Qed.
Lemma runs_grow p s ms s' : pruns p s ms s' -> incl (g_dead s) (g_dead s') /\ g_gen s <= g_gen s'.
Proof.
  intros H. induction H as [|s m s1 ms s2 H1 H2 IH]; [split; [apply incl_refl|lia]|].
  destruct (move_grows _ _ _ _ H1), IH. split; [eapply incl_tran; eassumption|lia].
Qed.

(** ** Theorems *)
(** No two samples have the same handle. *)
Theorem profile_handles p s : preach p s -> NoDup (g_live s ++ g_dead s) /\ forall h, returned p s h -> 0 < h <= g_gen s.
Proof.
  intros R. apply PI_reach in R. destruct R as [A B D]. split.
  - pose proof (a_nd _ _ A) as Nd. rewrite app_assoc in Nd. exact (NoDup_app_l' _ _ Nd).
  - intros h H. apply (a_gen _ _ A). rewrite !in_app_iff. destruct H as [H|[H|(t & Ht & H)]]; [tauto|tauto|]. right. right. apply fm_In. exists t.
    split; [exact Ht|]. destruct (g_pc s t); cbn in *; tauto.
Qed.
Print Assumptions profile_handles.

(** When no call is in progress the counters are the sums over the objects that the program has. *)
Theorem profile_counters p s : preach p s -> quiet p s ->
  g_size s = total (p_bytes p) (g_info s) (g_live s) /\ g_frag s = total (p_frag p) (g_info s) (g_live s) /\
  g_count s = Z.of_nat (length (g_live s) + length (g_dead s)) /\ Permutation (g_reg s) (g_live s).
Proof.
  intros R Q. apply PI_reach in R. destruct R as [A B D]. rewrite !total_wsum.
  assert (N : forall f, f PIdle = [] -> fm p f (g_pc s) = []) by (intros f Hf; apply fm_nil; intros t Ht; rewrite (Q _ Ht); exact Hf).
  rewrite (a_size _ _ A), (a_frag _ _ A), (a_cnt _ _ A). rewrite !N by reflexivity. rewrite !app_nil_r.
  split; [reflexivity|]. split; [reflexivity|]. split; [unfold zlen; rewrite app_length; reflexivity|].
  pose proof (a_reg _ _ A) as X. rewrite N in X by reflexivity. rewrite app_nil_r in X. exact X.
Qed.
Print Assumptions profile_counters.

(** The fragmentation counter never wraps around: the check of allocation_sampling.h:387 cannot fail. *)
Theorem profile_no_wrap p s t h : ppar_ok p -> preach p s -> 0 <= t < p_nthr p -> g_pc s t = F3 h ->
  p_frag p (g_info s h) <= g_frag s /\ 0 <= g_size s.
Proof.
  intros (O1 & O2 & _) R Ht E. apply PI_reach in R. destruct R as [A B D]. rewrite (a_frag _ _ A), (a_size _ _ A). split; [|apply wsum_nonneg; exact O2].
  destruct (fm_upd p hfrag (g_pc s) t Ht) as (R & X & _). rewrite E in X. rewrite wsum_app, (wsum_perm _ _ _ _ X), wsum_app.
  pose proof (wsum_nonneg (p_frag p) (g_info s) (g_live s) O1). pose proof (wsum_nonneg (p_frag p) (g_info s) R O1).
  cbn [hfrag]. rewrite wsum_cons. change (wsum (p_frag p) (g_info s) []) with 0. lia.
Qed.
Print Assumptions profile_no_wrap.

(** The heap profile: the thread [t] begins it in [s0] and has it in [s2].  It has every object that the program had from [s0] to
    [s2], none that had been freed when it began, and each once. *)
Theorem heap_profile p s0 t s1 l1 ms s2 found s3 l :
  preach p s0 -> 0 <= t < p_nthr p -> g_pc s0 t = PIdle -> pcall s0 t OHeap = Some (s1, l1) ->
  pruns p s1 ms s2 -> waits t ms -> iter_ok s2 t found -> pstep p s2 t found = Some (s3, PHeap l) ->
  NoDup l /\ (forall h, In h (g_live s0) -> In h (g_live s2) -> In h l) /\ (forall h, In h l -> ~ In h (g_dead s0) /\ h <= g_gen s2).
Proof.
  intros R Ht E C M W Hit S. pose proof (PI_reach _ _ R) as I0.
  assert (I2 : PI p s2). { refine (PI_runs _ _ _ _ _ M). refine (PI_move p s0 (t, l1) s1 I0 _). exact (PM_call p s0 t OHeap s1 l1 Ht E C). }
  cbn [pcall] in C. injection C as <- <-. pose proof (waits_pc _ _ _ _ _ M W) as Epc. psimp. rewrite upd_same in Epc.
  unfold pstep in S. unfold iter_ok in Hit. rewrite Epc in *. injection S as <- <-. destruct Hit as (K1 & K2 & K3).
  destruct I0 as [A0 _ _], I2 as [A2 B2 _]. destruct (b_iter _ _ B2 t _ _ Ht ltac:(rewrite Epc; reflexivity)) as (J1 & J2 & J3).
  split; [exact K1|]. split.
  - intros h H0 H2. apply K2; [exact (live_reg p s0 A0 h H0)|exact (live_reg p s2 A2 h H2)].
  - intros h Hh. split.
    + intros X. apply (dead_ever p s0 h A0) in X. destruct (K3 _ Hh) as [Y|[_ Y]]; tauto.
    + apply (drep_gen p s2 h A2), (ever_drep p s2 A2). destruct (K3 _ Hh) as [Y|[Y _]]; [apply J2, J1; exact Y|exact Y].
Qed.
Print Assumptions heap_profile.

(** An allocation profile, started in [s0] and stopped in [s2]: every malloc that began and returned meanwhile is in it, none that
    returned before or began after, and each once. *)
Lemma returned_rep p s h : PA p s -> returned p s h -> In h (g_rep s).
Proof.
  intros A H. apply (Permutation_in h (Permutation_sym (a_rep _ _ A))). rewrite !in_app_iff. destruct H as [H|[H|(t & Ht & H)]]; [tauto|tauto|].
  right. right. apply fm_In. exists t. split; [exact Ht|]. destruct (g_pc s t); cbn in *; tauto.
Qed.
Lemma rep_gen p s h : PA p s -> In h (g_rep s) -> h <= g_gen s.
Proof.
  intros A H. apply (Permutation_in h (a_rep _ _ A)) in H. apply (a_gen _ _ A). rewrite !in_app_iff in *.
  destruct H as [H|[H|H]]; [tauto|tauto|]. right. right. exact (subl _ _ _ _ sub_rep H).
Qed.
Lemma fm_nodup p f pc : (forall q, f q = [] \/ f q = hheld q) -> NoDup (fm p hheld pc) -> NoDup (fm p f pc).
Proof.
  intros Hf. unfold fm. induction (thr p) as [|t L IH]; [constructor|]. cbn [flat_map]. intros Nd.
  pose proof (NoDup_app_r' _ _ Nd) as Nr. destruct (Hf (pc t)) as [->| ->]; [exact (IH Nr)|].
  pose proof (NoDup_app_l' _ _ Nd) as Nl. specialize (IH Nr).
  assert (Di : forall x, In x (hheld (pc t)) -> ~ In x (flat_map (fun u => f (pc u)) L)).
  { intros x Hx Hy. apply (NoDup_app_disj _ _ x Nd Hx). rewrite in_flat_map in *. destruct Hy as (u & U1 & U2). exists u. split; [exact U1|].
    destruct (Hf (pc u)) as [Z|Z]; rewrite Z in U2; [destruct U2|exact U2]. }
  clear - Nl IH Di. induction (hheld (pc t)) as [|a m IHm]; [exact IH|]. cbn [app]. inversion Nl; subst. constructor.
  - rewrite in_app_iff. intros [X|X]; [contradiction|]. exact (Di a (or_introl eq_refl) X).
  - apply IHm; [assumption|]. intros x Hx. apply Di. right. exact Hx.
Qed.
Lemma app_nodup (l m : list Z) : NoDup l -> NoDup m -> (forall x, In x l -> ~ In x m) -> NoDup (l ++ m).
Proof.
  induction l as [|a l IH]; [intros _ H _; exact H|]. intros H1 H2 H3. cbn [app]. inversion H1; subst. constructor.
  - rewrite in_app_iff. intros [X|X]; [contradiction|]. exact (H3 a (or_introl eq_refl) X).
  - apply IH; [assumption|assumption|]. intros x Hx. apply H3. right. exact Hx.
Qed.
Lemma rep_nodup p s : PA p s -> NoDup (g_rep s).
Proof.
  intros A. apply (Permutation_NoDup (Permutation_sym (a_rep _ _ A))). pose proof (a_nd _ _ A) as Nd.
  pose proof (NoDup_app_r' _ _ (NoDup_app_r' _ _ Nd)) as Nh. pose proof (NoDup_app_l' _ _ (NoDup_app_r' _ _ Nd)) as Nx.
  assert (Nf : NoDup (fm p hrep (g_pc s))) by (apply fm_nodup; [intros q; destruct q; cbn; tauto|exact Nh]).
  apply app_nodup; [exact (NoDup_app_l' _ _ Nd)|apply app_nodup; [exact Nx|exact Nf|]|].
  - intros x Hx Hy. apply (subl _ _ _ _ sub_rep) in Hy. exact (NoDup_app_disj _ _ x (NoDup_app_r' _ _ Nd) Hx Hy).
  - intros x Hx Hy. apply (NoDup_app_disj _ _ x Nd Hx). rewrite in_app_iff in *. destruct Hy as [Hy|Hy]; [tauto|]. right. exact (subl _ _ _ _ sub_rep Hy).
Qed.

Lemma as_keep p s m s' id a : pmove p s m s' -> (forall l, snd m <> PAlloc id l) -> In a (g_as s) -> a_id a = id ->
  exists a', In a' (g_as s') /\ a_id a' = id /\ a_before a' = a_before a.
Proof.
  intros H Hn Ha Hid. inversion H; subst; cbn [snd] in Hn.
  - destruct o as [x|h| | |i|i|i|i]; cbn [pcall] in *;
      try (repeat match goal with X : context [match ?d with _ => _ end] |- _ => destruct d; try discriminate X end;
        match goal with X : Some _ = Some _ |- _ => injection X as <- <- end; psimp; exists a; split; [first [exact Ha|right; exact Ha]|split; reflexivity]).
    destruct (find (fun a => a_id a =? i) (g_as s)) as [a0|] eqn:Ef; [|discriminate].
    match goal with X : Some _ = Some _ |- _ => injection X as <- <- end. psimp.
    exists a. split; [|split; reflexivity]. apply filter_In. split; [exact Ha|]. destruct (Z.eqb_spec (a_id a) i) as [Ei|Ni]; [|reflexivity].
    exfalso. apply (Hn (a_got a0)). rewrite Ei. reflexivity.
  - match goal with X : pstep _ _ _ _ = _ |- _ => unfold pstep in X; rename X into Hx end.
    destruct (g_pc s t); try discriminate Hx; repeat match goal with X : context [match ?d with _ => _ end] |- _ => destruct d; try discriminate X end;
      injection Hx as <- <-; psimp; try (exists a; split; [exact Ha|split; reflexivity]).
    exists (as_report h a). split; [apply in_map; exact Ha|split; reflexivity].
Qed.
Lemma as_runs p s ms s' id a : pruns p s ms s' -> (forall m, In m ms -> forall l, snd m <> PAlloc id l) -> In a (g_as s) -> a_id a = id ->
  exists a', In a' (g_as s') /\ a_id a' = id /\ a_before a' = a_before a.
Proof.
  intros H. revert a. induction H as [|s m s1 ms s2 H1 H2 IH]; intros a Hn Ha Hid; [exists a; split; [exact Ha|split; [exact Hid|reflexivity]]|].
  destruct (as_keep _ _ _ _ _ _ H1 (Hn m (or_introl eq_refl)) Ha Hid) as (a1 & X & Y & Z).
  destruct (IH a1 (fun m' Hm => Hn m' (or_intror Hm)) X Y) as (a2 & X' & Y' & Z'). exists a2. split; [exact X'|]. split; [exact Y'|congruence].
Qed.
Lemma same_aid (l : list asession) a b : NoDup (map a_id l) -> In a l -> In b l -> a_id a = a_id b -> a = b.
Proof.
  induction l as [|c l IH]; [intros _ []|]. cbn [map]. intros Nd. inversion Nd; subst. intros [->|Ha] [->|Hb] E; [reflexivity| | |exact (IH H2 Ha Hb E)].
  - exfalso. apply H1. rewrite E. apply in_map. exact Hb.
  - exfalso. apply H1. rewrite <- E. apply in_map. exact Ha.
Qed.

Theorem allocation_profile p s0 t id s1 l1 ms s2 t' s3 l :
  preach p s0 -> 0 <= t < p_nthr p -> g_pc s0 t = PIdle -> pcall s0 t (OAStart id) = Some (s1, l1) ->
  pruns p s1 ms s2 -> not_stopped id ms -> pcall s2 t' (OAStop id) = Some (s3, PAlloc id l) ->
  NoDup l /\ (forall h, g_gen s0 < h -> returned p s2 h -> In h l) /\ (forall h, In h l -> ~ returned p s0 h /\ h <= g_gen s2).
Proof.
  intros R Ht E C M W S. pose proof (PI_reach _ _ R) as I0.
  assert (I2 : PI p s2). { refine (PI_runs _ _ _ _ _ M). refine (PI_move p s0 (t, l1) s1 I0 _). exact (PM_call p s0 t (OAStart id) s1 l1 Ht E C). }
  cbn [pcall] in C, S. destruct (member id (map a_id (g_as s0))); [discriminate|]. injection C as <- <-.
  destruct (find (fun a => a_id a =? id) (g_as s2)) as [a|] eqn:Ef; [|discriminate]. injection S as <- <-. apply find_some in Ef. destruct Ef as [Ha Hi]. apply Z.eqb_eq in Hi.
  destruct (as_runs _ _ _ _ id (AS id [] (g_rep s0)) M (fun m Hm => proj1 (W m Hm))) as (a' & X & Y & Z); [left; reflexivity|reflexivity|].
  destruct I0 as [A0 _ _], I2 as [A2 B2 _]. assert (a' = a) as -> by (apply (same_aid (g_as s2)); [exact (b_aid _ _ B2)|exact X|exact Ha|congruence]).
  cbn [a_before] in Z. pose proof (b_as _ _ B2 _ Ha) as P. rewrite Z in P. pose proof (Permutation_NoDup P (rep_nodup _ _ A2)) as Nd.
  split; [exact (NoDup_app_l' _ _ Nd)|]. split.
  - intros h Hg Hr. apply (returned_rep _ _ _ A2) in Hr. apply (Permutation_in h P) in Hr. rewrite in_app_iff in Hr. destruct Hr as [Hr|Hr]; [exact Hr|].
    apply (rep_gen p s0 h A0) in Hr. lia.
  - intros h Hl. split.
    + intros Hr. apply (returned_rep _ _ _ A0) in Hr. exact (NoDup_app_disj _ _ h Nd Hl Hr).
    + apply (rep_gen p s2 h A2). apply (Permutation_in h (Permutation_sym P)). rewrite in_app_iff. left. exact Hl.
Qed.
Print Assumptions allocation_profile.

(** A lifetime profile: the thread [t] begins to start it in [s0], and the start ends in [s2]; it is stopped in [s4].  It has a record
    of every free that ended between [s0] and [s4] and of no other, and lists the objects allocated and not freed, each once; an object
    allocated after [s0], or that the program had in [s0] and in [s2], is never reported as freed without its allocation, and is
    listed while the program has it. *)
Lemma ds_keep p s m s' d : pmove p s m s' -> (forall o r, snd m <> PLife (d_id d) o r) -> In d (g_ds s) ->
  exists d', In d' (g_ds s') /\ d_id d' = d_id d /\ d_dead d' = d_dead d /\ d_gen d' = d_gen d /\
    ((forall r e, seed_of (g_pc s (fst m)) <> Some (d_id d, r, e)) -> d_live d' = d_live d).
Proof.
  intros H Hn Hd. inversion H; subst; cbn [snd fst] in *.
  - destruct o as [x|h| | |i|i|i|i]; cbn [pcall] in *;
      try (repeat match goal with X : context [match ?d with _ => _ end] |- _ => destruct d; try discriminate X end;
        match goal with X : Some _ = Some _ |- _ => injection X as <- <- end; psimp; exists d; split; [first [exact Hd|right; exact Hd]|repeat (split; [reflexivity|]); reflexivity]).
    destruct (g_dlock s); [discriminate|]. destruct (find (fun d => d_id d =? i) (g_ds s)) as [d0|] eqn:Ef; [|discriminate].
    match goal with X : Some _ = Some _ |- _ => injection X as <- <- end. psimp.
    exists d. split; [|repeat (split; [reflexivity|]); reflexivity]. apply filter_In. split; [exact Hd|]. destruct (Z.eqb_spec (d_id d) i) as [Ei|Ni]; [|reflexivity].
    exfalso. apply (Hn (d_out d0) (d_tab d0)). rewrite Ei. reflexivity.
  - match goal with X : pstep _ _ _ _ = _ |- _ => unfold pstep in X; rename X into Hx end.
    destruct (g_pc s t) eqn:E; try discriminate Hx; repeat match goal with X : context [match ?d with _ => _ end] |- _ => destruct d eqn:?; try discriminate X end;
      try (injection Hx as <- <-; psimp; exists d; split; [exact Hd|repeat (split; [reflexivity|]); reflexivity]).
    + injection Hx as <- <-. psimp. exists (ds_malloc h d). split; [apply in_map; exact Hd|]. repeat (split; [reflexivity|]). reflexivity.
    + injection Hx as <- <-. psimp. exists (ds_free h d). split; [apply in_map; exact Hd|]. unfold ds_free. destruct (member _ _); repeat (split; [reflexivity|]); reflexivity.
    + injection Hx as <- <-. psimp. exists (ds_seed id found (g_live s) d). split; [apply (in_map (ds_seed id found (g_live s))); exact Hd|].
      unfold ds_seed. destruct (Z.eqb_spec (d_id d) id) as [Ei|Ni]; repeat (split; [reflexivity|]); [|reflexivity].
      intros X. exfalso. apply (X reg0 ever0). rewrite Ei. reflexivity.
Qed.

(** While the thread [t] seeds the profile. *)
Lemma ds_runs1 p s ms s' t d r e : PI p s -> pruns p s ms s' -> waits t ms -> 0 <= t < p_nthr p -> seed_of (g_pc s t) = Some (d_id d, r, e) -> In d (g_ds s) ->
  exists d', In d' (g_ds s') /\ d_id d' = d_id d /\ d_dead d' = d_dead d /\ d_gen d' = d_gen d /\ d_live d' = d_live d.
Proof.
  intros I H. revert d. induction H as [|s m s1 ms s2 H1 H2 IH]; intros d W Ht Hs Hd; [exists d; split; [exact Hd|repeat (split; [reflexivity|]); reflexivity]|].
  assert (Hl : g_dlock s = Some t) by (apply (e_dl2 _ _ (i_d _ _ I) t Ht); congruence).
  assert (Hnt : fst m <> t) by (apply W; left; reflexivity).
  destruct (ds_keep _ _ _ _ d H1) as (d1 & X1 & X2 & X3 & X4 & X5).
  { intros o q Eq. inversion H1; subst; cbn [snd fst] in *; subst.
    - destruct o0; cbn [pcall] in *; repeat match goal with X : context [match ?d with _ => _ end] |- _ => destruct d; try discriminate X end; congruence.
    - match goal with X : pstep _ _ _ _ = _ |- _ => unfold pstep in X; rename X into Hx end.
      destruct (g_pc s t0); try discriminate Hx; repeat match goal with X : context [match ?d with _ => _ end] |- _ => destruct d; try discriminate X end; congruence. }
  { exact Hd. }
  assert (E1 : g_pc s1 t = g_pc s t) by (destruct m as [t1 l]; apply (other_pc _ _ _ _ _ _ H1); cbn [fst] in Hnt; congruence).
  assert (X5' : d_live d1 = d_live d).
  { apply X5. intros r' e' Eq. destruct m as [t1 l]. cbn [fst] in *. inversion H1; subst.
    - match goal with X : g_pc s t1 = PIdle |- _ => rewrite X in Eq end. discriminate Eq.
    - assert (Y : g_dlock s = Some t1) by (apply (e_dl2 _ _ (i_d _ _ I) t1); [assumption|congruence]). congruence. }
  destruct (IH (PI_move _ _ _ _ I H1) d1 (fun m' Hm => W m' (or_intror Hm)) Ht) as (d2 & Y1 & Y2 & Y3 & Y4 & Y5).
  { rewrite E1, X2. exact Hs. } { exact X1. }
  exists d2. split; [exact Y1|]. repeat (split; [congruence|]). congruence.
Qed.

(** Afterwards. *)
Lemma ds_runs2 p s ms s' d : PI p s -> pruns p s ms s' -> not_stopped (d_id d) ms -> In d (g_ds s) -> (forall t r e, 0 <= t < p_nthr p -> seed_of (g_pc s t) <> Some (d_id d, r, e)) ->
  exists d', In d' (g_ds s') /\ d_id d' = d_id d /\ d_dead d' = d_dead d /\ d_gen d' = d_gen d /\ d_live d' = d_live d.
Proof.
  intros I H. revert d. induction H as [|s m s1 ms s2 H1 H2 IH]; intros d W Hd Hs; [exists d; split; [exact Hd|repeat (split; [reflexivity|]); reflexivity]|].
  destruct (ds_keep _ _ _ _ d H1 (proj2 (W m (or_introl eq_refl))) Hd) as (d1 & X1 & X2 & X3 & X4 & X5).
  assert (Hs1 : forall t r e, 0 <= t < p_nthr p -> seed_of (g_pc s1 t) <> Some (d_id d1, r, e)).
  { intros t r e Ht Eq. rewrite X2 in Eq. destruct m as [t1 l]. destruct (Z.eq_dec t t1) as [->|N]; [|rewrite (other_pc _ _ _ _ _ _ H1 N) in Eq; exact (Hs _ _ _ Ht Eq)].
    inversion H1; subst.
    - destruct o as [x|h| | |i|i|i|i]; cbn [pcall] in *;
        repeat match goal with X : context [match ?d with _ => _ end] |- _ => destruct d eqn:?; try discriminate X end;
        match goal with X : Some _ = Some _ |- _ => injection X as <- <- end; psimp; rewrite ?upd_same in Eq; try discriminate Eq;
        try (match goal with X : g_pc s t1 = PIdle |- _ => rewrite X in Eq end; discriminate Eq).
      cbn [seed_of] in Eq. injection Eq as -> <- <-. match goal with X : member _ _ = false |- _ => apply member_false in X; apply X end. apply in_map. exact Hd.
    - match goal with X : pstep _ _ _ _ = _ |- _ => unfold pstep in X; rename X into Hx end.
      destruct (g_pc s t1); try discriminate Hx; repeat match goal with X : context [match ?d with _ => _ end] |- _ => destruct d; try discriminate X end;
        injection Hx as <- <-; psimp; rewrite upd_same in Eq; discriminate Eq. }
  destruct (IH (PI_move _ _ _ _ I H1) d1) as (d2 & Y1 & Y2 & Y3 & Y4 & Y5).
  { intros m' Hm. rewrite X2. apply W. right. exact Hm. } { exact X1. } { exact Hs1. }
  exists d2. split; [exact Y1|]. repeat (split; [congruence|]). rewrite Y5. apply X5. intros r e. apply Hs. inversion H1; subst; assumption.
Qed.

Lemma fst_unique (l : list (Z * bool)) h a b : NoDup (map fst l) -> In (h, a) l -> In (h, b) l -> a = b.
Proof.
  induction l as [|[x c] l IH]; [intros _ []|]. cbn [map fst]. intros Nd. inversion Nd; subst. intros [X|X] [Y|Y].
  - congruence.
  - exfalso. injection X as -> ->. apply H1. apply (in_map fst) in Y. exact Y.
  - exfalso. injection Y as -> ->. apply H1. apply (in_map fst) in X. exact X.
  - exact (IH H2 X Y).
Qed.

Theorem lifetime_profile p s0 t id s1 l1 ms1 s2 found s3 l3 ms2 s4 t' s5 out open :
  preach p s0 -> 0 <= t < p_nthr p -> g_pc s0 t = PIdle -> pcall s0 t (ODStart id) = Some (s1, l1) ->
  pruns p s1 ms1 s2 -> waits t ms1 -> iter_ok s2 t found -> pstep p s2 t found = Some (s3, l3) ->
  pruns p s3 ms2 s4 -> not_stopped id ms2 -> pcall s4 t' (ODStop id) = Some (s5, PLife id out open) ->
  NoDup (map fst out ++ open) /\
  (forall h, In h (map fst out) <-> In h (g_dead s4) /\ ~ In h (g_dead s0)) /\
  (forall h, In h open -> ~ In h (g_dead s4) /\ h <= g_gen s4) /\
  (forall h, (In h (g_live s0) /\ In h (g_live s2)) \/ g_gen s0 < h -> ~ In (h, false) out /\ (In h (g_live s4) -> In h open)).
Proof.
  intros R Ht E C M1 W1 Hit S M2 W2 S4. pose proof (PI_reach _ _ R) as I0.
  assert (I1 : PI p s1) by (refine (PI_move p s0 (t, l1) s1 I0 _); exact (PM_call p s0 t (ODStart id) s1 l1 Ht E C)).
  pose proof (PI_runs _ _ _ _ I1 M1) as I2.
  assert (I3 : PI p s3) by (refine (PI_move p s2 (t, l3) s3 I2 _); exact (PM_step p s2 t found s3 l3 Ht Hit S)).
  pose proof (PI_runs _ _ _ _ I3 M2) as I4.
  cbn [pcall] in C. destruct (member id (map d_id (g_ds s0))); [discriminate|]. destruct (g_dlock s0); [discriminate|]. injection C as <- <-.
  pose proof (waits_pc _ _ _ _ _ M1 W1) as Epc. psimp. rewrite upd_same in Epc.
  destruct (ds_runs1 p _ ms1 s2 t (DS id [] [] (g_live s0) (g_dead s0) (g_gen s0)) (g_reg s0) (g_ever s0) I1 M1 W1 Ht) as (d2 & X1 & X2 & X3 & X4 & X5).
  { psimp. rewrite upd_same. reflexivity. } { left. reflexivity. }
  cbn [d_id d_dead d_gen d_live] in X2, X3, X4, X5.
  assert (Hl : g_dlock s2 = Some t) by (apply (e_dl2 _ _ (i_d _ _ I2) t Ht); rewrite Epc; discriminate).
  unfold pstep in S. rewrite Epc in S. injection S as <- <-.
  set (d3 := ds_seed id found (g_live s2) d2).
  assert (Y0 : d_id d3 = id) by (unfold d3; rewrite ds_seed_id; exact X2).
  assert (Y1 : d_dead d3 = g_dead s0 /\ d_gen d3 = g_gen s0 /\ d_live d3 = filter (fun h => member h (g_live s2)) (g_live s0)).
  { unfold d3, ds_seed. rewrite X2, Z.eqb_refl. cbn [d_dead d_gen d_live]. rewrite X3, X4, X5. repeat split. }
  destruct Y1 as (Y1 & Y2 & Y3).
  destruct (ds_runs2 p _ ms2 s4 d3 I3 M2) as (d4 & Z1 & Z2 & Z3 & Z4 & Z5).
  { rewrite Y0. exact W2. } { psimp. apply (in_map (ds_seed id found (g_live s2))). exact X1. }
  { intros t1 r e Hin. psimp. destruct (Z.eq_dec t1 t) as [->|N]; [rewrite upd_same; discriminate|]. rewrite upd_other by exact N. intros Eq.
    assert (Y : g_dlock s2 = Some t1) by (apply (e_dl2 _ _ (i_d _ _ I2) t1 Hin); congruence). congruence. }
  cbn [pcall] in S4. destruct (g_dlock s4) eqn:El4; [discriminate|]. destruct (find (fun d => d_id d =? id) (g_ds s4)) as [d|] eqn:Ef; [|discriminate].
  injection S4 as <- <- <-. apply find_some in Ef. destruct Ef as [Hd Hi]. apply Z.eqb_eq in Hi.
  destruct I4 as [A4 _ D4]. assert (d4 = d) as -> by (apply (same_id (g_ds s4)); [exact (e_did _ _ D4)|exact Z1|exact Hd|congruence]).
  rewrite Y1 in Z3. rewrite Y2 in Z4. rewrite Y3 in Z5.
  destruct (e_ok _ _ D4 d Hd) as [Q1 Q2 Q3]. pose proof (no_seed _ _ D4 El4) as Ns.
  pose proof (e_seen _ _ D4 d Hd (fun t r e Ht => ltac:(rewrite (Ns t Ht); discriminate))) as Q4. unfold seen in Q4. rewrite Z3 in Q3. rewrite Z4, Z5 in Q4.
  assert (Ndead : NoDup (g_dead s4)) by exact (NoDup_app_l' _ _ (NoDup_app_r' _ _ (a_nd _ _ A4))).
  pose proof (Permutation_NoDup Q3 Ndead) as Nd3.
  split; [exact Q1|]. split; [|split].
  - intros h. split.
    + intros X. split; [apply (Permutation_in h (Permutation_sym Q3)); rewrite in_app_iff; tauto|]. intros Y. exact (NoDup_app_disj _ _ h Nd3 X Y).
    + intros [X Y]. apply (Permutation_in h Q3) in X. rewrite in_app_iff in X. tauto.
  - intros h Hh. destruct (Q2 _ Hh) as [X Y]. split; [exact Y|exact (drep_gen p s4 h A4 X)].
  - intros h Hc. assert (Hc' : In h (filter (fun h => member h (g_live s2)) (g_live s0)) \/ g_gen s0 < h).
    { destruct Hc as [[X Y]|X]; [left; apply filter_In; split; [exact X|apply member_iff; exact Y]|right; exact X]. }
    split.
    + intros X. assert (Xd : In h (g_dead s4)) by (apply (Permutation_in h (Permutation_sym Q3)); rewrite in_app_iff; left; apply (in_map fst) in X; exact X).
      destruct (Q4 h (dead_drep p s4 h A4 Xd) Hc') as [Y|Y].
      * apply (in_map fst) in X. exact (NoDup_app_disj _ _ h Q1 X Y).
      * pose proof (fst_unique _ _ _ _ (NoDup_app_l' _ _ Q1) X Y). discriminate.
    + intros X. destruct (Q4 h (ever_drep p s4 A4 h (PA_incl_reg_ever p s4 A4 h (live_reg p s4 A4 h X))) Hc') as [Y|Y]; [exact Y|exfalso].
      apply (in_map fst) in Y. cbn [fst] in Y. assert (Xd : In h (g_dead s4)) by (apply (Permutation_in h (Permutation_sym Q3)); rewrite in_app_iff; left; exact Y).
      apply (NoDup_app_disj _ _ h (a_nd _ _ A4) X). rewrite in_app_iff. left. exact Xd.
Qed.
Print Assumptions lifetime_profile.

(** The peak heap profile: the thread [t], in the malloc of [h], saves a peak from [s0] to [s2].  The saved profile has [h], every object
    that the program had from [s0] to [s2], none that had been freed before, and each once. *)
Theorem peak_profile p s0 t h v s1 l1 ms s2 found s3 l3 :
  preach p s0 -> 0 <= t < p_nthr p -> g_pc s0 t = M10 h v -> pstep p s0 t [] = Some (s1, l1) ->
  pruns p s1 ms s2 -> waits t ms -> iter_ok s2 t found -> pstep p s2 t found = Some (s3, l3) ->
  NoDup (g_prec s3) /\ In h (g_prec s3) /\ (forall x, In x (g_live s0) -> In x (g_live s2) -> In x (g_prec s3)) /\
  (forall x, In x (g_prec s3) -> ~ In x (g_dead s0)) /\ g_plock s3 = None /\ In h (g_live s3).
Proof.
  intros R Ht E C M W Hit S. pose proof (PI_reach _ _ R) as I0.
  assert (Hi0 : iter_ok s0 t []) by (unfold iter_ok; rewrite E; exact I).
  assert (I2 : PI p s2). { refine (PI_runs _ _ _ _ _ M). refine (PI_move p s0 (t, l1) s1 I0 _). exact (PM_step p s0 t [] s1 l1 Ht Hi0 C). }
  unfold pstep in C. rewrite E in C. injection C as <- <-. pose proof (waits_pc _ _ _ _ _ M W) as Epc. psimp. rewrite upd_same in Epc.
  unfold pstep in S. unfold iter_ok in Hit. rewrite Epc in *. injection S as <- <-. psimp. destruct Hit as (K1 & K2 & K3).
  destruct I0 as [A0 _ _], I2 as [A2 B2 _].
  split; [exact K1|]. split; [|split; [|split; [|split; [reflexivity|left; reflexivity]]]].
  - apply K2; [apply (PA_reg_in p s0 t h A0 Ht); rewrite E; left; reflexivity|apply (PA_reg_in p s2 t h A2 Ht); rewrite Epc; left; reflexivity].
  - intros x H0 H2. apply K2; [exact (live_reg p s0 A0 x H0)|exact (live_reg p s2 A2 x H2)].
  - intros x Hh X. apply (dead_ever p s0 x A0) in X. destruct (K3 _ Hh) as [Y|[_ Y]]; tauto.
Qed.
Print Assumptions peak_profile.

(** No call waits for ever: some thread can always take a step, and the iterations of the threads have a result. *)
Theorem profile_no_deadlock p s t : ppar_ok p -> preach p s -> 0 <= t < p_nthr p -> g_pc s t <> PIdle ->
  exists t' found s' l, 0 <= t' < p_nthr p /\ iter_ok s t' found /\ pstep p s t' found = Some (s', l) /\ (t' = t \/ g_dlock s = Some t' \/ g_plock s = Some t').
Proof.
  intros Hp R Ht E. pose proof (profile_no_wrap p s) as Nw. pose proof R as R0. apply PI_reach in R. destruct R as [A B D].
  assert (Hreg : NoDup (g_reg s)).
  { apply (Permutation_NoDup (Permutation_sym (a_reg _ _ A))). pose proof (a_nd _ _ A) as Nd. pose proof (NoDup_app_r' _ _ (NoDup_app_r' _ _ Nd)) as Nh.
    apply app_nodup; [exact (NoDup_app_l' _ _ Nd)|apply fm_nodup; [intros q; destruct q; cbn; tauto|exact Nh]|].
    intros x Hx Hy. apply (NoDup_app_disj _ _ x Nd Hx). rewrite in_app_iff. right. exact (subl _ _ _ _ sub_reg Hy). }
  assert (Hf : forall t', 0 <= t' < p_nthr p -> iter_ok s t' (g_reg s)).
  { intros t' Ht'. unfold iter_ok. destruct (iter_of (g_pc s t')) as [[r e]|] eqn:X.
    - destruct (b_iter _ _ B t' r e Ht' X) as (J1 & J2 & J3).
      assert (Y : found_ok s r e (g_reg s)).
      { split; [exact Hreg|]. split; [intros h _ H; exact H|]. intros h H. destruct (in_dec Z.eq_dec h e) as [I|I]; [left; exact (J3 h H I)|right].
        split; [exact (PA_incl_reg_ever _ _ A h H)|exact I]. }
      destruct (g_pc s t'); try exact I; cbn [iter_of] in X; injection X as -> ->; exact Y.
    - destruct (g_pc s t'); try exact I; discriminate X. }
  assert (Run : forall t', 0 <= t' < p_nthr p -> g_pc s t' <> PIdle -> (forall h, g_pc s t' = M4 h \/ g_pc s t' = F4 h -> g_dlock s = None) ->
    (forall h, g_pc s t' = M8 h -> g_plock s = None) -> exists s' l, pstep p s t' (g_reg s) = Some (s', l)).
  { intros t' Ht' N1 N2 N3. unfold pstep. destruct (g_pc s t') as [|x|h|h|h|h|h|h|h|h|h v|h r0 e0|h|h|h|h|r0 e0|id r0 e0] eqn:X; try (eexists; eexists; reflexivity).
    - congruence.
    - rewrite (N2 h (or_introl eq_refl)). eexists; eexists; reflexivity.
    - destruct (_ || _); eexists; eexists; reflexivity.
    - rewrite (N3 h eq_refl). destruct (negb _); eexists; eexists; reflexivity.
    - destruct (Nw t' h Hp R0 Ht' X) as [Y _]. apply Z.leb_le in Y. rewrite Y. eexists; eexists; reflexivity.
    - rewrite (N2 h (or_intror eq_refl)). eexists; eexists; reflexivity. }
  assert (RunD : forall t', g_dlock s = Some t' -> 0 <= t' < p_nthr p /\ exists s' l, pstep p s t' (g_reg s) = Some (s', l)).
  { intros t' El. destruct (e_dl1 _ _ D _ El) as [X Y]. split; [exact X|]. apply (Run t' X).
    - intros Z. rewrite Z in Y. cbn in Y. congruence.
    - intros h [Z|Z]; rewrite Z in Y; cbn in Y; congruence.
    - intros h Z; rewrite Z in Y; cbn in Y; congruence. }
  assert (RunP : forall t', g_plock s = Some t' -> 0 <= t' < p_nthr p /\ exists s' l, pstep p s t' (g_reg s) = Some (s', l)).
  { intros t' El. destruct (b_pl1 _ _ B _ El) as [X Y]. split; [exact X|]. apply (Run t' X).
    - intros Z. rewrite Z in Y. discriminate Y.
    - intros h [Z|Z]; rewrite Z in Y; discriminate Y.
    - intros h Z; rewrite Z in Y; discriminate Y. }
  destruct (g_dlock s) as [td|] eqn:El.
  { destruct (RunD td eq_refl) as (X & s' & l & Y). exists td, (g_reg s), s', l. split; [exact X|]. split; [exact (Hf _ X)|]. split; [exact Y|tauto]. }
  destruct (g_plock s) as [tp|] eqn:Elp.
  { destruct (RunP tp eq_refl) as (X & s' & l & Y). exists tp, (g_reg s), s', l. split; [exact X|]. split; [exact (Hf _ X)|]. split; [exact Y|tauto]. }
  destruct (Run t Ht E) as (s' & l & Y); [reflexivity|reflexivity|]. exists t, (g_reg s), s', l. split; [exact Ht|]. split; [exact (Hf _ Ht)|]. split; [exact Y|tauto].
Qed.
Print Assumptions profile_no_deadlock.

(** A call takes at most 12 steps of its thread. *)
Definition steps_left (q : ppc) : nat :=
  match q with
  | PIdle => 0 | M1 _ => 12 | M2 _ => 11 | M3 _ => 10 | M4 _ => 9 | M5 _ => 8 | M6 _ => 7 | M7 _ => 6 | M8 _ => 5 | M9 _ => 4 | M10 _ _ => 2 | M11 _ _ _ => 1
  | F1 _ => 4 | F2 _ => 3 | F3 _ => 2 | F4 _ => 1 | Dump _ _ => 1 | Seed _ _ _ => 1
  end%nat.
Theorem profile_call_bounded p s t found s' l : pstep p s t found = Some (s', l) -> (steps_left (g_pc s' t) < steps_left (g_pc s t) <= 12)%nat.
Proof.
  intros H. unfold pstep in H. destruct (g_pc s t); try discriminate H;
    repeat match goal with X : context [match ?d with _ => _ end] |- _ => destruct d; try discriminate X end;
    injection H as <- <-; psimp; rewrite upd_same; cbn [steps_left]; lia.
Qed.
Print Assumptions profile_call_bounded.
