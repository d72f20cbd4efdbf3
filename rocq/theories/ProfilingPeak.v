(** The peak heap profile without concurrency, and what a race does to it (C45); examples. *)
From Coq Require Import Permutation.
From Verif Require Import Base TransferCache Flow FlowProofs ThreadCacheProofs ThreadCacheProps Profiling ProfilingProofs ProfilingLife ProfilingProps.

(** ** Executions in which one call ends before the next begins *)
Inductive sruns (p : ppar) : pstate -> list (Z * plabel) -> pstate -> Prop :=
| SR_nil s : sruns p s [] s
| SR_cons s t l s1 ms s2 : pmove p s (t, l) s1 -> (forall t', t' <> t -> g_pc s t' = PIdle) -> sruns p s1 ms s2 -> sruns p s ((t, l) :: ms) s2.

Lemma sruns_pruns p s ms s' : sruns p s ms s' -> pruns p s ms s'.
Proof. intros H. induction H as [|s t l s1 ms s2 H1 H2 H3 IH]; [constructor|econstructor; eassumption]. Qed.
Lemma pruns_app p s ms s1 ms' s2 : pruns p s ms s1 -> pruns p s1 ms' s2 -> pruns p s (ms ++ ms') s2.
Proof. intros H. induction H as [|s m s0 ms s1 H1 H2 IH]; intros K; [exact K|]. cbn [app]. econstructor; [exact H1|exact (IH K)]. Qed.
Lemma preach_move p s m s' : preach p s -> pmove p s m s' -> preach p s'.
Proof. intros (ms & H) M. exists (ms ++ [m]). refine (pruns_app _ _ _ _ _ _ H _). econstructor; [exact M|constructor]. Qed.

(** What holds when the only thread that may be in a call is at [q]. *)
Definition pk (p : ppar) (s : pstate) (q : ppc) : Prop :=
  0 <= g_peak s /\ (forall h, In h (g_prec s) -> h <= g_gen s) /\
  match q with
  | M7 _ | M8 _ => wsum (p_bytes p) (g_info s) (g_prec s) = g_peak s
  | M9 _ => g_peak s * p_num p < g_size s * p_den p
  | M10 _ v => v = g_size s /\ g_peak s * p_num p < g_size s * p_den p
  | M11 _ r e => g_size s * p_den p <= g_peak s * p_num p /\ r = g_reg s /\ e = g_ever s /\ wsum (p_bytes p) (g_info s) r = g_peak s
  | _ => g_size s * p_den p <= g_peak s * p_num p /\ wsum (p_bytes p) (g_info s) (g_prec s) = g_peak s
  end.
Definition seq_ok (p : ppar) (s : pstate) : Prop := exists t, (forall t', t' <> t -> g_pc s t' = PIdle) /\ pk p s (g_pc s t).

Lemma seq_mover p s t : seq_ok p s -> (forall t', t' <> t -> g_pc s t' = PIdle) -> pk p s (g_pc s t).
Proof.
  intros (t0 & H1 & H2) H. destruct (Z.eq_dec t t0) as [->|N]; [exact H2|]. rewrite (H1 t N). rewrite (H t0) in H2 by congruence. exact H2.
Qed.
Lemma wsum_prec_info b i l g x : (forall h, In h l -> h <= g) -> wsum b (upd i (g + 1) x) l = wsum b i l.
Proof. intros H. apply wsum_info. intros X. apply H in X. lia. Qed.

Lemma found_perm (s : pstate) found : NoDup (g_reg s) -> found_ok s (g_reg s) (g_ever s) found -> Permutation found (g_reg s).
Proof.
  intros Nd (K1 & K2 & K3). apply NoDup_Permutation; [exact K1|exact Nd|]. intros h. split.
  - intros X. destruct (K3 _ X) as [Y|[Y Z]]; tauto.
  - intros X. exact (K2 _ X X).
Qed.
Lemma reg_nodup p s : PA p s -> NoDup (g_reg s).
Proof.
  intros A. apply (Permutation_NoDup (Permutation_sym (a_reg _ _ A))). pose proof (a_nd _ _ A) as Nd. pose proof (NoDup_app_r' _ _ (NoDup_app_r' _ _ Nd)) as Nh.
  apply app_nodup; [exact (NoDup_app_l' _ _ Nd)|apply fm_nodup; [intros q; destruct q; cbn; tauto|exact Nh]|].
  intros x Hx Hy. apply (NoDup_app_disj _ _ x Nd Hx). rewrite in_app_iff. right. exact (subl _ _ _ _ sub_reg Hy).
Qed.
Lemma reg_gen p s h : PA p s -> In h (g_reg s) -> h <= g_gen s.
Proof. intros A H. apply (drep_gen p s h A), (ever_drep p s A), (PA_incl_reg_ever p s A). exact H. Qed.

(** The objects of the only thread in a call. *)
Lemma solo_reg p s t : PA p s -> 0 <= t < p_nthr p -> (forall t', t' <> t -> g_pc s t' = PIdle) -> hreg (g_pc s t) = hsize (g_pc s t) ->
  g_size s = wsum (p_bytes p) (g_info s) (g_reg s).
Proof.
  intros A Ht H E. rewrite (a_size _ _ A), (wsum_perm _ _ _ _ (a_reg _ _ A)), !wsum_app. f_equal. f_equal.
  unfold fm. apply flat_map_ext. intros t'. destruct (Z.eq_dec t' t) as [->|N]; [symmetry; exact E|rewrite (H _ N); reflexivity].
Qed.

Lemma peak_le a b n d : 0 < d -> d <= n -> 0 <= a -> a * n < b * d -> a < b.
Proof. intros. assert (a * d <= a * n) by nia. nia. Qed.

Lemma seq_move p s t l s' : ppar_ok p -> p_den p <= p_num p -> PI p s -> seq_ok p s -> (forall t', t' <> t -> g_pc s t' = PIdle) ->
  pmove p s (t, l) s' -> seq_ok p s' /\ g_peak s <= g_peak s'.
Proof.
  intros (O1 & O2 & O3) Hnd I Hs Hsolo M. pose proof (seq_mover p s t Hs Hsolo) as K. pose proof M as M0.
  assert (Hoth : forall t', t' <> t -> g_pc s' t' = PIdle) by (intros t' N; rewrite (other_pc _ _ _ _ _ _ M N); exact (Hsolo _ N)).
  pose proof (i_a _ _ I) as A.
  assert (X : pk p s' (g_pc s' t) /\ g_peak s <= g_peak s'); [|destruct X as [X Y]; split; [exists t; split; [exact Hoth|exact X]|exact Y]].
  inversion M; subst; clear M.
  - match goal with X : g_pc s t = PIdle |- _ => rewrite X in K; rename X into E end. destruct K as (K1 & K2 & K3 & K4).
    destruct o as [x|h| | |i|i|i|i]; cbn [pcall] in *; repeat match goal with X : context [match ?d with _ => _ end] |- _ => destruct d; try discriminate X end;
      match goal with X : Some _ = Some _ |- _ => injection X as <- <- end; unfold pk; psimp; rewrite ?upd_same, ?E; psimp; (split; [|lia]); (split; [exact K1|]); (split; [exact K2|]); split; assumption.
  - match goal with X : pstep _ _ _ _ = _ |- _ => unfold pstep in X; rename X into Hx end.
    match goal with X : iter_ok _ _ _ |- _ => unfold iter_ok in X; rename X into Hf end.
    match goal with X : 0 <= t < _ |- _ => rename X into Ht end.
    pose proof (solo_reg p s t A Ht Hsolo) as Sr.
    destruct (g_pc s t) as [|x|h|h|h|h|h|h|h|h|h v|h r0 e0|h|h|h|h|r0 e0|id r0 e0] eqn:E; try discriminate Hx; destruct K as (K1 & K2 & K3).
    + injection Hx as <- <-. destruct K3 as [K3 K4]. unfold pk; psimp. rewrite upd_same. psimp. split; [|lia]. split; [exact K1|]. split; [intros h Hh; apply K2 in Hh; lia|].
      rewrite wsum_prec_info by exact K2. split; assumption.
    + injection Hx as <- <-. destruct K3 as [K3 K4]. unfold pk; psimp. rewrite upd_same. psimp. split; [|lia]. split; [exact K1|]. split; [exact K2|]. split; assumption.
    + injection Hx as <- <-. destruct K3 as [K3 K4]. unfold pk; psimp. rewrite upd_same. psimp. split; [|lia]. split; [exact K1|]. split; [exact K2|]. split; assumption.
    + destruct (g_dlock s); [discriminate|]. injection Hx as <- <-. destruct K3 as [K3 K4]. unfold pk; psimp. rewrite upd_same. psimp. split; [|lia]. split; [exact K1|]. split; [exact K2|]. split; assumption.
    + injection Hx as <- <-. destruct K3 as [K3 K4]. unfold pk; psimp. rewrite upd_same. psimp. split; [|lia]. split; [exact K1|]. split; [exact K2|]. split; assumption.
    + injection Hx as <- <-. destruct K3 as [K3 K4]. unfold pk; psimp. rewrite upd_same. psimp. split; [|lia]. split; [exact K1|]. split; [exact K2|]. exact K4.
    + destruct (Z.leb_spec (p_num p) 0) as [Hz|Hz]; [lia|]. cbn [orb] in Hx. destruct (is_new_peak p s) eqn:Np; cbn [negb] in Hx; injection Hx as <- <-; unfold pk; psimp; rewrite upd_same; psimp.
      * split; [|lia]. split; [exact K1|]. split; [exact K2|]. exact K3.
      * unfold is_new_peak in Np. apply Z.ltb_ge in Np. split; [|lia]. split; [exact K1|]. split; [exact K2|]. split; assumption.
    + destruct (g_plock s); [discriminate|]. destruct (is_new_peak p s) eqn:Np; cbn [negb] in Hx; injection Hx as <- <-; unfold pk; psimp; rewrite upd_same; psimp; unfold is_new_peak in Np.
      * apply Z.ltb_lt in Np. split; [|lia]. split; [exact K1|]. split; [exact K2|]. exact Np.
      * apply Z.ltb_ge in Np. split; [|lia]. split; [exact K1|]. split; [exact K2|]. split; assumption.
    + injection Hx as <- <-. unfold pk; psimp. rewrite upd_same. psimp. split; [|lia]. split; [exact K1|]. split; [exact K2|]. split; [reflexivity|exact K3].
    + injection Hx as <- <-. unfold pk; psimp. rewrite upd_same. psimp. destruct K3 as [-> K3]. pose proof (peak_le _ _ _ _ O3 Hnd K1 K3).
      assert (0 <= g_size s) by lia. unfold pk. psimp. split; [|lia]. split; [assumption|]. split; [intros h' []|]. split; [nia|]. split; [reflexivity|]. split; [reflexivity|].
      symmetry. apply Sr. reflexivity.
    + injection Hx as <- <-. unfold pk; psimp. rewrite upd_same. psimp. destruct K3 as (K3 & -> & -> & K4). pose proof (found_perm s found (reg_nodup p s A) Hf) as Pf.
      split; [|lia]. unfold pk. psimp. split; [exact K1|]. split; [intros h' Hh; apply (reg_gen p s h' A); exact (Permutation_in h' Pf Hh)|]. split; [exact K3|].
      rewrite (wsum_perm _ _ _ _ Pf). exact K4.
    + injection Hx as <- <-. destruct K3 as [K3 K4]. unfold pk; psimp. rewrite upd_same. psimp. split; [|lia]. unfold pk. psimp. split; [exact K1|]. split; [exact K2|].
      split; [|exact K4]. specialize (O2 (g_info s h)). nia.
    + injection Hx as <- <-. destruct K3 as [K3 K4]. unfold pk; psimp. rewrite upd_same. psimp. split; [|lia]. split; [exact K1|]. split; [exact K2|]. split; assumption.
    + destruct (_ <=? _) in Hx; [|discriminate]. injection Hx as <- <-. destruct K3 as [K3 K4]. unfold pk; psimp. rewrite upd_same. psimp. split; [|lia]. split; [exact K1|]. split; [exact K2|]. split; assumption.
    + destruct (g_dlock s); [discriminate|]. injection Hx as <- <-. destruct K3 as [K3 K4]. unfold pk; psimp. rewrite upd_same. psimp. split; [|lia]. split; [exact K1|]. split; [exact K2|]. split; assumption.
    + injection Hx as <- <-. destruct K3 as [K3 K4]. unfold pk; psimp. rewrite upd_same. psimp. split; [|lia]. split; [exact K1|]. split; [exact K2|]. split; assumption.
    + injection Hx as <- <-. destruct K3 as [K3 K4]. unfold pk; psimp. rewrite upd_same. psimp. split; [|lia]. split; [exact K1|]. split; [exact K2|]. split; assumption.
Qed.

Lemma seq_init p : seq_ok p pinit.
Proof. exists 0. split; [reflexivity|]. unfold pk. cbn. repeat split; try lia. Qed.

Lemma seq_runs p s ms s' : ppar_ok p -> p_den p <= p_num p -> sruns p s ms s' -> PI p s -> seq_ok p s -> PI p s' /\ seq_ok p s' /\ g_peak s <= g_peak s'.
Proof.
  intros O Hn H. induction H as [s|s t l s1 ms s2 H1 H2 H3 IH]; intros I S; [split; [exact I|split; [exact S|lia]]|].
  destruct (seq_move p s t l s1 O Hn I S H2 H1) as [S1 L1]. destruct (IH (PI_move _ _ _ _ I H1) S1) as (X & Y & Z). split; [exact X|]. split; [exact Y|lia].
Qed.

(** Without concurrency the recorded peak never falls; whenever no call is in progress the heap is at most the growth fraction above
    it, now and at every earlier moment, and the saved profile is that of a heap of exactly that size. *)
Theorem peak_sequential p ms s ms' s' : ppar_ok p -> p_den p <= p_num p -> sruns p pinit ms s -> sruns p s ms' s' ->
  (forall t, g_pc s t = PIdle) -> (forall t, g_pc s' t = PIdle) ->
  g_peak s <= g_peak s' /\ total (p_bytes p) (g_info s) (g_live s) * p_den p <= g_peak s' * p_num p /\
  total (p_bytes p) (g_info s') (g_prec s') = g_peak s'.
Proof.
  intros O Hn H H' Q Q'. assert (I0 : PI p pinit) by (apply PI_reach; exists []; constructor).
  destruct (seq_runs p _ _ _ O Hn H I0 (seq_init p)) as (I1 & (t1 & S1 & S1') & _).
  destruct (seq_runs p _ _ _ O Hn H' I1 (ex_intro _ t1 (conj S1 S1'))) as (I2 & (t2 & S2 & S2') & L).
  rewrite Q in S1'. rewrite Q' in S2'. destruct S1' as (A1 & A2 & A3 & A4), S2' as (B1 & B2 & B3 & B4).
  split; [exact L|]. split; [|rewrite total_wsum; exact B4].
  destruct (profile_counters p s) as (C1 & _); [exists ms; exact (sruns_pruns _ _ _ _ H)|intros t _; apply Q|]. rewrite <- C1.
  destruct O as (_ & _ & O3). nia.
Qed.
Print Assumptions peak_sequential.

(** ** Executing *)
Inductive act := Call (o : pop) | Step (found : list Z).
Fixpoint nodupb (l : list Z) : bool := match l with [] => true | a :: r => negb (member a r) && nodupb r end.
Definition found_okb (s : pstate) (r e found : list Z) : bool :=
  nodupb found && forallb (fun h => negb (member h (g_reg s)) || member h found) r &&
  forallb (fun h => member h r || (member h (g_ever s) && negb (member h e))) found.
Definition iter_okb (s : pstate) (t : Z) (found : list Z) : bool :=
  match g_pc s t with M11 _ r e | Dump r e | Seed _ r e => found_okb s r e found | _ => true end.
Definition idleb (q : ppc) : bool := match q with PIdle => true | _ => false end.
Definition act1 (p : ppar) (s : pstate) (a : Z * act) : option (pstate * plabel) :=
  let t := fst a in
  if (0 <=? t) && (t <? p_nthr p) then
    match snd a with
    | Call o => if idleb (g_pc s t) then pcall s t o else None
    | Step f => if iter_okb s t f then pstep p s t f else None
    end
  else None.
Fixpoint acts (p : ppar) (s : pstate) (l : list (Z * act)) : option (pstate * list (Z * plabel)) :=
  match l with
  | [] => Some (s, [])
  | a :: r => let? (s1, b) := act1 p s a in let? (s2, ms) := acts p s1 r in Some (s2, (fst a, b) :: ms)
  end.

Lemma nodupb_ok l : nodupb l = true -> NoDup l.
Proof.
  induction l as [|a l IH]; [constructor|]. cbn [nodupb]. intros H. apply andb_prop in H. destruct H as [H1 H2]. constructor; [|exact (IH H2)].
  apply member_false. destruct (member a l); [discriminate H1|reflexivity].
Qed.
Lemma found_okb_ok s r e f : found_okb s r e f = true -> found_ok s r e f.
Proof.
  unfold found_okb. intros H. apply andb_prop in H. destruct H as [H H3]. apply andb_prop in H. destruct H as [H1 H2]. rewrite forallb_forall in H2, H3.
  split; [exact (nodupb_ok _ H1)|]. split.
  - intros h X Y. specialize (H2 h X). apply member_iff in Y. rewrite Y in H2. cbn [negb orb] in H2. apply member_iff. exact H2.
  - intros h X. specialize (H3 h X). apply orb_prop in H3. destruct H3 as [Y|Y]; [left; apply member_iff; exact Y|right].
    apply andb_prop in Y. destruct Y as [Y Z]. split; [apply member_iff; exact Y|]. apply member_false. destruct (member h e); [discriminate Z|reflexivity].
Qed.
Lemma act1_ok p s a s' l : act1 p s a = Some (s', l) -> pmove p s (fst a, l) s'.
Proof.
  unfold act1. destruct a as [t c]. cbn [fst snd]. destruct (Z.leb_spec 0 t); cbn [andb]; [|discriminate]. destruct (Z.ltb_spec t (p_nthr p)); [|discriminate].
  destruct c as [o|f].
  - destruct (g_pc s t) eqn:E; cbn [idleb]; try discriminate. intros X. apply (PM_call p s t o); [lia|exact E|exact X].
  - destruct (iter_okb s t f) eqn:E; [|discriminate]. intros X. apply (PM_step p s t f); [lia| |exact X].
    unfold iter_okb, iter_ok in *. destruct (g_pc s t); try exact I; apply found_okb_ok; exact E.
Qed.
Lemma acts_ok p s l s' ms : acts p s l = Some (s', ms) -> pruns p s ms s'.
Proof.
  revert s ms. induction l as [|a l IH]; cbn [acts]; intros s ms H; [injection H as <- <-; constructor|].
  destruct (act1 p s a) as [[s1 b]|] eqn:E; [|discriminate]. cbn [obind] in H. destruct (acts p s1 l) as [[s2 ms2]|] eqn:E2; [|discriminate].
  cbn [obind] in H. injection H as <- <-. econstructor; [exact (act1_ok _ _ _ _ _ E)|exact (IH _ _ E2)].
Qed.

Definition xs (n : Z) : sample := Smp (n - 1) n 1 7.
(** 1.1 as the growth fraction, two threads. *)
Definition exq : ppar := PPar (fun x => Z.max 0 (sm_allocated x - sm_requested x)) (fun x => Z.max 0 (sm_allocated x)) 11 10 2.
Lemma exq_ok : ppar_ok exq /\ p_den exq <= p_num exq.
Proof. split; [|cbn; lia]. split; [intros x; cbn [p_frag exq]; lia|]. split; [intros x; cbn [p_bytes exq]; lia|cbn; lia]. Qed.

(** A malloc by thread [t] that is not a new peak takes 7 steps, and one that is takes 11. *)
Definition nn (n : nat) (t : Z) : list (Z * act) := repeat (t, Step []) n.
(** 1000 bytes are allocated: the first peak. *)
Definition w1 : list (Z * act) := (0, Call (OMallocS (xs 1000))) :: nn 10 0 ++ [(0, Step [1])].
(** 200 more are allocated; when the size is found to be a new peak, and before it is read again, the 1000 are freed. *)
Definition w2 : list (Z * act) :=
  (0, Call (OMallocS (xs 200))) :: nn 8 0 ++ [(1, Call (OFreeS 1)); (1, Step [])] ++ nn 2 0 ++ nn 3 1 ++ [(0, Step [2])].

Definition st (o : option (pstate * list (Z * plabel))) : pstate := match o with Some (s, _) => s | None => pinit end.
Definition mv (o : option (pstate * list (Z * plabel))) : list (Z * plabel) := match o with Some (_, m) => m | None => [] end.
Lemma acts_st p s l : acts p s l <> None -> pruns p s (mv (acts p s l)) (st (acts p s l)).
Proof. destruct (acts p s l) as [[s' ms]|] eqn:E; [|congruence]. intros _. exact (acts_ok _ _ _ _ _ E). Qed.

Lemma w1_runs : acts exq pinit w1 <> None. Proof. vm_compute. discriminate. Qed.
Definition y1 : pstate := st (acts exq pinit w1).
Lemma w2_runs : acts exq y1 w2 <> None. Proof. vm_compute. discriminate. Qed.
Definition y2 : pstate := st (acts exq y1 w2).
Lemma y1_reach : preach exq y1. Proof. exists (mv (acts exq pinit w1)). exact (acts_st _ _ _ w1_runs). Qed.
Lemma exq_quiet s : g_pc s 0 = PIdle -> g_pc s 1 = PIdle -> quiet exq s.
Proof. intros H0 H1 t Ht. cbn [exq p_nthr] in Ht. assert (E : t = 0 \/ t = 1) by lia. destruct E as [-> | ->]; assumption. Qed.

(** With concurrency the recorded peak can fall, and the profile of the real peak be replaced by that of a smaller heap: MaybeSaveSample
    reads the size of the heap a third time, after the comparisons (peak_heap_tracker.cc:53-56). *)
Theorem peak_race_refuted : exists p s ms s',
  ppar_ok p /\ p_den p <= p_num p /\ preach p s /\ quiet p s /\ pruns p s ms s' /\ quiet p s' /\
  g_peak s' < g_peak s /\ total (p_bytes p) (g_info s') (g_prec s') < total (p_bytes p) (g_info s) (g_prec s).
Proof.
  exists exq, y1, (mv (acts exq y1 w2)), y2. destruct exq_ok as [X Y]. split; [exact X|]. split; [exact Y|]. split; [exact y1_reach|].
  split; [apply exq_quiet; vm_compute; reflexivity|]. split; [exact (acts_st _ _ _ w2_runs)|]. split; [apply exq_quiet; vm_compute; reflexivity|].
  split; vm_compute; reflexivity.
Qed.
Print Assumptions peak_race_refuted.

(** ** Examples *)
(** The saved peak, and what the counters say before and after. *)
Example ex_peak : (g_peak y1, g_prec y1, g_size y1, g_frag y1, g_count y1, g_live y1) = (1000, [1], 1000, 1, 1, [1]).
Proof. vm_compute. reflexivity. Qed.
Example ex_race : (g_peak y2, g_prec y2, g_size y2, g_frag y2, g_count y2, g_live y2, g_dead y2) = (200, [2], 200, 1, 2, [2], [1]).
Proof. vm_compute. reflexivity. Qed.

Definition prof (o : option (pstate * list (Z * plabel))) : list (Z * plabel) :=
  filter (fun m => match snd m with PNone => false | _ => true end) (mv o).

(** A heap profile during which one object is freed and one allocated: either may be missing or present. *)
Definition w3 (found : list Z) : list (Z * act) :=
  w1 ++ [(0, Call OHeap); (1, Call (OMallocS (xs 40)))] ++ nn 7 1 ++ [(1, Call (OFreeS 1))] ++ nn 4 1 ++ [(0, Step found)].
Example ex_heap :
  (prof (acts exq pinit (w3 [2; 1])), prof (acts exq pinit (w3 [])), acts exq pinit (w3 [2; 2])) = ([(0, PHeap [2; 1])], [(0, PHeap [])], None).
Proof. vm_compute. reflexivity. Qed.

(** An allocation profile and a lifetime profile.  The object 1 is allocated before both are started.  The malloc of 2 has been reported
    to lifetime profiles but not registered when the lifetime profile is started, and it is not seen: its free is reported
    alone.  3 is allocated and freed, 4 allocated, 1 freed afterwards. *)
Definition w4 : list (Z * act) :=
  w1 ++ [(0, Call (OAStart 5)); (1, Call (OMallocS (xs 20)))] ++ nn 4 1 ++
  [(0, Call (ODStart 6))] ++ nn 3 1 ++ [(0, Step [1])] ++
  [(0, Call (OMallocS (xs 30)))] ++ nn 7 0 ++ [(0, Call (OMallocS (xs 40)))] ++ nn 7 0 ++
  [(1, Call (OFreeS 3))] ++ nn 4 1 ++ [(1, Call (OFreeS 2))] ++ nn 4 1 ++ [(0, Call (OFreeS 1))] ++ nn 4 0 ++
  [(0, Call (OAStop 5)); (1, Call (ODStop 6))].
Example ex_life : prof (acts exq pinit w4) = [(0, PAlloc 5 [4; 3; 2]); (1, PLife 6 [(1, true); (2, false); (3, true)] [4])].
Proof. vm_compute. reflexivity. Qed.

(** While a lifetime profile is being started, mallocs and frees wait to report, and go on afterwards. *)
Example ex_wait :
  (match acts exq pinit (w1 ++ [(0, Call (ODStart 6)); (1, Call (OFreeS 1))] ++ nn 3 1) with
   | Some (s, _) => (g_pc s 1, match pstep exq s 1 [] with None => true | _ => false end, match pstep exq s 0 [] with None => true | _ => false end)
   | None => (PIdle, false, false) end) = (F4 1, true, false).
Proof. vm_compute. reflexivity. Qed.
