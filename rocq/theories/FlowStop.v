(** A CPU is stopped exactly while one thread drains or shrinks its cache (C44). *)
From Verif Require Import Base TransferCache TransferCacheProps CpuCache Flow FlowProofs FlowProps FlowLive FlowExamples.
From Coq Require Import Permutation.

(** * Specification

    The CPU whose cache a thread is draining or shrinking. *)
Definition holds (q : pc) : option Z :=
  match q with RDrain c _ | InCall _ (KDrain c _) | InCall _ (KShrunk c) => Some c | _ => None end.

(** * Theorems *)

(** A step of a thread: it goes on holding what it holds, or lets go of it and the CPU is started again. *)
Definition stop_step (s s' : fstate) (t : Z) : Prop :=
  (holds (s_pc s' t) = holds (s_pc s t) /\ s_stop s' = s_stop s) \/
  exists c, holds (s_pc s t) = Some c /\ holds (s_pc s' t) = None /\ s_stop s' = upd (s_stop s) c false.

Lemma thread_step_stop p s t c s' l : s_pc s t <> Idle -> thread_step p s t c = Some (s', l) -> stop_step s s' t.
Proof.
  intros Hi E. unfold thread_step in E.
  assert (Gm : forall s1 r, s_stop s1 = s_stop s -> holds (s_pc s t) = None -> ret_malloc s1 t r = Some (s', l) -> stop_step s s' t).
  { unfold ret_malloc. intros s1 r Es Eh X. injection X as <- _. left. cbn [s_pc s_stop set_live set_pc]. rewrite upd_same, Eh. split; [reflexivity|exact Es]. }
  assert (Gf : forall s1, s_stop s1 = s_stop s -> holds (s_pc s t) = None -> ret_free s1 t = Some (s', l) -> stop_step s s' t).
  { unfold ret_free. intros s1 Es Eh X. injection X as <- _. left. cbn [s_pc s_stop set_pc]. rewrite upd_same, Eh. split; [reflexivity|exact Es]. }
  assert (Gg : forall s1 q, s_stop s1 = s_stop s -> holds q = holds (s_pc s t) -> go s1 t q = Some (s', l) -> stop_step s s' t).
  { unfold go. intros s1 q Es Eh X. injection X as <- _. left. cbn [s_pc s_stop set_pc]. rewrite upd_same. split; [exact Eh|exact Es]. }
  assert (Gi : forall s1 T b fr k, s_stop s1 = s_stop s -> holds (InCall fr k) = holds (s_pc s t) -> enter_insert s1 t T b fr k = Some (s', l) -> stop_step s s' t).
  { unfold enter_insert. intros s1 T b fr k Es Eh X. destruct (_ && _); [|discriminate]. eapply Gg; [exact Es| |exact X]. rewrite <- Eh. reflexivity. }
  assert (Gr : forall s1 T n fr k, s_stop s1 = s_stop s -> holds (InCall fr k) = holds (s_pc s t) -> enter_remove s1 t T n fr k = Some (s', l) -> stop_step s s' t).
  { unfold enter_remove. intros s1 T b fr k Es Eh X. destruct (_ && _); [|discriminate]. eapply Gg; [exact Es| |exact X]. rewrite <- Eh. reflexivity. }
  assert (Gt : forall s1 target total r got i, s_stop s1 = s_stop s -> holds (s_pc s t) = None -> refill_test s1 t target total r got i = Some (s', l) -> stop_step s s' t).
  { unfold refill_test. intros s1 target total r got i Es Eh X. destruct (_ && _); [eapply Gg; [exact Es| |exact X]; rewrite Eh; reflexivity|eapply Gm; [exact Es|exact Eh|exact X]]. }
  assert (Gb : forall c', holds (s_pc s t) = Some c' -> ret_bg (start_cpu s c') t = Some (s', l) -> stop_step s s' t).
  { unfold ret_bg. intros c' Eh X. injection X as <- _. right. exists c'. cbn [s_pc s_stop set_pc start_cpu]. rewrite upd_same. repeat split. exact Eh. }
  assert (Sp : forall x s1, slab_pop s t = Some (x, s1) -> s_stop s1 = s_stop s).
  { unfold slab_pop. intros x s1. destruct (s_at s t) as [c1|]; [|discriminate]. destruct (s_slab s c1); [discriminate|]. intros X. injection X as _ <-. reflexivity. }
  assert (Su : forall x s1, slab_push s t x = Some s1 -> s_stop s1 = s_stop s).
  { unfold slab_push. intros x s1. destruct (s_at s t) as [c1|]; [|discriminate]. destruct (_ <? _); [|discriminate]. intros X. injection X as <-. reflexivity. }
  assert (Sb : forall b, s_stop (fst (slab_push_batch s t b)) = s_stop s).
  { unfold slab_push_batch. intros b. destruct (s_at s t); reflexivity. }
  assert (So : forall n, s_stop (fst (slab_pop_batch s t n)) = s_stop s).
  { unfold slab_pop_batch. intros n. destruct (s_at s t); reflexivity. }
  assert (Sc : s_stop (fst (cache_cpu_slab s t c)) = s_stop s).
  { unfold cache_cpu_slab. destruct (s_at s t); [reflexivity|]. destruct (s_stop s (c_cpu c)); reflexivity. }
  assert (St : forall T x, s_stop (set_tc s T x) = s_stop s) by (intros [i| |] x; reflexivity).
  destruct (s_pc s t) as [| | |cpu|cpu|target total r|target total r got b|x|x|cpu x|cpu x|target total b|cpu rest|fr k].
  - congruence.
  - destruct (slab_pop s t) as [(x & s1)|] eqn:Ep; [eapply Gm; [eapply Sp; reflexivity|reflexivity|exact E]|]. eapply Gg; [| |exact E]; reflexivity.
  - destruct (f_bypass p); [eapply Gr; [| |exact E]; reflexivity|]. destruct (cache_cpu_slab s t c) as (s1 & r). cbn [fst] in Sc.
    destruct r; [eapply Gg; [| |exact E]|eapply Gr; [| |exact E]|eapply Gg; [| |exact E]]; first [exact Sc|reflexivity].
  - destruct (slab_pop s t) as [(x & s1)|] eqn:Ep; [eapply Gm; [eapply Sp; reflexivity|reflexivity|exact E]|]. eapply Gg; [| |exact E]; reflexivity.
  - unfold update_capacity in E. destruct (_ && _); [|discriminate]. cbn [obind fst snd] in E. eapply Gg; [| |exact E]; reflexivity.
  - eapply Gr; [| |exact E]; reflexivity.
  - specialize (Sb b). destruct (slab_push_batch s t b) as (s1 & rest). cbn [fst] in Sb. destruct rest; [eapply Gt; [| |exact E]|eapply Gi; [| |exact E]]; first [exact Sb|reflexivity].
  - destruct (slab_push s t x) as [s1|] eqn:Ep; [eapply Gf; [eapply Su; exact Ep|reflexivity|exact E]|]. eapply Gg; [| |exact E]; reflexivity.
  - destruct (f_bypass p); [eapply Gi; [| |exact E]; reflexivity|]. destruct (cache_cpu_slab s t c) as (s1 & r). cbn [fst] in Sc.
    destruct r; [eapply Gg; [| |exact E]|eapply Gi; [| |exact E]|eapply Gg; [| |exact E]]; first [exact Sc|reflexivity].
  - destruct (slab_push s t x) as [s1|] eqn:Ep; [eapply Gf; [eapply Su; exact Ep|reflexivity|exact E]|]. eapply Gg; [| |exact E]; reflexivity.
  - unfold update_capacity in E. destruct (_ && _); [|discriminate]. cbn [obind fst snd] in E. eapply Gg; [| |exact E]; reflexivity.
  - set (want := Z.min _ _) in *. specialize (So (want - zlen b)).
    assert (Sx : s_stop (fst (if zlen b <? want then slab_pop_batch s t (want - zlen b) else (s, []))) = s_stop s) by (destruct (zlen b <? want); [exact So|reflexivity]).
    destruct (if zlen b <? want then _ else _) as (s1 & more). cbn [fst] in Sx. destruct (b ++ more); [eapply Gf; [| |exact E]|eapply Gi; [| |exact E]]; first [exact Sx|reflexivity].
  - destruct rest; [eapply Gb; [|exact E]; reflexivity|]. eapply Gi; [| |exact E]; reflexivity.
  - destruct fr as [|(T & a) fr]; [discriminate|]. unfold call_step in E.
    assert (Done : forall got ok, a = TDone got ok -> stop_step s s' t).
    { intros got ok ->. destruct fr as [|y fr]; [|eapply Gg; [| |exact E]; reflexivity].
      destruct k as [|target total r|r| |target total count|cpu rest|cpu|]; cbn [resume] in E.
      - eapply Gm; [| |exact E]; reflexivity.
      - destruct (zlen got =? 0); [eapply Gm; [| |exact E]; reflexivity|]. destruct (match r with Some x => _ | None => _ end) as (r' & b'). destruct b'; [eapply Gt; [| |exact E]|eapply Gg; [| |exact E]]; reflexivity.
      - eapply Gm; [| |exact E]; reflexivity.
      - eapply Gf; [| |exact E]; reflexivity.
      - destruct (negb _); [eapply Gf; [| |exact E]; reflexivity|]. destruct (_ <? _); [eapply Gg; [| |exact E]|eapply Gf; [| |exact E]]; reflexivity.
      - eapply Gg; [| |exact E]; reflexivity.
      - eapply Gb; [|exact E]; reflexivity.
      - eapply Gg; [| |exact E]; reflexivity. }
    destruct T as [i| |]; destruct a; try discriminate; try (eapply Done; reflexivity); try (eapply Gr; [| |exact E]; reflexivity); try (eapply Gg; [| |exact E]; reflexivity);
    (destruct (tstep _ _ _ _ _) as ((x & a') & l1); destruct l1; [eapply Gg; [| |exact E]|eapply Gi; [| |exact E]|eapply Gg; [| |exact E]]; first [apply St|reflexivity]).
Qed.

Record stop_inv (p : fpar) (s : fstate) : Prop := {
  si_some : forall c, s_stop s c = true -> exists t, 0 <= t < f_nthr p /\ holds (s_pc s t) = Some c;
  si_stop : forall t c, holds (s_pc s t) = Some c -> s_stop s c = true;
  si_one : forall t u c, holds (s_pc s t) = Some c -> holds (s_pc s u) = Some c -> t = u }.

Lemma stop_inv_keep p s s' t : stop_inv p s -> 0 <= t < f_nthr p -> (forall u, u <> t -> s_pc s' u = s_pc s u) -> stop_step s s' t -> stop_inv p s'.
Proof.
  intros [S1 S2 S3] Ht O [(Eh & Es)|(c & Eh & Eh' & Es)].
  - assert (G : forall u, holds (s_pc s' u) = holds (s_pc s u)) by (intros u; destruct (Z.eq_dec u t) as [->|N]; [exact Eh|rewrite O by exact N; reflexivity]).
    split; rewrite ?Es.
    + intros c H. destruct (S1 c H) as (u & Hu & E). exists u. rewrite G. split; assumption.
    + intros u c. rewrite G. apply S2.
    + intros u v c. rewrite !G. apply S3.
  - split; rewrite ?Es.
    + intros c' H. destruct (Z.eq_dec c' c) as [->|N]; [rewrite upd_same in H; discriminate|]. rewrite upd_other in H by exact N. destruct (S1 c' H) as (u & Hu & E). exists u. split; [exact Hu|].
      rewrite O; [exact E|]. intros ->. congruence.
    + intros u c' H. destruct (Z.eq_dec u t) as [->|N]; [congruence|]. rewrite O in H by exact N. rewrite upd_other; [eapply S2; exact H|]. intros ->. apply N. eapply S3; eassumption.
    + intros u v c' Hu Hv. destruct (Z.eq_dec u t) as [->|N]; [congruence|]. destruct (Z.eq_dec v t) as [->|N']; [congruence|]. rewrite O in Hu, Hv by assumption. eapply S3; eassumption.
Qed.

Lemma stop_inv_take p s s' t c : stop_inv p s -> 0 <= t < f_nthr p -> (forall u, u <> t -> s_pc s' u = s_pc s u) -> s_stop s c = false ->
  holds (s_pc s t) = None -> holds (s_pc s' t) = Some c -> s_stop s' = upd (s_stop s) c true -> stop_inv p s'.
Proof.
  intros [S1 S2 S3] Ht O Hc Eh Eh' Es. split; rewrite ?Es.
  - intros c' H. destruct (Z.eq_dec c' c) as [->|N]; [exists t; split; assumption|]. rewrite upd_other in H by exact N. destruct (S1 c' H) as (u & Hu & E). exists u. split; [exact Hu|].
    rewrite O; [exact E|]. intros ->. congruence.
  - intros u c' H. destruct (Z.eq_dec u t) as [->|N]; [rewrite Eh' in H; injection H as <-; apply upd_same|]. rewrite O in H by exact N. rewrite upd_other; [eapply S2; exact H|]. intros ->. rewrite (S2 _ _ H) in Hc. discriminate.
  - assert (G : forall u c', u <> t -> holds (s_pc s' u) = Some c' -> c' <> c) by (intros u c' N H ->; rewrite O in H by exact N; rewrite (S2 _ _ H) in Hc; discriminate).
    intros u v c' Hu Hv. destruct (Z.eq_dec u t) as [->|N]; destruct (Z.eq_dec v t) as [->|N']; try reflexivity.
    + exfalso. rewrite Eh' in Hu. injection Hu as <-. exact (G v c N' Hv eq_refl).
    + exfalso. rewrite Eh' in Hv. injection Hv as <-. exact (G u c N Hu eq_refl).
    + rewrite O in Hu, Hv by assumption. eapply S3; eassumption.
Qed.

Lemma upd_back {A} (f : Z -> A) c (v w : A) : f c = w -> forall x, upd (upd f c v) c w x = f x.
Proof. intros E x. destruct (Z.eq_dec x c) as [->|N]; [rewrite upd_same; symmetry; exact E|rewrite !upd_other by exact N; reflexivity]. Qed.

Lemma freach_stop p s : fpar_ok p -> freach p s -> stop_inv p s.
Proof.
  intros Hp H. induction H as [sh m H1 H2|s l s' R IH St].
  - split; cbn [finit s_stop s_pc]; intros; discriminate.
  - pose proof (freach_inv _ _ Hp R) as Iv. destruct St as [s t o s' Ht Hi Hs|s t c s' l Ht Hi Hc Hs|s s' He].
    + pose proof (start_post p s t o s' Hp Iv Hi Hs) as (c0 & i0 & new & A & _). pose proof (a_pc _ _ _ _ _ _ A) as O.
      assert (H0 : holds (s_pc s t) = None) by (rewrite Hi; reflexivity).
      assert (Same : holds (s_pc s' t) = None -> (forall x, s_stop s' x = s_stop s x) -> stop_inv p s').
      { intros Eh Es. assert (G : forall u, holds (s_pc s' u) = holds (s_pc s u)) by (intros u; destruct (Z.eq_dec u t) as [->|N]; [congruence|rewrite O by exact N; reflexivity]).
        destruct IH as [S1 S2 S3]. split.
        - intros c H. rewrite Es in H. destruct (S1 c H) as (u & Hu & E). exists u. rewrite G. split; assumption.
        - intros u c. rewrite G, Es. apply S2.
        - intros u v c. rewrite !G. apply S3. }
      destruct o as [|x|cpu|cpu|T a]; cbn [start] in Hs.
      * injection Hs as <-. apply Same; [cbn [s_pc set_pc]; rewrite upd_same; reflexivity|reflexivity].
      * destruct (existsb _ _); [|discriminate]. injection Hs as <-. apply Same; [cbn [s_pc set_pc]; rewrite upd_same; reflexivity|reflexivity].
      * destruct (_ && negb _) eqn:Ec; [|discriminate]. apply andb_prop in Ec. destruct Ec as (_ & Ec). apply negb_true_iff in Ec. injection Hs as <-.
        eapply stop_inv_take; [exact IH|exact Ht|exact O|exact Ec|exact H0|cbn [s_pc set_pc]; rewrite upd_same; reflexivity|reflexivity].
      * destruct (_ && negb _) eqn:Ec; [|discriminate]. apply andb_prop in Ec. destruct Ec as (_ & Ec). apply negb_true_iff in Ec.
        destruct (_ <? _).
        { injection Hs as <-. apply Same; [cbn [s_pc start_cpu set_cap stop_cpu]; exact H0|]. cbn [s_stop start_cpu set_cap stop_cpu]. apply upd_back. exact Ec. }
        destruct (s_slab s cpu) as [|x r]; injection Hs as <-; [exact IH|].
        eapply stop_inv_take; [exact IH|exact Ht|exact O|exact Ec|exact H0|cbn [s_pc set_pc]; rewrite upd_same; reflexivity|reflexivity].
      * destruct T; [| |discriminate]; destruct a; try discriminate; try (destruct (_ && _); [|discriminate]); injection Hs as <-; (apply Same; [cbn [s_pc set_pc]; rewrite upd_same; reflexivity|reflexivity]).
    + destruct (thread_step_good p s t c Hp Iv Hi Hc) as (s1 & l1 & E1 & (c0 & i0 & new & A & _) & _). assert (s1 = s') by congruence. subst s1.
      eapply stop_inv_keep; [exact IH|exact Ht|exact (a_pc _ _ _ _ _ _ A)|]. eapply thread_step_stop; eassumption.
    + destruct IH as [S1 S2 S3]. destruct He; split; cbn [s_stop s_pc set_at set_cap set_cfl]; assumption.
Qed.

(** A CPU is stopped exactly while a thread, and only one, drains or shrinks its cache; when no call is in progress all CPUs run. *)
Theorem flow_restarts : forall p s, fpar_ok p -> freach p s ->
  (forall c, s_stop s c = true <-> exists t, 0 <= t < f_nthr p /\ holds (s_pc s t) = Some c) /\
  (forall t u c, holds (s_pc s t) = Some c -> holds (s_pc s u) = Some c -> t = u) /\
  (quiescent p s -> forall c, s_stop s c = false).
Proof.
  intros p s Hp R. destruct (freach_stop p s Hp R) as [S1 S2 S3]. split; [intros c; split; [apply S1|intros (t & _ & H); eapply S2; exact H]|]. split; [exact S3|].
  intros Q c. destruct (s_stop s c) eqn:E; [|reflexivity]. destruct (S1 c E) as (t & Ht & H). rewrite (Q t Ht) in H. discriminate.
Qed.
Print Assumptions flow_restarts.

(** In run4 CPU 0 is stopped by thread 2; in run5 the drain is over. *)
Example stopped_run4 : match exec ep e0 run4 with Some (s, _) => (s_stop s 0, holds (s_pc s 2)) | None => (false, None) end = (true, Some 0).
Proof. vm_compute. reflexivity. Qed.
Example started_run5 : match exec ep e0 run5 with Some (s, _) => (s_stop s 0, holds (s_pc s 2)) | None => (true, None) end = (false, None).
Proof. vm_compute. reflexivity. Qed.
