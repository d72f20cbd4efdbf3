(** Property C44: malloc and free through all tiers lose no object and return none twice, under every schedule. *)
From Verif Require Import Base TransferCache TransferCacheProps CpuCache Flow FlowProofs.
From Coq Require Import Permutation.

(** * Specification

    [in_caches], [in_calls] and [all] of FlowProofs.v: the objects in the caches of all CPUs, of all shards, in the transfer
    cache and in the central free list; the objects that threads have in their hands ([pc_objs]); these and the live ones. *)
Definition quiescent (p : fpar) (s : fstate) : Prop := forall t, 0 <= t < f_nthr p -> s_pc s t = Idle.

(** * Theorems *)

(** At every time every object that the central free list has made of its spans is in exactly one place: in one cache, in the
    hands of one thread, or with the program; and there is nothing else anywhere. *)
Theorem flow_conserves : forall p s, fpar_ok p -> freach p s ->
  Permutation (s_owned s) (in_caches p s ++ in_calls p s ++ s_live s) /\ NoDup (in_caches p s ++ in_calls p s ++ s_live s).
Proof.
  intros p s Hp H. destruct (freach_inv p s Hp H) as [_ _ _ P N]. split; [exact P|]. eapply Permutation_NoDup; [exact P|exact N].
Qed.
Print Assumptions flow_conserves.

(** When no call is in progress, every object is in a cache or with the program: no path of malloc or free leaves one behind. *)
Theorem flow_nothing_lost : forall p s, fpar_ok p -> freach p s -> quiescent p s ->
  Permutation (s_owned s) (in_caches p s ++ s_live s).
Proof.
  intros p s Hp H Q. destruct (freach_inv p s Hp H) as [_ _ _ P N]. unfold all in P.
  assert (E : in_calls p s = []).
  { unfold in_calls, threads. assert (G : forall l, (forall t, In t l -> 0 <= t < f_nthr p) -> flat_map (fun t => pc_objs (s_pc s t)) l = []).
    { induction l as [|a l IH]; intros Hl; [reflexivity|]. cbn [flat_map]. rewrite IH by (intros; apply Hl; right; assumption). rewrite (Q a) by (apply Hl; left; reflexivity). reflexivity. }
    apply G. intros t Ht. apply zseq_In in Ht. lia. }
  rewrite E in P. exact P.
Qed.
Print Assumptions flow_nothing_lost.

(** What malloc returns was not live, becomes live, and is then in no cache and in no thread's hands. *)
Theorem flow_malloc_fresh : forall p s t x s', fpar_ok p -> freach p s -> fstep p s (t, LMalloc (Some x)) s' ->
  s_live s' = x :: s_live s /\ ~ In x (s_live s) /\ ~ In x (in_caches p s') /\ ~ In x (in_calls p s') /\ In x (s_owned s').
Proof.
  intros p s t x s' Hp H St. assert (R' : freach p s') by (eapply FR_step; eassumption).
  destruct (flow_conserves p s' Hp R') as (P & N). inversion St as [|? ? c ? ? Ht Hi Hc E|]; subst.
  destruct (thread_step_good p s t c Hp (freach_inv _ _ Hp H) Hi Hc) as (s1 & l1 & E1 & _ & L). rewrite E1 in E. injection E as <- ->. cbn [label_ok] in L.
  rewrite L in N, P. rewrite app_assoc in N. apply NoDup_remove in N. destruct N as (_ & N). rewrite !in_app_iff in N.
  split; [exact L|]. split; [tauto|]. split; [tauto|]. split; [tauto|]. eapply Permutation_in; [symmetry; exact P|]. rewrite !in_app_iff. cbn [In]. tauto.
Qed.
Print Assumptions flow_malloc_fresh.

(** malloc returns null only if the central free list got no memory for it during this very call: [s_oom] is cleared when the
    call starts (second part) and set only by an empty answer of the central free list to this thread (third part). *)
Theorem flow_null : forall p s t s', fpar_ok p -> freach p s ->
  (fstep p s (t, LMalloc None) s' -> s_oom s t = true) /\
  (start p s t OMalloc = Some s' -> s_oom s' t = false) /\
  (forall l, fstep p s l s' -> s_oom s t = false -> s_oom s' t = true ->
     exists n fr k, s_pc s t = InCall ((TCfl, TRemove n) :: fr) k /\ s_pc s' t = InCall ((TCfl, TDone [] true) :: fr) k).
Proof.
  intros p s t s' Hp H. pose proof (freach_inv _ _ Hp H) as Iv. split; [|split].
  - intros St. inversion St as [|? ? c ? ? Ht Hi Hc E|]; subst.
    destruct (thread_step_good p s t c Hp Iv Hi Hc) as (s1 & l1 & E1 & _ & L). rewrite E1 in E. injection E as <- ->. apply L.
  - intros E. injection E as <-. cbn [s_oom set_pc set_oom]. apply upd_same.
  - intros l St E0 E1. inversion St as [? t0 o ? Ht Hi Hs|? t0 c ? l0 Ht Hi Hc E|? ? He]; subst.
    + exfalso. destruct (Z.eq_dec t t0) as [->|N].
      * destruct o as [|x|cpu|cpu|T a]; cbn [start] in Hs.
        -- injection Hs as <-. cbn [s_oom set_pc set_oom] in E1. rewrite upd_same in E1. discriminate.
        -- destruct (existsb _ _); [|discriminate]. injection Hs as <-. cbn [s_oom set_pc set_live] in E1. congruence.
        -- destruct (_ && _); [|discriminate]. injection Hs as <-. cbn [s_oom set_pc set_cap set_slab stop_cpu] in E1. congruence.
        -- destruct (_ && _); [|discriminate]. destruct (_ <? _); [injection Hs as <-; cbn [s_oom set_cap start_cpu stop_cpu] in E1; congruence|].
           destruct (s_slab s cpu); injection Hs as <-; cbn [s_oom set_pc set_cap set_slab stop_cpu] in E1; congruence.
        -- destruct T; [| |discriminate]; destruct a; try discriminate; try (destruct (_ && _); [|discriminate]); injection Hs as <-; cbn [s_oom set_pc] in E1; congruence.
      * destruct (start_post p s t0 o s' Hp Iv Hi Hs) as (c & i & new & A & _). rewrite (a_oom _ _ _ _ _ _ A) in E1 by exact N. congruence.
    + destruct (Z.eq_dec t t0) as [->|N].
      2:{ exfalso. destruct (thread_step_good p s t0 c Hp Iv Hi Hc) as (s1 & l1 & E2 & (cc & i & new & A & _) & _). rewrite E2 in E. injection E as <- <-. rewrite (a_oom _ _ _ _ _ _ A) in E1 by exact N. congruence. }
      destruct (s_pc s t0) as [| | |cpu|cpu|target total r|target total r got b|x|x|cpu x|cpu x|target total b|cpu rest|fr k] eqn:Ep; unfold thread_step in E; rewrite Ep in E.
      all: try (exfalso; clear Hc; unfold go, ret_malloc, ret_free, ret_bg, enter_insert, enter_remove, refill_test, slab_pop, slab_push, slab_push_batch, slab_pop_batch, cache_cpu_slab, update_capacity, go, ret_malloc in E;
        repeat match type of E with
        | context [match ?d with _ => _ end] => lazymatch d with context [match _ with _ => _ end] => fail | _ => destruct d; cbn [fst snd obind] in E end
        end; try discriminate E; injection E as <- <-; cbn [s_oom set_pc set_live set_slab set_cap set_at start_cpu fst snd] in E1; congruence).
      destruct fr as [|(T & a) fr]; [discriminate|]. unfold call_step in E.
      assert (G : forall k' got, s_oom s t0 = false -> resume s t0 k' got = Some (s', l0) -> s_oom s' t0 = false).
      { intros k' got Ho. destruct k'; cbn [resume]; unfold refill_test, go, ret_malloc, ret_free, ret_bg;
        repeat match goal with |- context [match ?d with _ => _ end] => destruct d end; try discriminate; intros X; injection X as <- <-; exact Ho. }
      destruct T as [i| |].
      * exfalso. destruct a; cbn [tstep] in E; unfold go, enter_insert, enter_remove, go in E;
        repeat match type of E with context [match ?d with _ => _ end] => destruct d end; try discriminate E; try (injection E as <- <-; cbn [s_oom set_pc set_tc] in E1; congruence).
        all: rewrite (G _ _ E0 E) in E1; discriminate.
      * exfalso. destruct a; cbn [tstep] in E; unfold go, enter_insert, enter_remove, go in E;
        repeat match type of E with context [match ?d with _ => _ end] => destruct d end; try discriminate E; try (injection E as <- <-; cbn [s_oom set_pc set_tc] in E1; congruence).
        all: rewrite (G _ _ E0 E) in E1; discriminate.
      * destruct a; try discriminate.
        -- exfalso. unfold go in E. injection E as <- <-. cbn [s_oom set_pc set_cfl] in E1. congruence.
        -- unfold go in E. injection E as <- <-. cbn [s_oom s_pc set_pc set_oom] in E1 |- *. rewrite !upd_same in *. destruct (c_got c); [|congruence]. exists n, fr, k. split; [reflexivity|]. reflexivity.
        -- exfalso. destruct fr as [|y fr]; [rewrite (G _ _ E0 E) in E1; discriminate|]. unfold go in E. injection E as <- <-. cbn [s_oom set_pc] in E1. congruence.
    + exfalso. destruct He; cbn [s_oom set_at set_cap set_cfl] in E1; congruence.
Qed.
Print Assumptions flow_null.

(** No check of the code fails and no array is overrun, whatever the threads, the scheduler and the page heap do: batches have
    1 to kMaxObjectsToMove objects, the target is neither 0 nor above the capacity plus one.  And a thread is never stuck. *)
Theorem flow_safe : forall p s t, fpar_ok p -> freach p s -> s_pc s t <> Idle ->
  (forall c, choice_ok p s t c -> exists s' l, thread_step p s t c = Some (s', l)) /\
  (0 < f_ncpu p -> exists c, choice_ok p s t c).
Proof.
  intros p s t Hp H Hi. split.
  - intros c Hc. destruct (thread_step_good p s t c Hp (freach_inv _ _ Hp H) Hi Hc) as (s' & l & E & _). exists s', l. exact E.
  - intros Hn. pose proof (i_pc _ _ (freach_inv _ _ Hp H) t) as Q.
    exists (Ch 0 0 (match s_pc s t with AUpd c | DUpd c _ => s_cap s c | _ => 0 end) true [] (s_cfl s) []).
    split; [cbn [c_cpu]; lia|]. split; [cbn [c_succ]; lia|]. destruct (s_pc s t) as [| | |cpu|cpu|target total r|target total r got b|x|x|cpu x|cpu x|target total b|cpu rest|fr k]; try exact I; try (cbn [c_cap]; lia).
    destruct fr as [|(T & a) fr]; [exact I|]. destruct T; try exact I. destruct a; try exact I. split; [cbn [c_new c_got c_rest app]; rewrite app_nil_r; reflexivity|].
    split; [|split; [constructor|intros ? []]]. cbn [c_got]. destruct (waits k) eqn:Ew.
    + destruct (rem_of _ _ _ _ Q Ew) as (Rf & _). destruct fr; [|contradiction]. destruct Rf as (_ & Rf). cbn [snd] in Rf. unfold zlen. cbn [length]. lia.
    + destruct (ins_of _ _ _ _ Q Ew) as ((_ & F) & _). contradiction.
Qed.
Print Assumptions flow_safe.

(** Sizes: every batch that is passed on and every request; what the call of a program has in its hands (not the drain of a
    CPU); what a series of fetches or releases comes to. *)
Definition program_call (q : pc) : bool := match q with RDrain _ _ | InCall _ (KDrain _ _) => false | _ => true end.
Theorem flow_sizes : forall p s t, fpar_ok p -> freach p s ->
  (forall T a fr k, s_pc s t = InCall ((T, a) :: fr) k ->
     match a with
     | TInsert b | TInsertLock b | TInsertMiss b | TPlunderFlush b _ | TShrinkFlush b => 1 <= zlen b <= 128
     | TRemove n | TRemoveLock n | TRemoveMiss n => 1 <= n <= 128
     | TDone got _ => zlen got <= 128
     | _ => True
     end) /\
  (program_call (s_pc s t) = true -> zlen (pc_objs (s_pc s t)) <= 129) /\
  (forall target total r got b, s_pc s t = APush target total r got b -> total <= target) /\
  (forall fr target total count, s_pc s t = InCall fr (KOver target total count) -> total <= target).
Proof.
  intros p s t Hp H. pose proof (i_pc _ _ (freach_inv _ _ Hp H) t) as Q.
  assert (Ho : forall r, zlen (oobj r) <= 1) by (intros [x|]; unfold zlen; cbn [oobj length]; lia).
  assert (Hins : forall x, ins_ok p x -> zlen (held (snd x)) <= 128).
  { intros (T & a) (_ & Ha). cbn [fst snd] in *. unfold held. destruct a; cbn [carried app]; rewrite ?app_nil_r; unfold sized, kMaxObjectsToMove in Ha; try contradiction; try (rewrite Ha); unfold zlen in *; cbn [length]; lia. }
  split; [|split; [|split]].
  - intros T a fr k E. rewrite E in Q. destruct (waits k) eqn:Ew.
    + destruct (rem_of _ _ _ _ Q Ew) as (Rf & Rl). destruct fr; [|contradiction]. destruct Rf as (_ & Rf). cbn [snd] in Rf. unfold kMaxObjectsToMove in *.
      destruct a; try contradiction; lia.
    + destruct (ins_of _ _ _ _ Q Ew) as ((_ & If) & _). cbn [fst snd] in If. unfold sized, kMaxObjectsToMove in If. destruct a; try contradiction; try exact I; try lia.
      rewrite If. unfold zlen. cbn [length]. lia.
  - intros Hpc. destruct (s_pc s t) as [| | |cpu|cpu|target total r|target total r got b|x|x|cpu x|cpu x|target total b|cpu rest|fr k] eqn:E; cbn [pc_objs]; try (unfold zlen; cbn [length]; lia).
    + specialize (Ho r). lia.
    + rewrite zlen_app. destruct Q as (_ & _ & _ & _ & (_ & Q) & _). specialize (Ho r). unfold kMaxObjectsToMove in Q. lia.
    + destruct Q as (_ & _ & Q). lia.
    + discriminate.
    + destruct (waits k) eqn:Ew.
      * destruct (rem_of _ _ _ _ Q Ew) as (Rf & Rl). destruct fr as [|(T & a) [|? ?]]; try contradiction. destruct Rf as (_ & Rf). cbn [snd] in Rf. cbn [flat_map snd]. rewrite app_nil_r, zlen_app. unfold kMaxObjectsToMove in Rl.
        assert (zlen (held a) <= 128) by (unfold held; destruct a; cbn [carried app]; try contradiction; unfold zlen in *; cbn [length]; lia).
        assert (zlen (kont_objs k) <= 1) by (destruct k; try discriminate Ew; cbn [kont_objs]; [unfold zlen; cbn [length]; lia|apply Ho]). lia.
      * pose proof (ins_of _ _ _ _ Q Ew) as If. destruct fr as [|x fr]; [contradiction|]. destruct If as (If & Iq). cbn [flat_map]. rewrite (ins_frames_held p fr Iq), app_nil_r, zlen_app. specialize (Hins x If).
        assert (zlen (kont_objs k) <= 1) by (destruct k; try discriminate Hpc; cbn [kont_objs]; try apply Ho; unfold zlen; cbn [length]; lia). lia.
  - intros target total r got b E. rewrite E in Q. cbn [pc_ok] in Q. lia.
  - intros fr target total count E. rewrite E in Q. cbn [pc_ok] in Q. lia.
Qed.
Print Assumptions flow_sizes.

(** The cache of a CPU is never above its capacity, and while a CPU is stopped nobody changes it. *)
Theorem flow_stopped : forall p s, fpar_ok p -> freach p s ->
  (forall c, zlen (s_slab s c) <= s_cap s c) /\
  (forall t c, s_at s t = Some c -> s_stop s c = false) /\
  (forall l s' c, fstep p s l s' -> s_stop s c = true -> s_slab s' c = s_slab s c).
Proof.
  intros p s Hp H. pose proof (freach_inv _ _ Hp H) as Iv. pose proof (i_w _ _ Iv) as W. split; [apply (w_cap _ _ W)|]. split; [intros t c E; apply (w_at _ _ W t c E)|].
  intros l s' c St Hc.
  assert (G : forall t c', s_at s t = Some c' -> c <> c') by (intros t c' E ->; pose proof (w_at _ _ W t c' E); intuition congruence).
  inversion St as [? t o ? Ht Hi Hs|? t cc ? l0 Ht Hi Hcc E|? ? He]; subst.
  - destruct o as [|x|cpu|cpu|T a]; cbn [start] in Hs.
    + injection Hs as <-. reflexivity.
    + destruct (existsb _ _); [|discriminate]. injection Hs as <-. reflexivity.
    + destruct (_ && negb _) eqn:Ec; [|discriminate]. apply andb_prop in Ec. destruct Ec as (_ & Ec). injection Hs as <-. cbn [s_slab set_pc set_cap set_slab stop_cpu].
      apply upd_other. intros ->. rewrite Hc in Ec. discriminate.
    + destruct (_ && negb _) eqn:Ec; [|discriminate]. apply andb_prop in Ec. destruct Ec as (_ & Ec). assert (c <> cpu) by (intros ->; rewrite Hc in Ec; discriminate).
      destruct (_ <? _); [injection Hs as <-; reflexivity|]. destruct (s_slab s cpu); injection Hs as <-; [reflexivity|]. cbn [s_slab set_pc set_cap set_slab stop_cpu]. apply upd_other. assumption.
    + destruct T; [| |discriminate]; destruct a; try discriminate; try (destruct (_ && _); [|discriminate]); injection Hs as <-; reflexivity.
  - assert (G1 : forall x s1, slab_pop s t = Some (x, s1) -> s_slab s1 c = s_slab s c).
    { unfold slab_pop. intros x s1. destruct (s_at s t) as [c1|] eqn:Ea; [|discriminate]. destruct (s_slab s c1); [discriminate|]. intros X. injection X as _ <-. cbn [s_slab set_slab]. apply upd_other. eapply G. exact Ea. }
    assert (G2 : forall x s1, slab_push s t x = Some s1 -> s_slab s1 c = s_slab s c).
    { unfold slab_push. intros x s1. destruct (s_at s t) as [c1|] eqn:Ea; [|discriminate]. destruct (_ <? _); [|discriminate]. intros X. injection X as <-. cbn [s_slab set_slab]. apply upd_other. eapply G. exact Ea. }
    assert (G3 : forall b, s_slab (fst (slab_push_batch s t b)) c = s_slab s c).
    { unfold slab_push_batch. intros b. destruct (s_at s t) as [c1|] eqn:Ea; [|reflexivity]. cbn [s_slab set_slab fst]. apply upd_other. eapply G. exact Ea. }
    assert (G4 : forall n, s_slab (fst (slab_pop_batch s t n)) c = s_slab s c).
    { unfold slab_pop_batch. intros n. destruct (s_at s t) as [c1|] eqn:Ea; [|reflexivity]. cbn [s_slab set_slab fst]. apply upd_other. eapply G. exact Ea. }
    assert (G5 : s_slab (fst (cache_cpu_slab s t cc)) c = s_slab s c).
    { unfold cache_cpu_slab. destruct (s_at s t); [reflexivity|]. destruct (s_stop s (c_cpu cc)); reflexivity. }
    assert (G6 : forall k' got, resume s t k' got = Some (s', l0) -> s_slab s' c = s_slab s c).
    { intros k' got. destruct k'; cbn [resume]; unfold refill_test, go, ret_malloc, ret_free, ret_bg;
      repeat match goal with |- context [match ?d with _ => _ end] => destruct d end; try discriminate; intros X; injection X as <- <-; reflexivity. }
    assert (G7 : forall T x, s_slab (set_tc s T x) = s_slab s) by (intros [i| |] x; reflexivity).
    unfold thread_step in E.
    destruct (s_pc s t) as [| | |cpu|cpu|target total r|target total r got b|x|x|cpu x|cpu x|target total b|cpu rest|fr k].
    + congruence.
    + destruct (slab_pop s t) as [(x & s1)|]; injection E as <- <-; [exact (G1 _ _ eq_refl)|reflexivity].
    + destruct (f_bypass p); [unfold enter_remove, go in E; destruct (_ && _); [|discriminate]; injection E as <- <-; reflexivity|].
      destruct (cache_cpu_slab s t cc) as (s1 & r). cbn [fst] in G5. destruct r; unfold enter_remove, go in E; try (destruct (_ && _); [|discriminate]); injection E as <- <-; exact G5.
    + destruct (slab_pop s t) as [(x & s1)|]; injection E as <- <-; [exact (G1 _ _ eq_refl)|reflexivity].
    + unfold update_capacity in E. destruct (_ && _); [|discriminate]. cbn [obind] in E. injection E as <- <-. reflexivity.
    + unfold enter_remove, go in E. destruct (_ && _); [|discriminate]. injection E as <- <-. reflexivity.
    + specialize (G3 b). destruct (slab_push_batch s t b) as (s1 & rest). cbn [fst] in G3. destruct rest; unfold refill_test, enter_insert, go, ret_malloc in E.
      * destruct (_ && _); injection E as <- <-; exact G3.
      * destruct (_ && _); [|discriminate]. injection E as <- <-. exact G3.
    + destruct (slab_push s t x) as [s1|] eqn:Ep; injection E as <- <-; [exact (G2 _ _ Ep)|reflexivity].
    + destruct (f_bypass p); [unfold enter_insert, go in E; destruct (_ && _); [|discriminate]; injection E as <- <-; reflexivity|].
      destruct (cache_cpu_slab s t cc) as (s1 & r). cbn [fst] in G5. destruct r; unfold enter_insert, go in E; try (destruct (_ && _); [|discriminate]); injection E as <- <-; exact G5.
    + destruct (slab_push s t x) as [s1|] eqn:Ep; injection E as <- <-; [exact (G2 _ _ Ep)|reflexivity].
    + unfold update_capacity in E. destruct (_ && _); [|discriminate]. cbn [obind] in E. injection E as <- <-. reflexivity.
    + set (want := Z.min _ _) in *. specialize (G4 (want - zlen b)). destruct (zlen b <? want); [destruct (slab_pop_batch s t (want - zlen b)) as (s1 & more); cbn [fst] in G4|];
      (match type of E with context [b ++ ?m] => destruct (b ++ m) end; unfold ret_free, enter_insert, go in E; [|destruct (_ && _); [|discriminate]]; injection E as <- <-; first [exact G4|reflexivity]).
    + destruct rest; unfold ret_bg, enter_insert, go in E; [|destruct (_ && _); [|discriminate]]; injection E as <- <-; reflexivity.
    + destruct fr as [|(T & a) fr]; [discriminate|]. unfold call_step in E. destruct T as [i| |]; destruct a; try discriminate; try (destruct fr as [|y fr]; [eapply G6; exact E|injection E as <- <-; reflexivity]);
      try (unfold go in E; injection E as <- <-; reflexivity); try (unfold enter_remove, go in E; destruct (_ && _); [|discriminate]; injection E as <- <-; reflexivity);
      (destruct (tstep _ _ _ _ _) as ((x & a') & l1); destruct l1; unfold enter_insert, go in E; try (destruct (_ && _); [|discriminate]); injection E as <- <-; reflexivity).
  - destruct He; reflexivity.
Qed.
Print Assumptions flow_stopped.
