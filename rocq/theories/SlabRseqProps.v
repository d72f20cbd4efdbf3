(** C23: for every schedule of preemption, migration and remote stops, drains and resizes,
    a push or pop on a per-CPU slab takes effect completely, on the CPU it runs on, or not
    at all, and no object is lost or duplicated. *)
From Verif Require Import Base Slab SlabProps SlabRseq SlabRseqProofs TransferCacheProps.
From Coq Require Import Permutation.

(** ** Every operation that takes effect does so at once *)

(** [legal] (SlabRseqProofs.v) replays the trace on one stack per CPU and class; the stacks
    change at the labels and nowhere else. *)
Theorem slab_linearizable ncpu nclass s tr : reach ncpu nclass s tr -> legal nclass no_stacks tr.
Proof. intros H. apply (reach_inv ncpu nclass s tr H). Qed.
Print Assumptions slab_linearizable.

(** Between labels the memory holds those stacks: in every reachable state, also in the
    middle of an operation, the region of a CPU in use reads as the stacks that the trace
    leaves; every other region has no object, unless it is waiting to be drained. *)
Theorem slab_memory ncpu nclass s tr : reach ncpu nclass s tr ->
  (forall c, populated s c = true -> refines (cfgs s (cur s)) (regs s (cur s) c) (replay no_stacks tr (cur s) c))
  /\ (forall c, populated s c = false -> forall cl, 1 <= cl < nclass -> fst (replay no_stacks tr (cur s) c cl) = [])
  /\ (glob s = GNone -> forall sl c, sl <> cur s -> forall cl, 1 <= cl < nclass -> fst (replay no_stacks tr sl c cl) = []).
Proof.
  intros H. destruct (reach_inv ncpu nclass s tr H) as [_ I]. split; [|split].
  - intros c Hc. apply (i_ref _ _ _ _ I), (i_pop _ _ _ _ I). assumption.
  - intros c Hc. apply (i_ecur _ _ _ _ I). assumption.
  - intros Hg sl c Hne. destruct (i_eold _ _ _ _ I sl c Hne) as [K|(todo & K & _)]; [exact K|congruence].
Qed.
Print Assumptions slab_memory.

(** ** An operation takes effect at most once, with the arguments it was called with *)

(** The operation that a thread is executing. *)
Definition doing (p : pc) : option sop :=
  match p with
  | Enter o | Loaded o _ _ | HaveCur o _ _ _ => Some (sop_of o)
  | PushStore cl item _ _ _ | PushCommit cl item _ _ _ => Some (OPush cl item)
  | PopCommit cl _ _ _ _ => Some (OPop cl)
  | PushLoop cl batch _ _ _ _ _ => Some (OPushBatch cl batch)
  | PopLoop cl len _ _ _ _ _ => Some (OPopBatch cl len)
  | Grow0 cl len | Grow1 cl len _ | Grow2 cl len _ _ _ _ | Grow3 cl len _ _ _ _ _ | Grow4 cl len _ _ _ _ _ => Some (OGrow cl len)
  | _ => None
  end.
Definition of_thread (t : Z) (l : label) : bool := match l with LOp (Local t' _ _) _ _ _ _ _ => t' =? t | _ => false end.

Lemma doing_abort p : doing (abort_pc p) = doing p.
Proof. destruct p; reflexivity. Qed.

Lemma tstep_other s t here t' : t' <> t ->
  doing (pcs (fst (tstep s t here)) t') = doing (pcs s t') /\ filter (of_thread t') (snd (tstep s t here)) = [].
Proof.
  intros Hne.
  assert (Hb : (t =? t') = false) by lia.
  unfold tstep. destruct (pcs s t) eqn:Epc;
    repeat match goal with
           | |- context [match ?x with _ => _ end] =>
               match x with on_cpu _ _ _ => fail 1 | context [match _ with _ => _ end] => fail 1 | _ => destruct x end
           end;
    cbn [fst snd]; (split;
      [sets; rewrite ?upd_other by assumption; try reflexivity; destruct (on_cpu _ _ _); rewrite ?doing_abort; reflexivity
      |cbn [filter of_thread]; rewrite ?Hb; reflexivity]).
Qed.

Lemma tstep_doing s t here o : doing (pcs s t) = Some o ->
  (doing (pcs (fst (tstep s t here)) t) = Some o /\ snd (tstep s t here) = [])
  \/ (pcs (fst (tstep s t here)) t = Idle
      /\ (snd (tstep s t here) = [] \/ exists cpu slabs cf sl c r, snd (tstep s t here) = [LOp (Local t cpu slabs) cf sl c o r])).
Proof.
  intros Hd. unfold tstep. destruct (pcs s t) eqn:Epc; cbn [doing] in Hd; try discriminate; injection Hd as <-;
    repeat match goal with
           | |- context [match ?x with _ => _ end] =>
               match x with context [match _ with _ => _ end] => fail 1 | _ => destruct x end
           end;
    cbn [fst snd]; sets; rewrite ?upd_same; cbn [doing sop_of];
    solve [left; split; reflexivity | right; split; [reflexivity|left; reflexivity]
          | right; split; [reflexivity|right; repeat eexists]].
Qed.

Theorem slab_op_once ncpu nclass s ls s' t o : rstep ncpu nclass s ls s' -> doing (pcs s t) = Some o ->
  (doing (pcs s' t) = Some o /\ filter (of_thread t) ls = [])
  \/ (pcs s' t = Idle
      /\ (filter (of_thread t) ls = [] \/ exists cpu slabs cf sl c r, filter (of_thread t) ls = [LOp (Local t cpu slabs) cf sl c o r])).
Proof.
  intros H Hd. inversion H; subst; clear H; sets; try (left; split; [assumption|reflexivity]).
  - left. split; [|reflexivity]. destruct (Z.eq_dec t t0) as [->|Hne]; [rewrite upd_same, doing_abort|rewrite upd_other by assumption]; assumption.
  - left. split; [|reflexivity]. destruct (Z.eq_dec t t0) as [->|Hne]; [|rewrite upd_other by assumption; assumption].
    rewrite H0 in Hd. discriminate.
  - destruct (Z.eq_dec t t0) as [->|Hne].
    + pose proof (tstep_doing s t0 here o Hd) as K. rewrite H1 in K. cbn [fst snd] in K.
      destruct K as [[K ->]|[K [->|(cpu & slabs & cf & sl & c & r & ->)]]]; [left; auto|right; auto|].
      right. split; [assumption|]. right. cbn [filter of_thread]. rewrite Z.eqb_refl. repeat eexists.
    + destruct (tstep_other s t0 here t Hne) as [K1 K2]. rewrite H1 in K1, K2. cbn [fst snd] in K1, K2. left. split; congruence.
  - left. split; [|reflexivity]. destruct (on_cpu s c t); rewrite ?doing_abort; assumption.
Qed.
Print Assumptions slab_op_once.

(** ** No object is lost or duplicated *)

(** The objects that a label puts into, and takes out of, a class of a CPU. *)
Definition at_region (sl c sl' c' : Z) : bool := (sl =? sl') && (c =? c').
Definition put1 (sl c cl : Z) (l : label) : list Z :=
  match l with
  | LOp _ _ sl' c' (OPush k x) (RBool true) => if at_region sl' c' sl c && (k =? cl) then [x] else []
  | LOp _ _ sl' c' (OPushBatch k batch) (RNum n) =>
      if at_region sl' c' sl c && (k =? cl) then skipn (length batch - Z.to_nat n) batch else []
  | _ => []
  end.
Definition taken1 (sl c cl : Z) (l : label) : list Z :=
  match l with
  | LOp _ _ sl' c' (OPop k) (RObj (Some x)) => if at_region sl' c' sl c && (k =? cl) then [x] else []
  | LOp _ _ sl' c' (OPopBatch k _) (RObjs l) => if at_region sl' c' sl c && (k =? cl) then l else []
  | LOp _ _ sl' c' (OShrink k _) (RShrunk l _) => if at_region sl' c' sl c && (k =? cl) then l else []
  | LOp _ _ sl' c' ODrain (RDrained l) =>
      if at_region sl' c' sl c then concat (map (fun e => let '(k, objs, _) := e in if k =? cl then objs else []) l) else []
  | _ => []
  end.
Definition put (sl c cl : Z) (tr : list label) : list Z := concat (map (put1 sl c cl) tr).
Definition taken (sl c cl : Z) (tr : list label) : list Z := concat (map (taken1 sl c cl) tr).

Lemma drained_at (f : Z -> list Z) (g : Z -> Z) cl : forall n k, k <= cl < k + Z.of_nat n ->
  concat (map (fun e => let '(k, objs, _) := e in if k =? cl then objs else []) (map (fun j => (j, f j, g j)) (zseq k n))) = f cl.
Proof.
  assert (Hz : forall n k, cl < k ->
    concat (map (fun e => let '(k, objs, _) := e in if k =? cl then objs else []) (map (fun j => (j, f j, g j)) (zseq k n))) = []).
  { induction n as [|n IH]; intros k Hk; [reflexivity|]. cbn [zseq map concat]. replace (k =? cl) with false by lia. apply IH. lia. }
  induction n as [|n IH]; intros k Hk; [lia|]. cbn [zseq map concat].
  destruct (Z.eqb_spec k cl) as [->|Hne]; [rewrite Hz by lia; apply app_nil_r|]. apply IH. lia.
Qed.

Lemma label_conserves nclass a l sl c cl : 1 <= cl < nclass -> legal1 nclass a l ->
  match l with LOp _ cf _ _ _ _ => s_classes cf = nclass | _ => True end ->
  Permutation (put1 sl c cl l ++ fst (a sl c cl)) (taken1 sl c cl l ++ fst (replay1 a l sl c cl)).
Proof.
  intros Hcl Hl Hk. destruct l as [sl' c'|w cf sl' c' o r|]; cbn [legal1 replay1 put1 taken1] in *.
  - destruct (Z.eq_dec sl' sl) as [->|H1]; [destruct (Z.eq_dec c' c) as [->|H2]|].
    + rewrite upd2_same. rewrite Hl by assumption. reflexivity.
    + rewrite upd2_other by (right; congruence). reflexivity.
    + rewrite upd2_other by (left; congruence). reflexivity.
  - destruct Hl as [-> _]. destruct (at_region sl' c' sl c) eqn:Ea; unfold at_region in Ea.
    + assert (sl' = sl) as -> by lia. assert (c' = c) as -> by lia. rewrite upd2_same.
      destruct o as [k x|k|k batch|k len|k len|k len|k len| |k|k|]; cbn [a_step andb].
      * destruct (a sl c k) as [l cap] eqn:E. destruct (zlen l <? cap); cbn [fst snd]; [|reflexivity].
        destruct (Z.eqb_spec k cl) as [->|Hne]; [rewrite upd_same, E; reflexivity|rewrite upd_other by congruence; reflexivity].
      * destruct (a sl c k) as [l cap] eqn:E. destruct l as [|x l]; cbn [fst snd]; [reflexivity|].
        destruct (Z.eqb_spec k cl) as [->|Hne]; [rewrite upd_same, E; reflexivity|rewrite upd_other by congruence; reflexivity].
      * destruct (a sl c k) as [l cap] eqn:E. cbn [fst snd].
        destruct (Z.eqb_spec k cl) as [->|Hne]; [rewrite upd_same, E; reflexivity|rewrite upd_other by congruence; reflexivity].
      * destruct (a sl c k) as [l cap] eqn:E. cbn [fst snd].
        destruct (Z.eqb_spec k cl) as [->|Hne]; [rewrite upd_same, E; cbn [fst app]; rewrite firstn_skipn; reflexivity|rewrite upd_other by congruence; reflexivity].
      * destruct (a sl c k) as [l cap] eqn:E. cbn [fst snd].
        destruct (Z.eq_dec k cl) as [->|Hne]; [rewrite upd_same, E; reflexivity|rewrite upd_other by congruence; reflexivity].
      * destruct (a sl c k) as [l cap] eqn:E. cbn [fst snd].
        destruct (Z.eq_dec k cl) as [->|Hne]; [rewrite upd_same, E; reflexivity|rewrite upd_other by congruence; reflexivity].
      * destruct (a sl c k) as [l cap] eqn:E. cbn [fst snd].
        destruct (Z.eqb_spec k cl) as [->|Hne]; [|rewrite upd_other by congruence; reflexivity].
        rewrite upd_same, E. cbn [fst app]. rewrite <- Permutation_rev, firstn_skipn. reflexivity.
      * cbn [fst snd app]. rewrite drained_at by lia. rewrite app_nil_r. apply Permutation_rev.
      * reflexivity.
      * reflexivity.
      * reflexivity.
    + rewrite upd2_other by lia.
      destruct o as [k x|k|k batch|k len|k len|k len|k len| |k|k|]; cbn [a_step andb];
        repeat match goal with
               | |- context [match ?x with _ => _ end] =>
                   match x with context [match _ with _ => _ end] => fail 1 | _ => destruct x end
               end; cbn [fst snd andb]; try reflexivity.
  - contradiction.
Qed.

Lemma trace_conserves nclass sl c cl : 1 <= cl < nclass -> forall tr a, legal nclass a tr ->
  Forall (fun l => match l with LOp _ cf _ _ _ _ => s_classes cf = nclass | _ => True end) tr ->
  Permutation (put sl c cl tr ++ fst (a sl c cl)) (taken sl c cl tr ++ fst (replay a tr sl c cl)).
Proof.
  intros Hcl. induction tr as [|l tr IH]; intros a Hl Hf; [reflexivity|].
  destruct Hl as [Hl1 Hl2]. inversion Hf as [|? ? Hf1 Hf2]; subst.
  pose proof (label_conserves nclass a l sl c cl Hcl Hl1 Hf1) as K1. specialize (IH _ Hl2 Hf2).
  unfold put, taken in *. cbn [map concat replay fold_left]. unfold replay in IH.
  rewrite <- !app_assoc. rewrite <- IH. rewrite (Permutation_app_swap_app (put1 sl c cl l)), (Permutation_app_swap_app (taken1 sl c cl l)).
  apply Permutation_app_head. exact K1.
Qed.

Lemma tstep_cfg s t here : Forall (fun l => match l with LOp _ cf sl _ _ _ => cf = cfgs s sl | _ => True end) (snd (tstep s t here)).
Proof.
  unfold tstep. destruct (pcs s t);
    repeat match goal with
           | |- context [match ?x with _ => _ end] =>
               match x with context [match _ with _ => _ end] => fail 1 | _ => destruct x end
           end; cbn [snd]; repeat constructor.
Qed.

Lemma trace_cfg ncpu nclass s tr : reach ncpu nclass s tr ->
  Forall (fun l => match l with LOp _ cf _ _ _ _ => s_classes cf = nclass | _ => True end) tr.
Proof.
  induction 1 as [|s s' tr ls H IH Hs]; [constructor|]. apply Forall_app. split; [assumption|].
  destruct (reach_inv _ _ _ _ H) as [_ I]. pose proof (i_lay _ _ _ _ I) as Hlay.
  inversion Hs; subst; try (constructor; [|constructor]); try constructor; try (apply Hlay).
  pose proof (tstep_cfg s t here) as K. rewrite H1 in K. cbn [snd] in K. revert K. apply Forall_impl.
  intros [| |]; try tauto. intros ->. apply Hlay.
Qed.

(** The objects ever put into a class of a CPU are exactly those taken out and those that
    the stacks (the memory, by [slab_memory]) hold, each as often. *)
Theorem slab_conserves ncpu nclass s tr sl c cl : reach ncpu nclass s tr -> 1 <= cl < nclass ->
  Permutation (put sl c cl tr) (taken sl c cl tr ++ fst (replay no_stacks tr sl c cl)).
Proof.
  intros H Hcl. pose proof (trace_conserves nclass sl c cl Hcl tr no_stacks (slab_linearizable _ _ _ _ H) (trace_cfg _ _ _ _ H)) as K.
  cbn [no_stacks fst] in K. rewrite app_nil_r in K. exact K.
Qed.
Print Assumptions slab_conserves.

(** Slabs that have been replaced have given back everything. *)
Theorem slab_resize_returns_all ncpu nclass s tr sl c cl : reach ncpu nclass s tr -> 1 <= cl < nclass ->
  glob s = GNone -> sl <> cur s -> Permutation (put sl c cl tr) (taken sl c cl tr).
Proof.
  intros H Hcl Hg Hne. pose proof (slab_conserves _ _ _ _ sl c cl H Hcl) as K.
  destruct (slab_memory _ _ _ _ H) as (_ & _ & E). rewrite (E Hg sl c Hne cl Hcl), app_nil_r in K. exact K.
Qed.
Print Assumptions slab_resize_returns_all.

(** ** A stopped CPU belongs to the thread that stopped it *)

(** Once a CPU is stopped and fenced, no step of a thread other than the holder of its
    lock changes its region. *)
Theorem slab_stopped_exclusive ncpu nclass s tr t here c : reach ncpu nclass s tr -> fenced s c = true ->
  cpu_of s t = Some here -> locks s c <> HeldBy t ->
  regs (fst (tstep s t here)) (cur s) c = regs s (cur s) c.
Proof.
  intros H Hf Hc Hl. destruct (reach_inv _ _ _ _ H) as [_ I].
  destruct (in_cs (pcs s t)) eqn:Ecs.
  - destruct (pcs s t) eqn:Epc; cbn [in_cs] in Ecs; try discriminate;
      try (destruct (cs_view _ _ _ _ t here I Hc ltac:(rewrite Epc; reflexivity) ltac:(intros ? ?; rewrite Epc; discriminate))
             as (sl' & c' & K1 & K2 & K3 & K4 & K5 & K6 & K7 & _); rewrite Epc in K7; cbn [data] in K7;
           destruct K7 as (K7 & K8 & _); assert (c' <> c) by congruence; subst sl' c');
      unfold tstep; rewrite Epc;
      repeat match goal with
           | |- context [match ?x with _ => _ end] =>
               match x with context [match _ with _ => _ end] => fail 1 | _ => destruct x end
           end; cbn [fst]; sets; try reflexivity; apply upd2_other; right; congruence.
  - unfold tstep. destruct (pcs s t) eqn:Epc; cbn [in_cs] in Ecs; try discriminate;
      repeat match goal with
           | |- context [match ?x with _ => _ end] =>
               match x with context [match _ with _ => _ end] => fail 1 | _ => destruct x end
           end; cbn [fst]; sets; try reflexivity.
    apply upd2_other. right. intros ->. apply Hl. apply (i_own _ _ _ _ I). rewrite Epc. reflexivity.
Qed.
Print Assumptions slab_stopped_exclusive.

(** No CPU is stopped while nobody holds its lock: the check that an operation finds the
    CPUs running when it stops them cannot fail. *)
Theorem slab_unlocked_running ncpu nclass s tr c : reach ncpu nclass s tr -> locks s c = Free -> 0 <= c < ncpu -> stopped s c = false.
Proof.
  intros H Hl Hc. destruct (reach_inv _ _ _ _ H) as [_ I]. destruct (stopped s c) eqn:E; [|reflexivity].
  destruct (i_stop _ _ _ _ I c E) as [_ [Hg|(t & K & _)]]; [|congruence].
  apply (i_all _ _ _ _ I c Hc) in Hg. congruence.
Qed.
Print Assumptions slab_unlocked_running.

(** A thread that pushes or pops runs on a CPU that is not stopped by a finished fence and
    uses the slabs in use. *)
Theorem slab_commit_current ncpu nclass s tr t here w cf sl c o r s' : reach ncpu nclass s tr -> cpu_of s t = Some here ->
  tstep s t here = (s', [LOp w cf sl c o r]) -> c = here /\ sl = cur s /\ fenced s c = false /\ populated s c = true.
Proof.
  intros H Hc Hs. destruct (reach_inv _ _ _ _ H) as [_ I].
  assert (Hcs : in_cs (pcs s t) = true /\ forall v sl, pcs s t <> Cache4s v sl).
  { unfold tstep in Hs. destruct (pcs s t); cbn [in_cs]; try (split; [reflexivity|discriminate]); exfalso; revert Hs;
      repeat match goal with
           | |- context [match ?x with _ => _ end] =>
               match x with context [match _ with _ => _ end] => fail 1 | _ => destruct x end
           end; discriminate. }
  destruct (cs_view _ _ _ _ t here I Hc (proj1 Hcs) (proj2 Hcs)) as (sl' & c' & K1 & K2 & K3 & K4 & K5 & K6 & K7 & _).
  assert (Hsl : c = c' /\ sl = sl').
  { unfold tstep in Hs. destruct (pcs s t); cbn [data] in K7; try (destruct Hcs; discriminate); revert Hs;
      repeat match goal with
           | |- context [match ?x with _ => _ end] =>
               match x with context [match _ with _ => _ end] => fail 1 | _ => destruct x end
           end; intros Hs; try discriminate Hs; injection Hs; intros; intuition congruence. }
  destruct Hsl as [-> ->]. rewrite K2 in *. auto.
Qed.
Print Assumptions slab_commit_current.

(** ** A concrete schedule *)
Fixpoint run_for (n : nat) (s : rst) (t here : Z) : rst * list label :=
  match n with
  | O => (s, [])
  | S n => let (s1, l1) := tstep s t here in let (s2, l2) := run_for n s1 t here in (s2, l1 ++ l2)
  end.
Lemma tstep_cpu s t here : cpu_of (fst (tstep s t here)) = cpu_of s.
Proof.
  unfold tstep. destruct (pcs s t);
    repeat match goal with
           | |- context [match ?x with _ => _ end] =>
               match x with context [match _ with _ => _ end] => fail 1 | _ => destruct x end
           end; reflexivity.
Qed.
Lemma run_reach ncpu nclass t here n : forall s tr, reach ncpu nclass s tr -> cpu_of s t = Some here ->
  reach ncpu nclass (fst (run_for n s t here)) (tr ++ snd (run_for n s t here)).
Proof.
  induction n as [|n IH]; intros s tr H Hc; cbn [run_for]; [cbn [fst snd]; rewrite app_nil_r; exact H|].
  destruct (tstep s t here) as [s1 l1] eqn:E1.
  assert (H1 : reach ncpu nclass s1 (tr ++ l1)) by (apply (rn_step _ _ s); [assumption|apply (st_thread _ _ s t here); assumption]).
  assert (Hc1 : cpu_of s1 t = Some here) by (pose proof (tstep_cpu s t here) as K; rewrite E1 in K; cbn [fst] in K; congruence).
  specialize (IH s1 _ H1 Hc1). destruct (run_for n s1 t here) as [s2 l2]. cbn [fst snd] in *. rewrite app_assoc. exact IH.
Qed.

Lemma do_remote ncpu nclass s t c o d : d = sop_step (cfgs s (cur s)) (begs s (cur s)) (regs s (cur s) c) o ->
  pcs s t = RWork c false -> cpu_of s t <> None -> populated s c = true -> remote_op nclass o ->
  rstep ncpu nclass s [LOp Remote (cfgs s (cur s)) (cur s) c o (snd d)] (set_reg s (cur s) c (fst d)).
Proof. intros -> H1 H2 H3 H4. eapply st_remote; eauto. apply surjective_pairing. Qed.

Definition ex_begins : Z -> Z := match init_slabs ex_cfg with Some b => b | None => fun _ => 0 end.
Definition ex_junk : region := Region (fun _ => 7) (fun _ => 7) (fun _ => 7).
Definition ex0 : rst :=
  Rst (fun _ => None) (fun _ => TNone) (fun _ => Idle) (fun _ => -1) (fun _ => false) (fun _ => Free) (fun _ => false)
      1 (fun _ => ex_cfg) (fun _ => ex_begins) (fun _ _ => ex_junk) GNone (fun _ => false) (fun _ _ => false).

(* Thread 7 runs on CPU 0: it looks up its CPU, which populates it, grows a class, pushes an object. *)
Definition ex1 : rst := set_cpu ex0 7 (Some 0).
Definition ex2 : rst := fst (run_for 18 (set_pc ex1 7 Cache0) 7 0).
Definition ex3 : rst := fst (run_for 6 (set_pc ex2 7 (Grow0 1 2)) 7 0).
Definition ex4 : rst := fst (run_for 6 (set_pc ex3 7 (Enter (LPush 1 8))) 7 0).
(* It pushes another; after the store of the object, before the commit, thread 9 on CPU 1 takes over and drains CPU 0. *)
Definition ex5 : rst := fst (run_for 4 (set_pc ex4 7 (Enter (LPush 1 16))) 7 0).
Definition ex6 : rst := set_cpu ex5 9 (Some 1).
Definition ex7 : rst := fst (run_for 3 (set_pc ex6 9 (RLock 0 false)) 9 1).
Definition ex_drain : region * sres := sop_step (cfgs ex7 (cur ex7)) (begs ex7 (cur ex7)) (regs ex7 (cur ex7) 0) ODrain.
Definition ex8 : rst := set_reg ex7 (cur ex7) 0 (fst ex_drain).
Definition ex9 : rst := fst (run_for 3 ex8 9 1).
(* Thread 7 goes on: its push starts again, finds no cached pointer, and has no effect. *)
Definition ex10 : rst := fst (run_for 2 ex9 7 0).

Definition ex_trace : list label :=
  [LInit 1 0; LOp (Local 7 0 1) ex_cfg 1 0 (OGrow 1 2) (RNum 2); LOp (Local 7 0 1) ex_cfg 1 0 (OPush 1 8) (RBool true);
   LOp Remote ex_cfg 1 0 ODrain (RDrained [(1, [8], 2); (2, [], 0); (3, [], 0); (4, [], 0)])].

Lemma ex_layout : layout_for 5 ex_cfg ex_begins.
Proof.
  split; [reflexivity|]. split; [apply ex_ok|]. split; [vm_compute; reflexivity|]. split; [vm_compute; reflexivity|].
  intros r. unfold init_cpu. vm_compute. discriminate.
Qed.

Example ex_reach : reach 2 5 ex10 ex_trace /\ pcs ex5 7 = PushCommit 1 16 1 0 5 /\ fenced ex7 0 = true /\ pcs ex10 7 = Idle.
Proof.
  split; [|vm_compute; auto].
  assert (R0 : reach 2 5 ex0 []) by (apply (rn_init _ _ ex0 ex_cfg ex_begins ex_layout); auto).
  assert (R1 : reach 2 5 ex1 []).
  { apply (rn_step _ _ ex0 _ [] []); [exact R0|]. apply (st_run 2 5 ex0 7 0); [reflexivity|lia|]. discriminate. }
  assert (R2 : reach 2 5 ex2 [LInit 1 0]).
  { change [LInit 1 0] with ([] ++ ([LInit 1 0] : list label)).
    apply (run_reach 2 5 7 0 18 (set_pc ex1 7 Cache0) [] ); [|reflexivity].
    apply (rn_step _ _ ex1 _ [] []); [exact R1|]. apply st_start; [reflexivity|exact I]. }
  assert (R3 : reach 2 5 ex3 (firstn 2 ex_trace)).
  { apply (run_reach 2 5 7 0 6 (set_pc ex2 7 (Grow0 1 2)) [LInit 1 0]); [|reflexivity].
    apply (rn_step _ _ ex2 _ [LInit 1 0] []); [exact R2|]. apply st_start; [vm_compute; reflexivity|]. cbn. lia. }
  assert (R4 : reach 2 5 ex4 (firstn 3 ex_trace)).
  { apply (run_reach 2 5 7 0 6 (set_pc ex3 7 (Enter (LPush 1 8))) (firstn 2 ex_trace)); [|reflexivity].
    apply (rn_step _ _ ex3 _ (firstn 2 ex_trace) []); [exact R3|]. apply st_start; [vm_compute; reflexivity|]. cbn. split; [lia|reflexivity]. }
  assert (R5 : reach 2 5 ex5 (firstn 3 ex_trace)).
  { apply (run_reach 2 5 7 0 4 (set_pc ex4 7 (Enter (LPush 1 16))) (firstn 3 ex_trace)); [|reflexivity].
    apply (rn_step _ _ ex4 _ (firstn 3 ex_trace) []); [exact R4|]. apply st_start; [vm_compute; reflexivity|]. cbn. split; [lia|reflexivity]. }
  assert (R6 : reach 2 5 ex6 (firstn 3 ex_trace)).
  { apply (rn_step _ _ ex5 _ (firstn 3 ex_trace) []); [exact R5|]. apply (st_run 2 5 ex5 9 1); [reflexivity|lia|].
    intros t'. change (cpu_of ex5 t') with (if t' =? 7 then Some 0 else None). destruct (t' =? 7); discriminate. }
  assert (R7 : reach 2 5 ex7 (firstn 3 ex_trace)).
  { apply (run_reach 2 5 9 1 3 (set_pc ex6 9 (RLock 0 false)) (firstn 3 ex_trace)); [|reflexivity].
    apply (rn_step _ _ ex6 _ (firstn 3 ex_trace) []); [exact R6|]. apply st_start; [vm_compute; reflexivity|]. cbn. lia. }
  assert (R8 : reach 2 5 ex8 ex_trace).
  { assert (E : [LOp Remote (cfgs ex7 (cur ex7)) (cur ex7) 0 ODrain (snd ex_drain)] = skipn 3 ex_trace) by (vm_compute; reflexivity).
    assert (K : rstep 2 5 ex7 [LOp Remote (cfgs ex7 (cur ex7)) (cur ex7) 0 ODrain (snd ex_drain)] ex8).
    { assert (Hd : ex_drain = sop_step (cfgs ex7 (cur ex7)) (begs ex7 (cur ex7)) (regs ex7 (cur ex7) 0) ODrain) by (unfold ex_drain; reflexivity).
      assert (H1 : pcs ex7 9 = RWork 0 false) by (vm_compute; reflexivity).
      assert (H2 : cpu_of ex7 9 <> None) by (vm_compute; discriminate).
      assert (H3 : populated ex7 0 = true) by (vm_compute; reflexivity).
      pose proof (do_remote 2 5 ex7 9 0 ODrain ex_drain Hd H1 H2 H3 I) as K. unfold ex8. exact K. }
    rewrite E in K. change ex_trace with (firstn 3 ex_trace ++ skipn 3 ex_trace). exact (rn_step _ _ _ _ _ _ R7 K). }
  assert (R9 : reach 2 5 ex9 ex_trace).
  { apply (run_reach 2 5 9 1 3 ex8 ex_trace); [exact R8|reflexivity]. }
  apply (run_reach 2 5 7 0 2 ex9 ex_trace); [exact R9|reflexivity].
Qed.
