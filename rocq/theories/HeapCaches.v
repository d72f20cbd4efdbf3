(** The per-CPU caches and the transfer caches inside the whole allocator: which objects they contain, and which are in the
    hands of threads inside their operations. *)
From Coq Require Import Permutation.
From Verif Require TransferCache TransferCacheProps.
From Verif Require Import Base Slab SlabProps SlabRseq SlabRseqProofs SlabRseqProps.

(** ** Per-CPU caches (internal/percpu_tcmalloc.h, cpu_cache.h)

    The objects of class [k] that a thread inside an operation is about to put into its CPU's cache. *)
Definition lop_objs (k : Z) (o : lop) : list Z :=
  match o with LPush cl x => if cl =? k then [x] else [] | LPushB cl batch => if cl =? k then batch else [] | _ => [] end.
Definition pc_objs (k : Z) (p : pc) : list Z :=
  match p with
  | Enter o | Loaded o _ _ | HaveCur o _ _ _ => lop_objs k o
  | PushStore cl item _ _ _ | PushCommit cl item _ _ _ => lop_objs k (LPush cl item)
  | PushLoop cl batch _ _ _ _ _ => lop_objs k (LPushB cl batch)
  | _ => []
  end.
(** The same for all threads 0, ..., n - 1. *)
Definition slab_hands (n k : Z) (s : rst) : list Z := flat_map (fun t => pc_objs k (pcs s t)) (zseq 0 (Z.to_nat n)).

(** The objects that went into, and came out of, the caches. *)
Definition l_put (k : Z) (l : label) : list Z := match l with LOp _ _ sl c _ _ => put1 sl c k l | _ => [] end.
Definition l_taken (k : Z) (l : label) : list Z := match l with LOp _ _ sl c _ _ => taken1 sl c k l | _ => [] end.
Definition puts (k : Z) (ls : list label) : list Z := flat_map (l_put k) ls.
Definition takens (k : Z) (ls : list label) : list Z := flat_map (l_taken k) ls.

(** The objects of class [k] in the caches of the regions [R] after the history [tr]. *)
Definition slab_objs (R : list (Z * Z)) (tr : list label) (k : Z) : list Z :=
  flat_map (fun r => fst (replay no_stacks tr (fst r) (snd r) k)) R.
(** [R] has all the regions that contain objects. *)
Definition regions_of (nclass : Z) (tr : list label) (R : list (Z * Z)) : Prop :=
  NoDup R /\ forall sl c k, 1 <= k < nclass -> ~ In (sl, c) R -> fst (replay no_stacks tr sl c k) = [].

Definition l_region (l : label) : option (Z * Z) := match l with LInit sl c | LOp _ _ sl c _ _ => Some (sl, c) | LCrash => None end.

Lemma put1_other sl c sl' c' k w cf o r : (sl', c') <> (sl, c) -> put1 sl' c' k (LOp w cf sl c o r) = [].
Proof.
  intros Hne. assert (E : at_region sl c sl' c' = false).
  { unfold at_region. destruct (Z.eqb_spec sl sl'), (Z.eqb_spec c c'); cbn [andb]; try reflexivity. subst. contradiction. }
  unfold put1. destruct o; try reflexivity; destruct r as [[]| | | | |]; try reflexivity; rewrite E; reflexivity.
Qed.
Lemma taken1_other sl c sl' c' k w cf o r : (sl', c') <> (sl, c) -> taken1 sl' c' k (LOp w cf sl c o r) = [].
Proof.
  intros Hne. assert (E : at_region sl c sl' c' = false).
  { unfold at_region. destruct (Z.eqb_spec sl sl'), (Z.eqb_spec c c'); cbn [andb]; try reflexivity. subst. contradiction. }
  unfold taken1. destruct o; try reflexivity; destruct r as [|[]| | | |]; try reflexivity; rewrite E; reflexivity.
Qed.

Ltac pcnt :=
  repeat match goal with H : Permutation _ _ |- _ => rewrite (Permutation_count_occ Z.eq_dec) in H end;
  apply (Permutation_count_occ Z.eq_dec); let x := fresh "x" in intros x;
  repeat match goal with H : forall x : Z, count_occ _ _ x = _ |- _ => specialize (H x) end;
  rewrite ?count_occ_app in *; cbn [count_occ] in *; lia.

Lemma flat_map_one {A} (f : A -> list Z) r0 : forall R, NoDup R -> In r0 R -> (forall r, r <> r0 -> f r = []) -> flat_map f R = f r0.
Proof.
  induction R as [|r R IH]; intros Hn Hi Ho; [destruct Hi|]. inversion Hn as [|? ? N1 N2]; subst. cbn [flat_map]. destruct Hi as [->|Hi].
  - assert (E : flat_map f R = []).
    { clear - N1 Ho. induction R as [|x R IH]; [reflexivity|]. cbn [flat_map]. rewrite Ho, IH; [reflexivity| |].
      - intros Hx. apply N1. right. assumption.
      - intros ->. apply N1. left. reflexivity. }
    rewrite E, app_nil_r. reflexivity.
  - rewrite Ho, IH; auto. intros ->. contradiction.
Qed.

Lemma flat_map_perm4 {A} (a b c d : A -> list Z) : forall R, (forall r, Permutation (a r ++ b r) (c r ++ d r)) ->
  Permutation (flat_map a R ++ flat_map b R) (flat_map c R ++ flat_map d R).
Proof.
  induction R as [|r R IH]; intros H; cbn [flat_map]; [reflexivity|]. specialize (IH H). specialize (H r). pcnt.
Qed.

Lemma slab_label nclass a l R : NoDup R -> (forall r, l_region l = Some r -> In r R) -> legal1 nclass a l ->
  match l with LOp _ cf _ _ _ _ => s_classes cf = nclass | _ => True end -> forall k, 1 <= k < nclass ->
  Permutation (l_put k l ++ flat_map (fun r => fst (a (fst r) (snd r) k)) R)
    (l_taken k l ++ flat_map (fun r => fst (replay1 a l (fst r) (snd r) k)) R).
Proof.
  intros Hn HR Hl Hc k Hk.
  assert (E : Permutation (flat_map (fun r => put1 (fst r) (snd r) k l) R ++ flat_map (fun r => fst (a (fst r) (snd r) k)) R)
     (flat_map (fun r => taken1 (fst r) (snd r) k l) R ++ flat_map (fun r => fst (replay1 a l (fst r) (snd r) k)) R)).
  { apply flat_map_perm4. intros r. apply (label_conserves nclass); assumption. }
  destruct l as [sl c|w cf sl c o r|]; [| |destruct Hl].
  - cbn [l_put l_taken]. rewrite !app_nil_l. cbn [put1 taken1] in E.
    assert (N : flat_map (fun _ : Z * Z => @nil Z) R = []) by (clear; induction R; auto). rewrite N in E. exact E.
  - cbn [l_put l_taken]. rewrite (flat_map_one _ (sl, c)) in E; [|assumption|apply HR; reflexivity|intros (x, y) Hne; apply put1_other; assumption].
    rewrite (flat_map_one (fun r0 => taken1 (fst r0) (snd r0) k _) (sl, c)) in E; [|assumption|apply HR; reflexivity|intros (x, y) Hne; apply taken1_other; assumption].
    exact E.
Qed.

Lemma replay1_other a l sl c k : l_region l <> Some (sl, c) -> replay1 a l sl c k = a sl c k.
Proof.
  destruct l as [sl' c'|w cf sl' c' o r|]; cbn [l_region replay1]; intros H; [| |reflexivity];
    (rewrite upd2_other; [reflexivity|]); destruct (Z.eq_dec sl sl') as [->|]; auto; destruct (Z.eq_dec c c') as [->|]; auto; contradiction.
Qed.

Definition zz_dec (x y : Z * Z) : {x = y} + {x <> y}.
Proof. decide equality; apply Z.eq_dec. Defined.

Lemma slab_trace nclass : forall ls a R, legal nclass a ls ->
  Forall (fun l => match l with LOp _ cf _ _ _ _ => s_classes cf = nclass | _ => True end) ls ->
  NoDup R -> (forall sl c k, 1 <= k < nclass -> ~ In (sl, c) R -> fst (a sl c k) = []) ->
  exists R', NoDup R' /\ (forall sl c k, 1 <= k < nclass -> ~ In (sl, c) R' -> fst (replay a ls sl c k) = []) /\
    forall k, 1 <= k < nclass ->
    Permutation (puts k ls ++ flat_map (fun r => fst (a (fst r) (snd r) k)) R)
      (takens k ls ++ flat_map (fun r => fst (replay a ls (fst r) (snd r) k)) R').
Proof.
  induction ls as [|l ls IH]; intros a R Hl Hf Hn HR.
  - exists R. split; [assumption|]. split; [assumption|]. intros k Hk. reflexivity.
  - destruct Hl as (Hl1 & Hl2). inversion Hf as [|? ? Hf1 Hf2]; subst.
    assert (H1 : exists R1, NoDup R1 /\ (forall r, l_region l = Some r -> In r R1) /\ (forall x, In x R -> In x R1) /\
       (forall k, 1 <= k < nclass -> flat_map (fun r => fst (a (fst r) (snd r) k)) R1 = flat_map (fun r => fst (a (fst r) (snd r) k)) R)).
    { destruct (l_region l) as [r|] eqn:Er; [|exists R; repeat split; auto; intros r; discriminate].
      destruct (in_dec zz_dec r R) as [Hi|Hi].
      - exists R. split; [assumption|]. split; [intros r' E; injection E as <-; assumption|]. auto.
      - exists (r :: R). split; [constructor; assumption|]. split; [intros r' E; injection E as <-; left; reflexivity|]. split; [right; assumption|].
        intros k Hk. cbn [flat_map]. destruct r as (sl, c). cbn [fst snd]. rewrite HR by assumption. reflexivity. }
    destruct H1 as (R1 & N1 & M1 & I1 & E1).
    destruct (IH (replay1 a l) R1 Hl2 Hf2 N1) as (R' & N' & HR' & P').
    { intros sl c k Hk Hno. rewrite replay1_other.
      - apply HR; [assumption|]. intros Hi. apply Hno. auto.
      - intros E. apply Hno. auto. }
    exists R'. split; [assumption|]. split; [exact HR'|]. intros k Hk. specialize (P' k Hk).
    pose proof (slab_label nclass a l R1 N1 M1 Hl1 Hf1 k Hk) as P1. rewrite E1 in P1 by assumption.
    unfold puts, takens in *. cbn [flat_map]. change (replay a (l :: ls)) with (replay (replay1 a l) ls). pcnt.
Qed.

(** A step moves objects between the caches and the threads and loses none. *)
Lemma slab_step ncpu nclass s tr ls s' R : reach ncpu nclass s tr -> rstep ncpu nclass s ls s' -> regions_of nclass tr R ->
  exists R', regions_of nclass (tr ++ ls) R' /\ forall k, 1 <= k < nclass ->
    Permutation (puts k ls ++ slab_objs R tr k) (takens k ls ++ slab_objs R' (tr ++ ls) k).
Proof.
  intros H Hs (Hn & HR). pose proof (rn_step _ _ _ _ _ _ H Hs) as H'. pose proof (slab_linearizable _ _ _ _ H') as Hl. apply legal_app in Hl. destruct Hl as (_ & Hl).
  pose proof (trace_cfg _ _ _ _ H') as Hf. apply Forall_app in Hf. destruct Hf as (_ & Hf).
  destruct (slab_trace nclass ls (replay no_stacks tr) R Hl Hf Hn HR) as (R' & A & B & C). exists R'. unfold regions_of, slab_objs. rewrite replay_app. auto.
Qed.

Lemma slab_start nclass : regions_of nclass [] [] /\ forall k, slab_objs [] [] k = [].
Proof. split; [|reflexivity]. split; [constructor|]. intros. reflexivity. Qed.

(** A step changes what the threads have inside their operations: a thread that starts an operation gives it its objects; a
    thread gets back the objects that were not put into a cache. *)
Lemma hands_change n k s s' t given add : (forall t', t' <> t -> pc_objs k (pcs s' t') = pc_objs k (pcs s t')) ->
  Permutation (given ++ pc_objs k (pcs s t)) (add ++ pc_objs k (pcs s' t)) ->
  (0 <= t < n \/ pc_objs k (pcs s t) = [] /\ pc_objs k (pcs s' t) = []) ->
  Permutation (given ++ slab_hands n k s) (add ++ slab_hands n k s').
Proof.
  intros Ho Hp Hr. unfold slab_hands.
  assert (Hout : forall m i, (t < i \/ i + Z.of_nat m <= t) -> flat_map (fun t => pc_objs k (pcs s' t)) (zseq i m) = flat_map (fun t => pc_objs k (pcs s t)) (zseq i m)).
  { induction m as [|m IH]; intros i Hi; [reflexivity|]. cbn [zseq flat_map]. rewrite IH by lia. rewrite Ho by lia. reflexivity. }
  assert (Hin : forall m i, i <= t < i + Z.of_nat m -> Permutation (given ++ flat_map (fun t => pc_objs k (pcs s t)) (zseq i m)) (add ++ flat_map (fun t => pc_objs k (pcs s' t)) (zseq i m))).
  { induction m as [|m IH]; intros i Hi; [lia|]. cbn [zseq flat_map]. destruct (Z.eq_dec i t) as [->|].
    - rewrite Hout by lia. clear - Hp. pcnt.
    - specialize (IH (i + 1) ltac:(lia)). rewrite (Ho i) by lia. clear - IH. pcnt. }
  destruct (Z_lt_dec t 0) as [Hlt|Hge]; [|destruct (Z_lt_dec t n) as [Hlt|Hge']].
  - destruct Hr as [Hr|(E1 & E2)]; [lia|]. rewrite E1, E2, !app_nil_r in Hp. rewrite Hout by lia. apply Permutation_app_tail. assumption.
  - apply Hin. lia.
  - destruct Hr as [Hr|(E1 & E2)]; [lia|]. rewrite E1, E2, !app_nil_r in Hp. rewrite Hout by lia. apply Permutation_app_tail. assumption.
Qed.

Lemma pc_objs_abort k p : pc_objs k (abort_pc p) = pc_objs k p.
Proof. destruct p; reflexivity. Qed.

Lemma at_region_refl sl c : at_region sl c sl c = true.
Proof. unfold at_region. rewrite !Z.eqb_refl. reflexivity. Qed.

(** What a thread gets back when its operation ends: the objects that its CPU's cache did not accept. *)
Definition rejected (k : Z) (l : label) : list Z :=
  match l with
  | LOp _ _ _ _ (OPush cl x) (RBool false) => if cl =? k then [x] else []
  | LOp _ _ _ _ (OPushBatch cl batch) (RNum n) => if cl =? k then firstn (length batch - Z.to_nat n) batch else []
  | _ => []
  end.
Definition back_of (s : rst) (t : Z) (s' : rst) (ls : list label) (k : Z) : list Z :=
  match ls with
  | [] => match pcs s' t with Idle => pc_objs k (pcs s t) | _ => [] end
  | l :: _ => rejected k l
  end.

Lemma tstep_hands k s t here s' ls : tstep s t here = (s', ls) ->
  (forall t', t' <> t -> pc_objs k (pcs s' t') = pc_objs k (pcs s t')) /\
  Permutation (pc_objs k (pcs s t)) ((puts k ls ++ back_of s t s' ls k) ++ pc_objs k (pcs s' t)).
Proof.
  intros E. split.
  - intros t' Hne. revert E. unfold tstep.
    destruct (pcs s t); repeat first [match goal with |- context [match ?x with _ => _ end] => destruct x end];
      intros E; injection E as <- <-; cbn [pcs set_pc set_reg set_word set_curr set_tls set_vcpu set_lock set_stopped set_fenced set_inited set_populated interrupt_cpu];
      rewrite ?upd_other by assumption; try reflexivity; destruct (on_cpu _ _ _); rewrite ?pc_objs_abort; reflexivity.
  - revert E. unfold tstep, back_of.
    destruct (pcs s t) eqn:Ep;
    repeat match goal with
           | |- (match ?x with _ => _ end = _) -> _ =>
               match x with on_cpu _ _ _ => fail 1 | context [match _ with _ => _ end] => fail 1 | _ => destruct x eqn:? end
           end;
      intros E; injection E as <- <-; cbn [pcs set_pc set_reg set_word set_curr set_tls set_vcpu set_lock set_stopped set_fenced set_inited set_populated interrupt_cpu];
      rewrite ?upd_same, ?Ep; cbn [puts flat_map l_put put1 pc_objs lop_objs app rejected]; rewrite ?at_region_refl; cbn [andb];
      rewrite ?app_nil_r, ?app_nil_l; try reflexivity.
    all: try (match goal with |- context [?z =? ?y] => destruct (z =? y) end; try reflexivity).
    all: try (rewrite Permutation_app_comm; rewrite firstn_skipn; reflexivity).
    match goal with |- context [if ?b then RPop _ else _] => destruct b end; reflexivity.
Qed.

Lemma slab_moves ncpu nclass n s ls s' : rstep ncpu nclass s ls s' ->
  (forall t, t < 0 \/ n <= t -> pcs s t = Idle /\ pcs s' t = Idle) ->
  exists given : Z -> list Z, exists back : Z -> list Z,
    ((forall k, given k = []) \/ exists t o, pcs s t = Idle /\ pcs s' t = Enter o /\ forall k, given k = lop_objs k o) /\
    forall k, Permutation (given k ++ slab_hands n k s) ((puts k ls ++ back k) ++ slab_hands n k s').
Proof.
  intros Hs Hidle.
  assert (Hsame : (forall k t, pc_objs k (pcs s' t) = pc_objs k (pcs s t)) -> (forall k, puts k ls = []) ->
     exists given : Z -> list Z, exists back : Z -> list Z,
    ((forall k, given k = []) \/ exists t o, pcs s t = Idle /\ pcs s' t = Enter o /\ forall k, given k = lop_objs k o) /\
    forall k, Permutation (given k ++ slab_hands n k s) ((puts k ls ++ back k) ++ slab_hands n k s')).
  { intros E P. exists (fun _ => []), (fun _ => []). split; [left; reflexivity|]. intros k. rewrite P. unfold slab_hands.
    assert (Ef : forall l, flat_map (fun t => pc_objs k (pcs s' t)) l = flat_map (fun t => pc_objs k (pcs s t)) l) by (intros l; apply flat_map_ext; intros; apply E).
    rewrite Ef. reflexivity. }
  assert (Hrange : forall t k, 0 <= t < n \/ pc_objs k (pcs s t) = [] /\ pc_objs k (pcs s' t) = []).
  { intros t k. destruct (Z_lt_dec t 0); [|destruct (Z_lt_dec t n); [left; lia|]]; right; destruct (Hidle t ltac:(lia)) as (-> & ->); split; reflexivity. }
  destruct Hs; try (apply Hsame; [intros k t'; cbn [pcs set_pc set_cpu interrupt set_reg set_word set_curr set_tls set_vcpu set_lock set_locks set_glob set_layout set_cur set_stopped set_fenced set_inited set_populated interrupt_cpu]; try (destruct (on_cpu _ _ _)); rewrite ?pc_objs_abort; try reflexivity|intros k; reflexivity]; fail).
  - apply Hsame; [|reflexivity]. intros k t'. cbn [pcs set_cpu interrupt set_pc]. destruct (Z.eq_dec t' t) as [->|]; [rewrite upd_same; apply pc_objs_abort|rewrite upd_other by assumption; reflexivity].
  - assert (Hp : (exists o, p = Enter o) \/ forall k, pc_objs k p = []) by (destruct p; try contradiction; try (right; reflexivity); left; eexists; reflexivity).
    destruct Hp as [(o & ->)|Hp];
      [|apply Hsame; [|reflexivity]; intros k t'; cbn [pcs set_pc]; destruct (Z.eq_dec t' t) as [->|]; [rewrite upd_same, H; apply Hp|rewrite upd_other by assumption; reflexivity]].
    exists (fun k => lop_objs k o), (fun _ => []). split.
    + right. exists t, o. split; [assumption|]. split; [cbn [pcs set_pc]; apply upd_same|reflexivity].
    + intros k. apply (hands_change n k s _ t).
      * intros t' Hne. cbn [pcs set_pc]. rewrite upd_other by assumption. reflexivity.
      * cbn [pcs set_pc]. rewrite upd_same, H. cbn [pc_objs puts flat_map app]. rewrite app_nil_r. reflexivity.
      * apply Hrange.
  - exists (fun _ => []), (back_of s t s' ls). split; [left; reflexivity|]. intros k. destruct (tstep_hands k s t here s' ls H0) as (A & B).
    apply (hands_change n k s s' t); [assumption|exact B|apply Hrange].
  - apply Hsame; [reflexivity|]. intros k. destruct o; try contradiction; reflexivity.
Qed.

(** ** Transfer caches (transfer_cache.h, transfer_cache_internals.h)

    A class has one or several transfer caches (one for each group of CPUs that share a last level cache, when they are sharded),
    each with the calls in progress on it. *)
Definition tcs := list (TransferCache.tc * list TransferCache.tact).
Definition tcs_objs (l : tcs) : list Z :=
  flat_map (fun x => TransferCacheProps.cached (fst x) ++ flat_map TransferCacheProps.held (snd x)) l.
Definition tcs_ok (l : tcs) : Prop :=
  Forall (fun x => TransferCacheProps.tc_ok (fst x) /\ Forall TransferCacheProps.act_ok (snd x)) l.

(** A call starts with objects of the thread; a call takes a step, in which it may use objects that the thread has got from the
    central free list, or leave objects to the thread for the central free list; a call ends and leaves its objects to the
    thread.  [given]: what the thread gives; [back]: what it gets. *)
Inductive tcs_step (b : Z) : tcs -> list Z -> list Z -> tcs -> Prop :=
| tc_call L1 t P L2 x : TransferCacheProps.tcall_ok x ->
    tcs_step b (L1 ++ (t, P) :: L2) (TransferCacheProps.carried (TransferCacheProps.tstart x)) []
      (L1 ++ (t, TransferCacheProps.tstart x :: P) :: L2)
| tc_act L1 t P1 a P2 L2 lock got t' a' l : TransferCache.tstep b t a lock got = (t', a', l) -> TransferCacheProps.answer_ok l ->
    tcs_step b (L1 ++ (t, P1 ++ a :: P2) :: L2) (TransferCacheProps.obtained l) (TransferCacheProps.forwarded l)
      (L1 ++ (t', P1 ++ a' :: P2) :: L2)
| tc_end L1 t P1 got ok P2 L2 :
    tcs_step b (L1 ++ (t, P1 ++ TransferCache.TDone got ok :: P2) :: L2) [] got (L1 ++ (t, P1 ++ P2) :: L2).

Lemma tstart_ok x : TransferCacheProps.tcall_ok x ->
  TransferCacheProps.act_ok (TransferCacheProps.tstart x) /\
  TransferCacheProps.held (TransferCacheProps.tstart x) = TransferCacheProps.carried (TransferCacheProps.tstart x).
Proof. destruct x; cbn; intros H; split; rewrite ?app_nil_r; try exact I; try lia; reflexivity. Qed.

Lemma tcs_conserves b L given back L' : 0 <= b -> tcs_ok L -> tcs_step b L given back L' ->
  tcs_ok L' /\ Permutation (given ++ tcs_objs L) (back ++ tcs_objs L').
Proof.
  intros Hb Ok Hs. destruct Hs.
  - destruct (tstart_ok x H) as (A & E). unfold tcs_ok in *. apply Forall_app in Ok. destruct Ok as (O1 & O2). inversion O2 as [|? ? (O3 & O4) O5]; subst.
    split; [apply Forall_app; split; [assumption|]; constructor; [split; [assumption|constructor; assumption]|assumption]|].
    unfold tcs_objs. rewrite !flat_map_app. cbn [flat_map fst snd]. rewrite E. clear. pcnt.
  - unfold tcs_ok in *. apply Forall_app in Ok. destruct Ok as (O1 & O2). inversion O2 as [|? ? (O3 & O4) O5]; subst. cbn [fst snd] in *.
    apply Forall_app in O4. destruct O4 as (O4 & O6). inversion O6 as [|? ? O7 O8]; subst.
    destruct (TransferCacheProps.tstep_spec b t a lock got t' a' l Hb O3 O7 H) as (T1 & T2 & _ & P).
    split; [apply Forall_app; split; [assumption|]; constructor; [split; [assumption|apply Forall_app; split; [assumption|constructor; assumption]]|assumption]|].
    unfold tcs_objs. rewrite !flat_map_app. cbn [flat_map fst snd]. rewrite !flat_map_app. cbn [flat_map]. clear - P. pcnt.
  - unfold tcs_ok in *. apply Forall_app in Ok. destruct Ok as (O1 & O2). inversion O2 as [|? ? (O3 & O4) O5]; subst. cbn [fst snd] in *.
    apply Forall_app in O4. destruct O4 as (O4 & O6). inversion O6 as [|? ? O7 O8]; subst.
    split; [apply Forall_app; split; [assumption|]; constructor; [split; [assumption|apply Forall_app; split; assumption]|assumption]|].
    unfold tcs_objs. rewrite !flat_map_app. cbn [flat_map fst snd]. rewrite !flat_map_app. cbn [flat_map].
    change (TransferCacheProps.held (TransferCache.TDone got ok)) with got. clear. pcnt.
Qed.
