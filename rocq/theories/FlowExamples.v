(** Concrete executions of Flow.v: the hypotheses of the theorems of FlowProps.v and FlowLive.v hold in them, and every path of
    malloc and free is taken. *)
From Verif Require Import Base TransferCache TransferCacheProps CpuCache Flow FlowProofs FlowProps FlowLive.
From Coq Require Import Permutation.

(** A schedule: calls, steps (with the CPU, the capacity after UpdateCapacity, how many objects the central free list returns and
    which objects it makes of new spans), rescheduling, new capacities. *)
Inductive action := XCall (t : Z) (o : fop) | XStep (t cpu cap : Z) (lock : bool) (n : nat) (new : list Z) | XAway (t : Z) | XCap (c v : Z).

Definition member (x : Z) (l : list Z) : bool := existsb (Z.eqb x) l.
Fixpoint distinct (l : list Z) : bool := match l with [] => true | x :: r => negb (member x r) && distinct r end.
Definition idle (q : pc) : bool := match q with Idle => true | _ => false end.
Definition allowed (p : fpar) (s : fstate) (t : Z) (c : choice) : bool :=
  (0 <=? c_cpu c) && (c_cpu c <? f_ncpu p) && (0 <=? c_succ c) &&
  match s_pc s t with
  | AUpd cpu | DUpd cpu _ => s_cap s cpu <=? c_cap c
  | InCall ((TCfl, TRemove n) :: _) _ => (zlen (c_got c) <=? n) && distinct (c_new c) && forallb (fun x => negb (member x (s_owned s))) (c_new c)
  | _ => true
  end.
Definition act1 (p : fpar) (s : fstate) (a : action) : option (fstate * flabel) :=
  match a with
  | XCall t o => if (0 <=? t) && (t <? f_nthr p) && idle (s_pc s t) then match start p s t o with Some s' => Some (s', LNone) | None => None end else None
  | XStep t cpu cap lock n new =>
      let all := s_cfl s ++ new in
      let c := Ch cpu 0 cap lock (firstn n all) (skipn n all) new in
      if (0 <=? t) && (t <? f_nthr p) && negb (idle (s_pc s t)) && allowed p s t c then thread_step p s t c else None
  | XAway t => Some (set_at s t None, LNone)
  | XCap c v => if zlen (s_slab s c) <=? v then Some (set_cap s c v, LNone) else None
  end.
Fixpoint exec (p : fpar) (s : fstate) (l : list action) : option (fstate * list flabel) :=
  match l with
  | [] => Some (s, [])
  | a :: r => match act1 p s a with
              | Some (s', y) => match exec p s' r with Some (s'', ys) => Some (s'', match y with LNone => ys | _ => y :: ys end) | None => None end
              | None => None
              end
  end.

Lemma member_in x l : member x l = false -> ~ In x l.
Proof. unfold member. intros H Hx. assert (existsb (Z.eqb x) l = true) by (apply existsb_exists; exists x; split; [exact Hx|apply Z.eqb_refl]). congruence. Qed.
Lemma distinct_nd l : distinct l = true -> NoDup l.
Proof. induction l as [|x l IH]; cbn [distinct]; [constructor|]. intros H. apply andb_prop in H. destruct H as (H1 & H2). constructor; [apply member_in; destruct (member x l); [discriminate|reflexivity]|apply IH; exact H2]. Qed.

Lemma act1_step p s a s' y : act1 p s a = Some (s', y) -> exists l, fstep p s l s'.
Proof.
  destruct a as [t o|t cpu cap lock n new|t|c v]; cbn [act1].
  - destruct (_ && _) eqn:B; [|discriminate]. apply andb_prop in B. destruct B as (B & Bi). apply andb_prop in B. destruct B as (B1 & B2).
    destruct (start p s t o) as [s1|] eqn:E; [|discriminate]. intros H. injection H as <- <-. exists (t, LNone). eapply FS_start; [lia|destruct (s_pc s t); (reflexivity || discriminate)|exact E].
  - cbv zeta. set (c := Ch _ _ _ _ _ _ _). destruct (_ && _) eqn:B; [|discriminate]. apply andb_prop in B. destruct B as (B & Ba). apply andb_prop in B. destruct B as (B & Bi). apply andb_prop in B. destruct B as (B1 & B2).
    intros H. exists (t, y). eapply FS_thread; [lia|intros X; rewrite X in Bi; discriminate| |exact H].
    unfold allowed in Ba. apply andb_prop in Ba. destruct Ba as (Ba & Bc). apply andb_prop in Ba. destruct Ba as (Ba & Bs). apply andb_prop in Ba. destruct Ba as (Ba & Bb).
    split; [lia|]. split; [lia|]. destruct (s_pc s t) as [| | |?|?|? ? ?|? ? ? ? ?|?|?|? ?|? ?|? ? ?|? ?|fr k]; try exact I; try lia.
    destruct fr as [|(T & a) fr]; [exact I|]. destruct T; try exact I. destruct a; try exact I.
    apply andb_prop in Bc. destruct Bc as (Bc & Bf). apply andb_prop in Bc. destruct Bc as (Bn & Bd).
    split; [cbn [c_new c_got c_rest c]; rewrite firstn_skipn; reflexivity|]. split; [lia|]. split; [apply distinct_nd; exact Bd|].
    intros x Hx. rewrite forallb_forall in Bf. specialize (Bf x Hx). apply member_in. destruct (member x (s_owned s)); [discriminate|reflexivity].
  - intros H. injection H as <- <-. eexists. apply FS_env. constructor.
  - destruct (_ <=? _) eqn:B; [|discriminate]. intros H. injection H as <- <-. eexists. apply FS_env. constructor. lia.
Qed.
Lemma exec_reach p l : forall s s' ys, freach p s -> exec p s l = Some (s', ys) -> freach p s'.
Proof.
  induction l as [|a l IH]; cbn [exec]; intros s s' ys R E; [injection E as <- <-; exact R|].
  destruct (act1 p s a) as [(s1 & y)|] eqn:Ea; [|discriminate]. destruct (exec p s1 l) as [(s2 & ys2)|] eqn:Ex; [|discriminate]. injection E as <- <-.
  destruct (act1_step _ _ _ _ _ Ea) as (lb & St). eapply IH; [econstructor; [exact R|exact St]|exact Ex].
Qed.

(** Two CPUs with one shared cache in front of the transfer cache, three threads, batches of 2. *)
Definition ep : fpar := FPar 2 1 3 2 false true (fun _ => 0).
Lemma ep_ok : fpar_ok ep.
Proof. split; [unfold kMaxObjectsToMove; cbn; lia|]. intros c _. cbn. lia. Qed.
Definition e0 : fstate := finit (fun _ => tc_new 4 8) (tc_new 2 4).
Lemma e0_reach : freach ep e0.
Proof. constructor; [intros i|]; eexists _, _; (split; [|reflexivity]); lia. Qed.

Definition st (t cpu : Z) : action := XStep t cpu 4 true 0 [].
Fixpoint rep (n : nat) (a : action) : list action := match n with O => [] | S m => a :: rep m a end.

(** The first malloc of thread 0, on CPU 0: the slab is empty and its capacity grows to 4; both transfer caches are empty; the
    central free list makes the objects 10 to 14 of a new span and returns two.  One is returned, the other cached. *)
Definition run1 : list action := XCall 0 OMalloc :: rep 9 (st 0 0) ++ [XStep 0 0 4 true 2 [10; 11; 12; 13; 14]] ++ rep 2 (st 0 0).
Definition view (r : option (fstate * list flabel)) :=
  match r with
  | Some (s, ys) => Some (map (s_slab s) [0; 1], map (s_pc s) [0; 1; 2], (cached (s_shard s 0), cached (s_main s), s_cfl s), s_live s, ys)
  | None => None
  end.
Example run1_ok : view (exec ep e0 run1) =
  Some ([[10]; []], [Idle; Idle; Idle], ([], [], [12; 13; 14]), [11], [LMalloc (Some 11)]).
Proof. vm_compute. reflexivity. Qed.
(** Then thread 0 takes the cached object without leaving the fast path; thread 1 on CPU 1 gets one more from the central free
    list, is rescheduled before it can put the other into CPU 1's cache, and gives it to the shared cache. *)
Definition run2 : list action :=
  run1 ++ [XCall 0 OMalloc; st 0 0] ++
  XCall 1 OMalloc :: rep 9 (st 1 1) ++ [XStep 1 1 4 true 2 []; st 1 1; XAway 1] ++ rep 4 (st 1 0).
Example run2_ok : view (exec ep e0 run2) =
  Some ([[]; []], [Idle; Idle; Idle], ([12], [], [14]), [13; 10; 11], [LMalloc (Some 11); LMalloc (Some 10); LMalloc (Some 13)]).
Proof. vm_compute. reflexivity. Qed.
(** The program frees on CPU 0, whose capacity is now 2; for the third object there is no room: it goes to the shared cache with
    one of the cached objects. *)
Definition free1 (t x : Z) : list action := [XCall t (OFree x); st t 0].
Definition st2 (t cpu : Z) : action := XStep t cpu 2 true 0 [].
Definition run3 : list action := run2 ++ [XCap 0 2] ++ free1 0 10 ++ free1 0 11 ++ XCall 0 (OFree 13) :: rep 7 (st2 0 0).
Example run3_ok : view (exec ep e0 run3) =
  Some ([[10]; []], [Idle; Idle; Idle], ([12; 13; 11], [], [14]), [], [LMalloc (Some 11); LMalloc (Some 10); LMalloc (Some 13); LFree; LFree; LFree]).
Proof. vm_compute. reflexivity. Qed.
(** The background thread 2 drains CPU 0.  While the CPU is stopped thread 0 cannot use its cache and takes one object of the shared cache. *)
Definition run4 : list action := run3 ++ XCall 2 (ODrain 0) :: st2 2 1 :: XCall 0 OMalloc :: rep 4 (st2 0 0).
Example run4_ok : view (exec ep e0 run4) =
  Some ([[]; []], [InCall [(TShard 0, TDone [11] true)] KPop; Idle; InCall [(TShard 0, TInsert [10])] (KDrain 0 [])], ([12; 13], [], [14]), [],
       [LMalloc (Some 11); LMalloc (Some 10); LMalloc (Some 13); LFree; LFree; LFree]).
Proof. vm_compute. reflexivity. Qed.
Definition run5 : list action := run4 ++ st2 0 0 :: rep 4 (st2 2 1).
Example run5_ok : view (exec ep e0 run5) =
  Some ([[]; []], [Idle; Idle; Idle], ([12; 13; 10], [], [14]), [11],
       [LMalloc (Some 11); LMalloc (Some 10); LMalloc (Some 13); LFree; LFree; LFree; LMalloc (Some 11)]).
Proof. vm_compute. reflexivity. Qed.
(** The shared cache is plundered twice: the second time what it has not needed since goes to the transfer cache, and from there to
    the central free list. *)
Definition run6 : list action := run5 ++ XCall 2 (OTc (TShard 0) TPlunder) :: rep 2 (st2 2 1) ++ XCall 2 (OTc (TShard 0) TPlunder) :: rep 14 (st2 2 1).
Example run6_ok : view (exec ep e0 run6) =
  Some ([[]; []], [Idle; Idle; Idle], ([], [13; 10], [12; 14]), [11],
       [LMalloc (Some 11); LMalloc (Some 10); LMalloc (Some 13); LFree; LFree; LFree; LMalloc (Some 11)]).
Proof. vm_compute. reflexivity. Qed.
(** The page heap has no memory. *)
Definition run7 : list action := XCall 0 OMalloc :: rep 11 (st 0 0).
Example run7_ok : view (exec ep e0 run7) =
  Some ([[]; []], [Idle; Idle; Idle], ([], [], []), [], [LMalloc None]).
Proof. vm_compute. reflexivity. Qed.

(** These states are reachable; the theorems apply to them.  For instance what run4 leaves: thread 0 has object 11 in its hands and
    thread 2 object 10. *)
Example run4_reach : exists s, freach ep s /\ in_calls ep s = [11; 10] /\ in_caches ep s = [12; 13; 14] /\ s_live s = [].
Proof.
  destruct (exec ep e0 run4) as [(s & ys)|] eqn:E; [|vm_compute in E; discriminate]. exists s. split; [eapply exec_reach; [apply e0_reach|exact E]|].
  assert (V : match exec ep e0 run4 with Some (s, _) => (in_calls ep s, in_caches ep s, s_live s) | None => ([], [], []) end = ([11; 10], [12; 13; 14], [])) by (vm_compute; reflexivity).
  rewrite E in V. injection V as -> -> ->. repeat split.
Qed.

(** Executions without end exist: from any reachable state a thread can go on alone, calling malloc whenever it is idle. *)
Definition calm (s : fstate) (t : Z) : choice :=
  Ch 0 0 (match s_pc s t with AUpd c | DUpd c _ => s_cap s c | _ => 0 end) true [] (s_cfl s) [].
Lemma calm_ok p s t : fpar_ok p -> finv p s -> 0 < f_ncpu p -> choice_ok p s t (calm s t).
Proof.
  intros Hp Iv Hn. pose proof (i_pc _ _ Iv t) as Q. unfold calm.
  split; [cbn [c_cpu]; lia|]. split; [cbn [c_succ]; lia|]. destruct (s_pc s t) as [| | |cpu|cpu|target total r|target total r got b|x|x|cpu x|cpu x|target total b|cpu rest|fr k]; try exact I; try (cbn [c_cap]; lia).
  destruct fr as [|(T & a) fr]; [exact I|]. destruct T; try exact I. destruct a; try exact I. split; [cbn [c_new c_got c_rest app]; rewrite app_nil_r; reflexivity|].
  split; [|split; [constructor|intros ? []]]. cbn [c_got]. destruct (waits k) eqn:Ew.
  + destruct (rem_of _ _ _ _ Q Ew) as (Rf & _). destruct fr; [|contradiction]. destruct Rf as (_ & Rf). cbn [snd] in Rf. unfold zlen. cbn [length]. lia.
  + destruct (ins_of _ _ _ _ Q Ew) as ((_ & F) & _). contradiction.
Qed.
Definition solo (p : fpar) (t : Z) (s : fstate) : fstate * flabel :=
  if idle (s_pc s t) then (set_pc (set_oom s t false) t AFast, LNone)
  else match thread_step p s t (calm s t) with Some r => r | None => (s, LNone) end.
Fixpoint alone (p : fpar) (t : Z) (s : fstate) (n : nat) : fstate := match n with O => s | S m => fst (solo p t (alone p t s m)) end.
Example solo_execution : forall p t s, fpar_ok p -> 0 < f_ncpu p -> 0 <= t < f_nthr p -> freach p s ->
  execution p (alone p t s) (fun i => (t, snd (solo p t (alone p t s i)))).
Proof.
  intros p t s Hp Hn Ht R.
  assert (St : forall s, freach p s -> fstep p s (t, snd (solo p t s)) (fst (solo p t s))).
  { intros s1 R1. pose proof (freach_inv _ _ Hp R1) as Iv. unfold solo. destruct (idle (s_pc s1 t)) eqn:Ei.
    - apply (FS_start p s1 t OMalloc); [exact Ht|destruct (s_pc s1 t); (reflexivity || discriminate)|reflexivity].
    - assert (Ni : s_pc s1 t <> Idle) by (intros X; rewrite X in Ei; discriminate).
      destruct (thread_step_good p s1 t (calm s1 t) Hp Iv Ni (calm_ok _ _ _ Hp Iv Hn)) as (s' & l & E & _). rewrite E. cbn [fst snd].
      eapply FS_thread; [exact Ht|exact Ni|apply calm_ok; assumption|exact E]. }
  assert (Ra : forall i, freach p (alone p t s i)) by (induction i as [|i IH]; [exact R|cbn [alone]; econstructor; [exact IH|apply St; exact IH]]).
  split; [exact R|]. intros i. cbn [alone]. apply St. apply Ra.
Qed.
