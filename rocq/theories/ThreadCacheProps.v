(** C43: the per-thread caches. *)
From Coq Require Import Permutation.
From Verif Require Import Base ThreadCache ThreadCacheProofs ThreadCacheProofs2.

(** * Specification
    [freed], [alloced], [fetched], [returned] (ThreadCacheProofs.v): the objects of a class that threads freed and got, and that
    the transfer cache gave and took, in a history. *)

(** The existing caches. *)
Definition caches_are (g : tstate) (ids : list Z) : Prop := NoDup ids /\ forall i, In i ids <-> t_pc g i <> Absent.
(** The objects of a class in them. *)
Definition cached (g : tstate) (ids : list Z) (k : Z) : list Z := flat_map (fun i => fl_objs (c_list (t_cache g i) k)) ids.

(** * Lemmas *)
Lemma caches_perm g ids L : caches_are g ids -> caches_are g L -> Permutation ids L.
Proof. intros (N1 & H1) (N2 & H2). apply NoDup_Permutation; [assumption|assumption|]. intros i. rewrite H1, H2. reflexivity. Qed.
Lemma inv_caches p tr g L : tinv p tr g L -> caches_are g L.
Proof. intros I. split; [apply I|intros i; apply I]. Qed.
Lemma flat_map_perm (f : Z -> list Z) l l' : Permutation l l' -> Permutation (flat_map f l) (flat_map f l').
Proof. intros H. induction H; cbn [flat_map]; [reflexivity|apply Permutation_app_head; assumption|rewrite !app_assoc; apply Permutation_app_tail, Permutation_app_comm|etransitivity; eassumption]. Qed.
Lemma zsum_perm l l' : Permutation l l' -> zsum l = zsum l'.
Proof. intros H. induction H; cbn [zsum]; lia. Qed.
Lemma sum_swap (s : Z -> Z) (f : Z -> Z -> Z) ks L :
  zsum (map (fun i => zsum (map (fun k => s k * f i k) ks)) L) = zsum (map (fun k => s k * zsum (map (fun i => f i k) L)) ks).
Proof.
  induction L as [|i L IH].
  - cbn [map zsum]. symmetry. apply zsum_zero. intros. lia.
  - cbn [map zsum]. rewrite IH. clear IH. induction ks as [|k ks IH]; cbn [map zsum]; [reflexivity|]. rewrite Z.mul_add_distr_l. lia.
Qed.
Lemma len_flat_map (f : Z -> list Z) L : len (flat_map f L) = zsum (map (fun i => len (f i)) L).
Proof. induction L as [|i L IH]; [reflexivity|]. cbn [flat_map map zsum]. rewrite len_app, IH. reflexivity. Qed.

(** * Theorems *)

(** There are finitely many caches, and the walk through their list that the statistics make finds each once. *)
Theorem thread_caches_listed : forall p tr g, tpar_ok p -> treach p tr g ->
  exists ids, t_walk g = Some ids /\ caches_are g ids /\ t_count g = Z.of_nat (length ids).
Proof.
  intros p tr g Hp R. destruct (treach_inv p tr g Hp R) as (L & I). exists L. split; [eapply walk_inv; exact I|]. split; [eapply inv_caches; exact I|apply I].
Qed.
Print Assumptions thread_caches_listed.

(** No object is lost or given out twice: for every class, what was freed and what the transfer cache gave is exactly what
    was allocated, what the transfer cache got back, and what is in the caches. *)
Theorem thread_caches_conserve : forall p tr g ids k, tpar_ok p -> treach p tr g -> caches_are g ids ->
  Permutation (freed k tr ++ fetched k tr) (alloced k tr ++ returned k tr ++ cached g ids k).
Proof.
  intros p tr g ids k Hp R H. destruct (treach_inv p tr g Hp R) as (L & I). rewrite (v_cons _ _ _ _ I k).
  apply Permutation_app_head, Permutation_app_head. apply flat_map_perm. apply caches_perm with g; [eapply inv_caches; exact I|exact H].
Qed.
Print Assumptions thread_caches_conserve.

(** Every call to the transfer cache is for at least one object and at most a batch, the size of the array on the stack at
    most 128; it never gives more than was asked for. *)
Theorem thread_cache_batches : forall p tr g e, tpar_ok p -> treach p tr g -> In e tr ->
  match e with
  | EvRemove k n got => 0 <= k < q_classes p /\ 1 <= n <= q_batch p k /\ n <= 128 /\ Z.of_nat (length got) <= n
  | EvInsert k b => 0 <= k < q_classes p /\ 1 <= Z.of_nat (length b) <= q_batch p k /\ Z.of_nat (length b) <= 128
  | EvFree k _ | EvAlloc k _ => 0 <= k < q_classes p
  end.
Proof.
  intros p tr g e Hp R He. destruct (treach_inv p tr g Hp R) as (L & I). pose proof (v_evs _ _ _ _ I) as F. rewrite Forall_forall in F. specialize (F e He).
  destruct Hp as (_ & Hp & _). unfold kMaxObjectsToMove in Hp. destruct e; cbn [ev_ok] in F; unfold q_used, len in F.
  - tauto.
  - tauto.
  - destruct F as ((F1 & F2) & F3 & F4). destruct (Hp k F1) as (_ & H). lia.
  - destruct F as ((F1 & F2) & F3). destruct (Hp k F1) as (_ & H). lia.
Qed.
Print Assumptions thread_cache_batches.

(** No step follows a null pointer, in particular not the search for a cache to take space from. *)
Theorem thread_cache_safe : forall p tr g evs o, tpar_ok p -> treach p tr g -> tstep p g evs o -> o <> None.
Proof.
  intros p tr g evs o Hp R St. destruct (treach_inv p tr g Hp R) as (L & I). destruct (tstep_inv p tr g L evs o Hp I St) as (g' & L' & -> & _). discriminate.
Qed.
Print Assumptions thread_cache_safe.

(** The space all caches may use is shared out exactly: what no cache has claimed and the limits of all caches add up to the
    overall size, and no limit is negative. *)
Theorem thread_cache_space : forall p tr g ids, tpar_ok p -> treach p tr g -> caches_are g ids ->
  t_unclaimed g + zsum (map (fun i => c_max (t_cache g i)) ids) = t_overall g /\ q_min p <= t_overall g /\
  (forall i, In i ids -> 0 <= c_max (t_cache g i)).
Proof.
  intros p tr g ids Hp R H. destruct (treach_inv p tr g Hp R) as (L & I). pose proof (caches_perm g ids L H (inv_caches _ _ _ _ I)) as P.
  split; [|split; [apply I|intros i Hi; apply I; apply (Permutation_in _ P); exact Hi]].
  rewrite <- (v_space _ _ _ _ I). unfold maxsum. f_equal. apply zsum_perm, Permutation_map. exact P.
Qed.
Print Assumptions thread_cache_space.

(** The statistics count the objects of every class in the caches exactly, and the total number of bytes is theirs. *)
Theorem thread_cache_stats : forall p tr g ids, tpar_ok p -> treach p tr g -> caches_are g ids ->
  exists total count, get_stats g = Some (total, count) /\
    (forall k, count k = Z.of_nat (length (cached g ids k))) /\
    total = zsum (map (fun k => q_size p k * Z.of_nat (length (cached g ids k))) (zseq 0 (Z.to_nat (q_classes p)))).
Proof.
  intros p tr g ids Hp R H. destruct (treach_inv p tr g Hp R) as (L & I). pose proof (caches_perm g ids L H (inv_caches _ _ _ _ I)) as P.
  unfold get_stats. rewrite (walk_inv _ _ _ _ I). cbn [obind]. do 2 eexists. split; [reflexivity|].
  assert (C : forall k, zsum (map (fun i => fl_len (c_list (t_cache g i) k)) L) = Z.of_nat (length (cached g ids k))).
  { intros k. change (Z.of_nat (length (cached g ids k))) with (len (cached g ids k)). unfold cached. rewrite len_flat_map. symmetry. apply zsum_perm.
    apply (Permutation_map (fun i => len (fl_objs (c_list (t_cache g i) k)))). exact P. }
  split; [exact C|].
  rewrite (map_ext_in (fun i => c_size (t_cache g i)) (fun i => bytes p (t_cache g i)) L) by (intros i Hi; apply I; exact Hi).
  unfold bytes. rewrite (sum_swap (q_size p) (fun i k => fl_len (c_list (t_cache g i) k))). f_equal. apply map_ext. intros k. rewrite C. reflexivity.
Qed.
Print Assumptions thread_cache_stats.

(** Between operations every list is at most 8192 objects long, and its dynamic limit is at least 1, at most 8192, and at most
    a batch or whole batches. *)
Theorem thread_cache_lists : forall p tr g i k, tpar_ok p -> treach p tr g -> t_pc g i = Idle -> q_used p k ->
  let l := c_list (t_cache g i) k in
  Z.of_nat (length (fl_objs l)) <= 8192 /\ 1 <= fl_max l <= 8192 /\ (fl_max l <= q_batch p k \/ (q_batch p k | fl_max l)).
Proof.
  intros p tr g i k Hp R Hi U l. destruct (treach_inv p tr g Hp R) as (L & I).
  assert (Hin : In i L) by (apply (v_pcs _ _ _ _ I); congruence). pose proof (v_ok _ _ _ _ I i Hin k (proj1 U)) as (A & B & C & D & E & F).
  rewrite Hi in D. cbn [pc_at] in D. rewrite (used_b p k U) in E. unfold kMaxDynamicFreeListLength, fl_len, len in *. fold l in A, D, E.
  assert (U3 : 0 < q_batch p k) by apply U. split; [lia|]. split; [exact A|]. destruct (E U3) as [X|X]; [left; exact X|right]. apply Z.mod_divide; [lia|exact X].
Qed.
Print Assumptions thread_cache_lists.

(** An allocation finds nothing only if the cache has no object of the class and the transfer cache gave none; otherwise it
    returns the object freed last or the first one given. *)
Theorem thread_cache_allocates : forall p c k got, 
  (forall o r, fl_objs (c_list c k) = o :: r -> exists c', alloc_hit p c k = Some (o, c') /\ fl_objs (c_list c' k) = r) /\
  (fl_objs (c_list c k) = [] -> alloc_hit p c k = None /\
     match got with
     | [] => fst (fetch p c k got) = None
     | o :: r => fst (fetch p c k got) = Some o /\ fl_objs (c_list (snd (fetch p c k got)) k) = r
     end).
Proof.
  intros p c k got. split.
  - intros o r E. unfold alloc_hit, fl_try_pop. rewrite E. eexists. split; [reflexivity|]. cbn [c_list]. rewrite upd_same. reflexivity.
  - intros E. unfold alloc_hit, fl_try_pop. rewrite E. split; [reflexivity|]. destruct got as [|o r]; [reflexivity|].
    unfold fetch. destruct (0 <? len r) eqn:E1; cbn [fst snd c_list]; rewrite upd_same; unfold fl_set_max, fl_push_batch; cbn [fl_objs].
    + rewrite E, app_nil_r. auto.
    + apply Z.ltb_ge in E1. split; [reflexivity|]. rewrite E. symmetry. apply len0. pose proof (len_nonneg r). lia.
Qed.
Print Assumptions thread_cache_allocates.

(** A free leaves the fast path exactly when the list is above its limit or the cache has reached its own; then a batch of the
    list's objects, or what it has, goes to the transfer cache. *)
Theorem thread_cache_overflow : forall p tr g i k o c slow, tpar_ok p -> treach p tr g -> t_pc g i = Idle -> q_used p k ->
  dealloc p (t_cache g i) k o = (c, slow) ->
  let l := c_list c k in
  fl_objs l = o :: fl_objs (c_list (t_cache g i) k) /\
  (slow = true <-> fl_max l < Z.of_nat (length (fl_objs l)) \/ c_max c <= c_size c) /\
  (forall c' evs, slow = true -> slow_list p c k = (c', evs) ->
     fl_max l < Z.of_nat (length (fl_objs l)) -> 
     Z.of_nat (length (fl_objs (c_list c' k))) = Z.of_nat (length (fl_objs l)) - Z.min (q_batch p k) (Z.of_nat (length (fl_objs l)))).
Proof.
  intros p tr g i k o c slow Hp R Hi U E l. destruct (treach_inv p tr g Hp R) as (L & I).
  assert (Hin : In i L) by (apply (v_pcs _ _ _ _ I); congruence). pose proof (v_ok _ _ _ _ I i Hin) as Oi. rewrite Hi in Oi. cbn [pc_at] in Oi.
  destruct (dealloc_spec _ _ _ _ _ _ Oi U E) as (A & B & C).
  split. { unfold l. unfold dealloc in E. injection E as <- _. cbn [c_list]. rewrite upd_same. reflexivity. }
  split; [exact C|]. intros c' evs -> Es Hlong. pose proof (A k (proj1 U)) as (A1 & A2 & A3 & A4 & A5 & A6).
  unfold slow_list in Es. fold l in Es, A1, A2, A3, A4. unfold fl_len, len in *. destruct (fl_max l <? Z.of_nat (length (fl_objs l))) eqn:X; [|apply Z.ltb_ge in X; lia].
  unfold list_too_long in Es. destruct (release p c k (q_batch p k)) as (c1, e1) eqn:Er. injection Es as <- <-.
  destruct (release_spec p c k (q_batch p k) c1 e1 U ltac:(destruct U as (_ & _ & U); lia) ltac:(unfold fl_len, len; fold l; lia) A3 Er) as (_ & _ & Rl & _).
  unfold fl_len, len in Rl. fold l in Rl. rewrite <- Rl. cbn [c_list]. rewrite upd_same. unfold too_long_max.
  destruct (fl_max (c_list c1 k) <? q_batch p k); [reflexivity|]. destruct (q_batch p k <? fl_max (c_list c1 k)); [|reflexivity].
  destruct (kMaxOverages <? fl_over (fl_set_over (c_list c1 k) (fl_over (c_list c1 k) + 1))); reflexivity.
Qed.
Print Assumptions thread_cache_overflow.

(** A thread that exits leaves nothing behind: when its cache is deleted all its objects are with the transfer cache, and its
    space is free for others. *)
Theorem thread_cache_exit : forall p tr g i, tpar_ok p -> treach p tr g -> t_pc g i = Dying ->
  (forall k, fl_objs (c_list (t_cache g i) k) = []) /\ c_size (t_cache g i) = 0 /\
  t_pc (delete_cache g i) i = Absent /\ t_unclaimed (delete_cache g i) = t_unclaimed g + c_max (t_cache g i).
Proof.
  intros p tr g i Hp R Hi. destruct (treach_inv p tr g Hp R) as (L & I). assert (Hin : In i L) by (apply (v_pcs _ _ _ _ I); congruence).
  split; [apply (v_dying _ _ _ _ I i Hi)|]. split.
  - rewrite (v_size _ _ _ _ I i Hin). unfold bytes. apply zsum_zero. intros k. unfold fl_len. pose proof (v_dying _ _ _ _ I i Hi k) as E. unfold objs in E. rewrite E, len_nil. lia.
  - unfold delete_cache. cbn [t_pc t_unclaimed]. rewrite upd_same. auto.
Qed.
Print Assumptions thread_cache_exit.

(** * A concrete history *)
Definition ex_p : tpar := tpar_of 13 262144 3 (fun k => nth (Z.to_nat k) [0; 8; 65536] 0) (fun k => nth (Z.to_nat k) [0; 2; 2] 0).
Lemma ex_p_ok : tpar_ok ex_p.
Proof.
  unfold tpar_ok. split; [reflexivity|]. split.
  - intros k Hk. change (0 <= k < 3) in Hk. assert (k = 0 \/ k = 1 \/ k = 2) as [->|[->| ->]] by lia; repeat split; vm_compute; discriminate.
  - repeat split; vm_compute; (discriminate || reflexivity).
Qed.
Lemma ex_used k : k = 1 \/ k = 2 -> q_used ex_p k.
Proof. intros [->| ->]; repeat split; vm_compute; (discriminate || reflexivity). Qed.
Definition ex0 : tstate := t_init ex_p (fun _ => TCa (fun _ => fl_init) 0 0) (fun _ => 0) (fun _ => 0).
Definition force (o : option tstate) : tstate := match o with Some g => g | None => ex0 end.
(** Two threads get caches; the first frees a large object, with which it reaches its limit, so it scavenges and gets more space; the second frees a small one. *)
Definition ex1 := force (new_heap ex_p ex0 4096).
Definition ex2 := force (new_heap ex_p ex1 8192).
Definition ex_free (g : tstate) (i k o : Z) : tstate := let '(c, s) := dealloc ex_p (t_cache g i) k o in set_cache g i c (if s then Slow k else Idle).
Definition ex3 := ex_free ex2 4096 2 1000000.
Definition ex_slow (g : tstate) (i k : Z) : tstate := set_cache g i (fst (slow_list ex_p (t_cache g i) k)) Check.
Definition ex4 := ex_slow ex3 4096 2.
Definition ex5 := set_cache ex4 4096 (fst (scavenge ex_p (t_cache ex4 4096))) Limit.
Definition ex6 := let g := force (increase_limit ex_p ex5 4096) in set_cache g 4096 (t_cache g 4096) Idle.
Definition ex7 := ex_free ex6 8192 1 5000.
Definition ex_tr : list tev := [EvFree 2 1000000; EvFree 1 5000].

Lemma ex7_reach : treach ex_p ex_tr ex7.
Proof.
  pose proof (tr_init ex_p (fun _ => TCa (fun _ => fl_init) 0 0) (fun _ => 0) (fun _ => 0)) as R. fold ex0 in R.
  assert (R1 : treach ex_p [] ex1).
  { apply (tr_step ex_p [] ex0 [] ex1 R). replace (Some ex1) with (new_heap ex_p ex0 4096) by reflexivity. apply T_new; [lia|reflexivity]. }
  assert (R2 : treach ex_p [] ex2).
  { apply (tr_step ex_p [] ex1 [] ex2 R1). replace (Some ex2) with (new_heap ex_p ex1 8192) by reflexivity. apply T_new; [lia|reflexivity]. }
  assert (R3 : treach ex_p [EvFree 2 1000000] ex3).
  { apply (tr_step ex_p [] ex2 [EvFree 2 1000000] ex3 R2). exact (T_free ex_p ex2 4096 2 1000000 _ _ eq_refl (ex_used 2 (or_intror eq_refl)) eq_refl). }
  assert (R4 : treach ex_p [EvFree 2 1000000] ex4).
  { apply (tr_step ex_p [EvFree 2 1000000] ex3 [] ex4 R3). exact (T_slow ex_p ex3 4096 2 _ _ eq_refl eq_refl). }
  assert (R5 : treach ex_p [EvFree 2 1000000] ex5).
  { apply (tr_step ex_p [EvFree 2 1000000] ex4 [] ex5 R4). refine (T_scavenge ex_p ex4 4096 _ _ eq_refl _ eq_refl). vm_compute. discriminate. }
  assert (R6 : treach ex_p [EvFree 2 1000000] ex6).
  { apply (tr_step ex_p [EvFree 2 1000000] ex5 [] ex6 R5). exact (T_limit ex_p ex5 4096 _ eq_refl eq_refl). }
  apply (tr_step ex_p [EvFree 2 1000000] ex6 [EvFree 1 5000] ex7 R6). exact (T_free ex_p ex6 8192 1 5000 _ _ eq_refl (ex_used 1 (or_introl eq_refl)) eq_refl).
Qed.

Example thread_cache_history :
  caches_are ex7 [8192; 4096] /\ cached ex7 [8192; 4096] 2 = [1000000] /\ cached ex7 [8192; 4096] 1 = [5000] /\
  c_max (t_cache ex7 4096) = 2 * 65536 /\ c_max (t_cache ex7 8192) = 65536 /\ t_unclaimed ex7 = 8 * (4 * 2 ^ 20) - 3 * 65536 /\
  option_map fst (get_stats ex7) = Some 65544.
Proof.
  split; [|vm_compute; auto 10]. split; [repeat constructor; cbn; intros H; repeat (destruct H as [H|H]; [lia|]); destruct H|].
  intros i. cbn [In].
  assert (E : t_pc ex7 i = if (i =? 8192) || (i =? 4096) then Idle else Absent).
  { destruct (i =? 8192) eqn:E1; [apply Z.eqb_eq in E1; subst; reflexivity|]. destruct (i =? 4096) eqn:E2; [apply Z.eqb_eq in E2; subst; reflexivity|].
    cbn [orb]. change (t_pc ex7) with (upd (upd (upd (upd (upd (upd (upd (fun _ : Z => Absent) 4096 Idle) 8192 Idle) 4096 (Slow 2)) 4096 Check) 4096 Limit) 4096 Idle) 8192 Idle).
    apply Z.eqb_neq in E1, E2. rewrite !upd_other by assumption. reflexivity. }
  rewrite E. destruct (i =? 8192) eqn:E1; cbn [orb]; [apply Z.eqb_eq in E1; split; [discriminate|left; congruence]|].
  destruct (i =? 4096) eqn:E2; [apply Z.eqb_eq in E2; split; [discriminate|right; left; congruence]|]. apply Z.eqb_neq in E1, E2. intuition congruence.
Qed.
