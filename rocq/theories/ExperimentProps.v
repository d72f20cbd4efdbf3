(** C62: which experiments are active. *)
From Coq Require Import String.
From Verif Require Import Base CpuList Experiment ExperimentSpec ExperimentProofs.

(** The lookup of a variable finds its first definition. *)
Theorem getenv_exact : forall environ var,
  (forall v, get_env environ var = Some v <-> env_is environ var v) /\ (get_env environ var = None <-> env_unset environ var).
Proof.
  intros environ var. pose proof (get_env_cases environ var) as G. destruct (get_env environ var) as [w|].
  - split.
    + intros v. split; [intros E; injection E as <-; exact G|]. intros H. f_equal. eapply env_is_fun; eauto.
    + split; [discriminate|]. intros U. destruct (env_is_unset _ _ _ G U).
  - split; [|tauto]. intros v. split; [discriminate|]. intros H. destruct (env_is_unset _ _ _ H G).
Qed.
Print Assumptions getenv_exact.

(** With an explicit choice (or outside tests), an experiment of the table is active exactly if
    it was asked for, not refused and not known to be unsafe. *)
Theorem experiments_as_asked : forall cfgs target active disabled unset host th nh,
  table_ok cfgs -> unset = false \/ target = [] ->
  exists b, select_experiments cfgs target active disabled unset host th nh = Some b /\
  forall c, In c cfgs -> (b (c_id c) = true <-> asked active (c_name c) /\ ~ refused disabled (c_name c) /\ c_force c = false).
Proof.
  intros cfgs target active disabled unset host th nh T U.
  destruct (select_unfold cfgs target active disabled unset host th nh) as (b & B & ->).
  replace (unset && negb (eqb_str target [])) with false.
  2:{ destruct U as [->| ->]; [reflexivity|]. rewrite andb_false_r. reflexivity. }
  cbn [obind]. eexists. split; [reflexivity|]. intros c I. rewrite force_buf, andb_true_iff, negb_true_iff, B by auto.
  rewrite base_buf_spec by auto. tauto.
Qed.
Print Assumptions experiments_as_asked.

(** In a test that chooses nothing no brittle and no unsafe experiment is active, one in eleven
    hashes gives none, and all others give at least one if none is unsafe. *)
Theorem experiments_in_tests : forall cfgs target host th nh,
  table_ok cfgs ->
  exists b, select_experiments cfgs target [] [] true host th nh = Some b /\
  (forall c, In c cfgs -> c_brittle c = true \/ c_force c = true -> b (c_id c) = false) /\
  (target = [] \/ th mod 11 = 0 -> forall c, In c cfgs -> b (c_id c) = false) /\
  (target <> [] -> th mod 11 <> 0 -> (exists c, In c cfgs /\ c_brittle c = false) -> (forall c, In c cfgs -> c_force c = false) ->
   exists c, In c cfgs /\ b (c_id c) = true).
Proof.
  intros cfgs target host th nh T. destruct target as [|x target].
  - destruct (experiments_as_asked cfgs [] [] [] true host th nh T (or_intror eq_refl)) as (b & E & B).
    assert (N : forall c, In c cfgs -> b (c_id c) = false \/ listed (c_name c) []).
    { intros c I. destruct (b (c_id c)) eqn:Y; auto. apply B in Y as ([A|A] & R & _); [discriminate A|auto|auto]. }
    assert (L : forall t, listed t [] -> t = []).
    { intros t (a & d & E0 & _). symmetry in E0. apply app_eq_nil in E0 as (_ & E0). apply app_eq_nil in E0 as (E0 & _). exact E0. }
    assert (Z0 : forall c, In c cfgs -> b (c_id c) = false).
    { intros c I. destruct (b (c_id c)) eqn:Y; auto. destruct (N c I) as [K|K]; [congruence|].
      apply B in Y as (_ & R & _); auto. elim R. right. exact K. }
    exists b. split; auto. split; auto. split; auto. intros K; congruence.
  - destruct (select_unfold cfgs (x :: target) [] [] true host th nh) as (b & B & ->).
    change (true && negb (eqb_str (x :: target) [])) with true. change (eqb_str [] [] && eqb_str [] []) with true. cbv iota.
    assert (B0 : forall i, b i = false).
    { intros i. rewrite B. unfold base_buf. change (eqb_str [] k_enable_all) with false. change (tokens []) with [@nil Z].
      destruct (existsb _ [[]]); reflexivity. }
    destruct (test_select_spec cfgs th nh b T B0) as (b' & -> & A1 & A2 & A3).
    cbn [obind]. eexists. split; [reflexivity|].
    split; [|split].
    + intros c I [H|H]; rewrite force_buf by auto. rewrite A1, andb_false_r by auto. reflexivity. rewrite H. reflexivity.
    + intros [H|H] c I; [discriminate|]. rewrite force_buf, A2, andb_false_r by auto. reflexivity.
    + intros _ H X F. destruct (A3 H X) as (c & I & Bc). exists c. split; auto. rewrite force_buf, Bc, F by auto. reflexivity.
Qed.
Print Assumptions experiments_in_tests.

(** The table of the program is one of these. *)
Theorem experiments_table_ok : table_ok experiments /\ (forall i, 0 <= i < num_experiments -> exists c, In c experiments /\ c_id c = i).
Proof.
  split; [exact experiments_table|]. intros i H. unfold num_experiments in H.
  assert (G : forallb (fun i => existsb (fun c => c_id c =? i) experiments) (zseq 0 12) = true) by (vm_compute; reflexivity).
  rewrite forallb_forall in G. specialize (G i ltac:(apply zseq_In; lia)). apply existsb_exists in G as (c & I & E). apply Z.eqb_eq in E. eauto.
Qed.
Print Assumptions experiments_table_ok.

(** An experiment of the program, given the environment: with BORG_EXPERIMENTS or
    BORG_DISABLE_EXPERIMENTS set (or no TEST_TARGET) it is active exactly if the first asks for it and
    the second does not refuse it. *)
Theorem experiment_active : forall environ active disabled th nh c,
  In c experiments ->
  (env_is environ (str "BORG_EXPERIMENTS") active \/ (env_unset environ (str "BORG_EXPERIMENTS") /\ active = [])) ->
  (env_is environ (str "BORG_DISABLE_EXPERIMENTS") disabled \/ (env_unset environ (str "BORG_DISABLE_EXPERIMENTS") /\ disabled = [])) ->
  ~ env_unset environ (str "BORG_EXPERIMENTS") \/ ~ env_unset environ (str "BORG_DISABLE_EXPERIMENTS") \/ env_unset environ (str "TEST_TARGET") ->
  exists a, is_active environ th nh (c_id c) = Some a /\
  (a = true <-> asked active (c_name c) /\ ~ refused disabled (c_name c)).
Proof.
  intros environ active disabled th nh c I Ha Hd Hu. unfold is_active, selected.
  assert (R : (0 <=? c_id c) && (c_id c <? num_experiments) = true).
  { destruct experiments_table as (_ & _ & F). rewrite Forall_forall in F. specialize (F c I). rewrite andb_true_iff, Z.leb_le, Z.ltb_lt. exact F. }
  rewrite R.
  assert (Fc : c_force c = false). { clear - I. cbn in I. intuition (subst; reflexivity). }
  assert (G : forall var v, env_is environ var v \/ (env_unset environ var /\ v = []) -> or_empty (get_env environ var) = v).
  { intros var v [H|(H & ->)].
    - apply getenv_exact in H. rewrite H. reflexivity.
    - apply getenv_exact in H. rewrite H. reflexivity. }
  change k_experiments with (str "BORG_EXPERIMENTS"). change k_disable_experiments with (str "BORG_DISABLE_EXPERIMENTS").
  rewrite (G _ _ Ha), (G _ _ Hd).
  set (u := match get_env environ (str "BORG_EXPERIMENTS") with Some _ => false | None => match get_env environ (str "BORG_DISABLE_EXPERIMENTS") with Some _ => false | None => true end end).
  destruct (experiments_as_asked experiments (or_empty (get_env environ (str "TEST_TARGET"))) active disabled u lookup_hostname th nh experiments_table) as (b & E & B).
  { unfold u. destruct Hu as [Hu|[Hu|Hu]].
    - left. destruct (get_env environ (str "BORG_EXPERIMENTS")) eqn:X; auto. elim Hu. apply getenv_exact. exact X.
    - left. destruct (get_env environ (str "BORG_EXPERIMENTS")); auto. destruct (get_env environ (str "BORG_DISABLE_EXPERIMENTS")) eqn:X; auto. elim Hu. apply getenv_exact. exact X.
    - right. apply getenv_exact in Hu. rewrite Hu. reflexivity. }
  rewrite E. cbn [obind]. exists (b (c_id c)). split; auto. rewrite B by auto. rewrite Fc. tauto.
Qed.
Print Assumptions experiment_active.

(** In particular "all" turns everything off, whatever else is set. *)
Theorem experiments_all_off : forall environ th nh c,
  In c experiments -> env_is environ (str "BORG_DISABLE_EXPERIMENTS") (str "all") -> is_active environ th nh (c_id c) = Some false.
Proof.
  intros environ th nh c I H. pose proof (get_env_cases environ (str "BORG_EXPERIMENTS")) as G.
  assert (N : ~ env_unset environ (str "BORG_DISABLE_EXPERIMENTS")) by (intros U; exact (env_is_unset _ _ _ H U)).
  assert (X : exists a, env_is environ (str "BORG_EXPERIMENTS") a \/ (env_unset environ (str "BORG_EXPERIMENTS") /\ a = [])).
  { destruct (get_env environ (str "BORG_EXPERIMENTS")); eauto. }
  destruct X as (act & X).
  destruct (experiment_active environ act (str "all") th nh c I X (or_introl H) (or_intror (or_introl N))) as (a & -> & A).
  destruct a; auto. destruct A as (A & _). destruct (A eq_refl) as (_ & K). elim K. left. reflexivity.
Qed.
Print Assumptions experiments_all_off.

(** The choice is always made: no assertion fails whatever the environment and the hashes, and
    the walk lists every experiment once, in the order of the table, with its state. *)
Theorem experiments_walk : forall environ th nh,
  exists b, (forall i, 0 <= i < num_experiments -> is_active environ th nh i = Some (b i)) /\
  walk_experiments environ th nh = Some (map (fun c => (c_name c, b (c_id c))) experiments).
Proof.
  intros environ th nh.
  assert (X : exists b, selected environ th nh = Some b).
  { unfold selected. set (tt := or_empty (get_env environ (str "TEST_TARGET"))).
    destruct (get_env environ k_experiments) as [a|].
    - destruct (experiments_as_asked experiments tt (or_empty (Some a)) (or_empty (get_env environ k_disable_experiments)) false lookup_hostname th nh experiments_table (or_introl eq_refl)) as (b & E & _). eauto.
    - destruct (get_env environ k_disable_experiments) as [d|].
      + destruct (experiments_as_asked experiments tt (or_empty None) (or_empty (Some d)) false lookup_hostname th nh experiments_table (or_introl eq_refl)) as (b & E & _). eauto.
      + destruct (experiments_in_tests experiments tt lookup_hostname th nh experiments_table) as (b & E & _). eauto. }
  destruct X as (b & X). exists b.
  assert (A : forall i, 0 <= i < num_experiments -> is_active environ th nh i = Some (b i)).
  { intros i H. unfold is_active. rewrite X. replace ((0 <=? i) && (i <? num_experiments)) with true; [reflexivity|]. symmetry. rewrite andb_true_iff, Z.leb_le, Z.ltb_lt. exact H. }
  split; auto. unfold walk_experiments.
  assert (F : Forall (fun c => 0 <= c_id c < num_experiments) experiments) by apply experiments_table.
  induction F as [|c r H _ IH]; [reflexivity|]. cbn [walk map]. rewrite (A _ H). cbn [obind]. rewrite IH. reflexivity.
Qed.
Print Assumptions experiments_walk.

(** Looking an experiment up by name. *)
Theorem find_by_name : forall name,
  match lookup_id experiments name with
  | Some i => exists c, In c experiments /\ c_name c = name /\ c_id c = i /\ forall d, In d experiments -> c_name d = name -> d = c
  | None => forall c, In c experiments -> c_name c <> name
  end.
Proof.
  intros name. destruct (lookup_id experiments name) as [i|] eqn:E.
  - destruct (lookup_in _ _ _ E) as (c & I & <- & <-). exists c. repeat split; auto.
    intros d Id En. apply (NoDup_map_inj c_name experiments); auto. apply experiments_table.
  - apply lookup_none. exact E.
Qed.
Print Assumptions find_by_name.

(** Finding: the comment says that the choice for a test is that of its name's hash, to avoid
    flaky tests (experiment.cc:199-209), but the hash is seeded with the clock: the same
    environment gives different choices. *)
Theorem experiments_stable_refuted : exists environ nh c th1 th2,
  In c experiments /\ is_active environ th1 nh (c_id c) = Some true /\ is_active environ th2 nh (c_id c) = Some false.
Proof.
  exists [str "TEST_TARGET=//x"], (fun _ => 0), (nth 0 experiments (mk_config 0 [] false false false)), 3, 11.
  split; [left; reflexivity|]. split; vm_compute; reflexivity.
Qed.
Print Assumptions experiments_stable_refuted.

(** Examples: two asked for, one of them refused; "all" is only that word alone. *)
Definition ex_env : list (list Z) :=
  [str "BORG_EXPERIMENTSX=all"; str "BORG_EXPERIMENTS=TEST_ONLY_L3_AWARE,TEST_ONLY_MM_VCPU"; str "TEST_TARGET=//t";
   str "BORG_DISABLE_EXPERIMENTS=all,TEST_ONLY_MM_VCPU"; str "BORG_EXPERIMENTS=enable-all-known-experiments"].
Example ex_active : map (fun i => is_active ex_env 7 (fun _ => 1) i) (zseq 0 12) =
  map (fun i => Some (i =? 5)) (zseq 0 12).
Proof. vm_compute. reflexivity. Qed.
Example ex_env_is : env_is ex_env (str "BORG_EXPERIMENTS") (str "TEST_ONLY_L3_AWARE,TEST_ONLY_MM_VCPU").
Proof. apply getenv_exact. vm_compute. reflexivity. Qed.
Example ex_listed : listed (str "TEST_ONLY_MM_VCPU") (str "TEST_ONLY_L3_AWARE,TEST_ONLY_MM_VCPU").
Proof. exists (str "TEST_ONLY_L3_AWARE,"), []. split; [reflexivity|]. split; [right; exists (str "TEST_ONLY_L3_AWARE"); reflexivity|]. split; auto. cbn. lia. Qed.
Example ex_all_off : is_active (str "BORG_DISABLE_EXPERIMENTS=all" :: ex_env) 7 (fun _ => 1) 5 = Some false.
Proof. vm_compute. reflexivity. Qed.
