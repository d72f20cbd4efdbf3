(** Model of the choice of experiments, tcmalloc/experiment.cc, experiment.h and
    experiment_config.h, and of the environment lookup, tcmalloc/internal/environment.cc.
    Strings are the codes of their characters.  Modelled as built without
    NPX_COMPILER_ENABLED_EXPERIMENT: there are no compiler experiments (experiment.cc:53-59, 168-180). *)
From Coq Require Import String Ascii.
From Verif Require Import Base CpuList.

Definition str (s : string) : list Z := map (fun c => Z.of_nat (nat_of_ascii c)) (list_ascii_of_string s).
Fixpoint eqb_str (a b : list Z) : bool :=
  match a, b with [], [] => true | x :: a, y :: b => (x =? y) && eqb_str a b | _, _ => false end.

(** ** The environment *)

(** strncmp(s, var, n) == 0 for C strings with [length var = n]. *)
Fixpoint starts_with (l var : list Z) : bool :=
  match var, l with
  | [], _ => true
  | x :: var, y :: l => (x =? y) && starts_with l var
  | _ :: _, [] => false
  end.
(** thread_safe_getenv, internal/environment.cc:32-45.  The strings of [environ] without their
    final NUL. *)
Fixpoint get_env (environ : list (list Z)) (var : list Z) : option (list Z) :=
  match environ with
  | [] => None
  | s :: r =>
    if starts_with s var && (match skipn (length var) s with c :: _ => c =? 61 | [] => false end)
    then Some (skipn (S (length var)) s)
    else get_env r var
  end.

(** ** The table *)

(** ExperimentConfig, experiment_config.h:43-51.  Of the bounds of a rollout only whether the
    upper one is positive; the salt is left out since no bucket is ever computed. *)
Record config := mk_config { c_id : Z; c_name : list Z; c_brittle : bool; c_force : bool; c_rollout : bool }.
(** kMaxExperimentID, experiment_config.h:23-41. *)
Definition num_experiments : Z := 12.
(** experiment_config.h:54-69. *)
Definition experiments : list config :=
  [mk_config 0 (str "TCMALLOC_HUGE_REGION_ADAPTIVE_RELEASE") false false false;
   mk_config 1 (str "TCMALLOC_PER_CPU_CACHE_SIZE_1MB") false false false;
   mk_config 2 (str "TCMALLOC_PGHO_EXPERIMENT") false false false;
   mk_config 3 (str "TCMALLOC_REUSE_SIZE_CLASSES_ABLATION") false false false;
   mk_config 4 (str "TCMALLOC_SONIC_MADV_NOHUGEPAGE_REGIONS") false false true;
   mk_config 5 (str "TEST_ONLY_L3_AWARE") false false false;
   mk_config 6 (str "TEST_ONLY_MM_VCPU") false false false;
   mk_config 7 (str "TEST_ONLY_TCMALLOC_HEAP_PARTITIONING") false false false;
   mk_config 8 (str "TEST_ONLY_TCMALLOC_POW2_SIZECLASS") true false false;
   mk_config 9 (str "TEST_ONLY_TCMALLOC_RELEASE_STALE_PAGES") false false false;
   mk_config 10 (str "TEST_ONLY_TCMALLOC_SHARDED_TRANSFER_CACHE") true false false;
   mk_config 11 (str "TEST_ONLY_TCMALLOC_SUBRELEASE_UNBACKED_PAGES") false false false].

(** experiment.cc:47-51. *)
Definition k_experiments : list Z := str "BORG_EXPERIMENTS".
Definition k_disable_experiments : list Z := str "BORG_DISABLE_EXPERIMENTS".
Definition k_enable_all : list Z := str "enable-all-known-experiments".
Definition k_disable_all : list Z := str "all".

(** LookupExperimentID, experiment.cc:61-70; also FindExperimentByName, 275-283. *)
Fixpoint lookup_id (cfgs : list config) (label : list Z) : option Z :=
  match cfgs with
  | [] => None
  | c :: r => if eqb_str (c_name c) label then Some (c_id c) else lookup_id r label
  end.

(** ParseExperiments, experiment.cc:92-108, from position [pos]. *)
Fixpoint parse_experiments {A} (fuel : nat) (labels : list Z) (pos : nat) (f : list Z -> A -> A) (a : A) : option A :=
  match fuel with
  | O => None
  | S fuel =>
    match find_ch ch_comma (skipn pos labels) with
    | None => Some (f (skipn pos labels) a)
    | Some k => parse_experiments fuel labels (pos + k + 1) f (f (firstn k (skipn pos labels)) a)
    end
  end.
Definition parse_all {A} (labels : list Z) (f : list Z -> A -> A) (a : A) : option A :=
  parse_experiments (S (length labels)) labels 0 f a.

(** CalculateRolloutBucket, experiment.cc:116-120, and LookupHostname, 112-114. *)
Definition rollout_bucket (hostname name : list Z) : option Z := None.
Definition lookup_hostname : list Z := [].
(** IsExperimentRolloutEnabled, experiment.cc:122-142.  The comparison of floating-point numbers is
    not reached. *)
Definition rollout_enabled (c : config) (hostname : list Z) : bool :=
  match hostname with [] => false | _ => match rollout_bucket hostname (c_name c) with None => false | Some _ => true end end.

(** experiment.cc:218-243: the choice for tests.  [target_hash] is the hash of the target and the
    clock, [name_hash] that of a name.  The state of the loop: the buffer, the number enabled
    and the last experiment considered. *)
Definition test_step (target_hash : Z) (name_hash : list Z -> Z) (s : (Z -> bool) * Z * Z) (c : config) : (Z -> bool) * Z * Z :=
  let '(buf, num, last) := s in
  if c_brittle c then s
  else
    let enabled := (Z.lxor target_hash (name_hash (c_name c))) mod 3 =? 0 in
    (upd buf (c_id c) (buf (c_id c) || enabled), (if enabled then num + 1 else num), c_id c).
Definition test_select (cfgs : list config) (target_hash : Z) (name_hash : list Z -> Z) (buf : Z -> bool) : option (Z -> bool) :=
  if target_hash mod 11 =? 0 then Some buf
  else
    let '(buf, num, last) := fold_left (test_step target_hash name_hash) cfgs (buf, 0, num_experiments) in
    if (num =? 0) && negb (last =? num_experiments) then
      if buf last then None (* assert *) else Some (upd buf last true)
    else Some buf.

(** SelectExperiments, experiment.cc:144-252. *)
Definition select_experiments (cfgs : list config) (test_target active disabled : list Z) (unset : bool) (hostname : list Z)
    (target_hash : Z) (name_hash : list Z -> Z) : option (Z -> bool) :=
  let buf := fun _ : Z => false in
  let buf := if eqb_str active k_enable_all then (fun i => (0 <=? i) && (i <? num_experiments)) else buf in
  let buf := fold_left (fun b c => if c_rollout c && rollout_enabled c hostname then upd b (c_id c) true else b) cfgs buf in
  let? buf := parse_all active (fun t b => match lookup_id cfgs t with Some i => upd b i true | None => b end) buf in
  let buf := if eqb_str disabled k_disable_all then fold_left (fun b c => upd b (c_id c) false) cfgs buf else buf in
  let? buf := parse_all disabled (fun t b => match lookup_id cfgs t with Some i => upd b i false | None => b end) buf in
  let? buf := (if unset && negb (eqb_str test_target []) then
                 if eqb_str active [] && eqb_str disabled [] then test_select cfgs target_hash name_hash buf else None (* assert *)
               else Some buf) in
  Some (fold_left (fun b c => if c_force c then upd b (c_id c) false else b) cfgs buf).

(** GetSelectedExperiments, experiment.cc:72-90: done once. *)
Definition or_empty (o : option (list Z)) : list Z := match o with Some s => s | None => [] end.
Definition selected (environ : list (list Z)) (target_hash : Z) (name_hash : list Z -> Z) : option (Z -> bool) :=
  let test_target := get_env environ (str "TEST_TARGET") in
  let active := get_env environ k_experiments in
  let disabled := get_env environ k_disable_experiments in
  select_experiments experiments (or_empty test_target) (or_empty active) (or_empty disabled)
    (match active, disabled with None, None => true | _, _ => false end) lookup_hostname target_hash name_hash.

(** IsExperimentActive, experiment.cc:266-273. *)
Definition is_active (environ : list (list Z)) (target_hash : Z) (name_hash : list Z -> Z) (id : Z) : option bool :=
  if (0 <=? id) && (id <? num_experiments) then let? b := selected environ target_hash name_hash in Some (b id) else None.
(** WalkExperiments, experiment.cc:285-290, and so the experiments in the properties, 292-297. *)
Fixpoint walk (cfgs : list config) (active : Z -> option bool) : option (list (list Z * bool)) :=
  match cfgs with
  | [] => Some []
  | c :: r => let? a := active (c_id c) in let? l := walk r active in Some ((c_name c, a) :: l)
  end.
Definition walk_experiments (environ : list (list Z)) (target_hash : Z) (name_hash : list Z -> Z) : option (list (list Z * bool)) :=
  walk experiments (is_active environ target_hash name_hash).
