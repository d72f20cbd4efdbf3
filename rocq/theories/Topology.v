(** Model of what tcmalloc learns about the machine from sysfs:
    tcmalloc/internal/numa.cc and numa.h (NUMA nodes to partitions) and
    tcmalloc/internal/cache_topology.cc and .h (CPUs to L3 caches).
    [None] is a failed TC_CHECK or undefined behaviour. *)
From Coq Require Import String.
From Verif Require Import Base CpuList.

(** What opening a file of sysfs gives: no such file, another error, or a file
    with its text and the sizes of the reads the kernel will make of it. *)
Inductive opened := Enoent | Open_error | File (text : list Z) (chunk : nat -> Z).

(** Parsing an opened cpulist, with [TC_CHECK(has_value())]:
    internal/numa.cc:139-146;
    internal/cache_topology.cc:83-89. *)
Definition parse_checked (text : list Z) (chunk : nat -> Z) : option cpuset :=
  match parse_cpulist chunk text with Some (Some s) => Some s | _ => None end.

(** The CPUs a [CpuSet] can hold (internal/cpu_utils.h:30). *)
Definition all_cpus : list Z := zseq 0 (Z.to_nat k_max_cpus).

(** ** NUMA *)

(** internal/numa.h:37-51. *)
Inductive bind_mode := BindNone | BindAdvisory | BindStrict.

(** The data filled in by [InitNumaTopology].  [nt_part] is cpu_to_scaled_partition,
    indexed by the CPU plus [fudge]. *)
Record numa := mk_numa {
  nt_part : Z -> Z;
  nt_nodes : Z -> Z;      (* partition_to_nodes *)
  nt_bind : bind_mode;
  nt_aware : bool;
  nt_num : Z              (* num_nodes *)
}.

(** kNumaCpuFudge, internal/numa.h:59:
    minus kCpuIdUnsupported, which is -2 (internal/percpu.h:94). *)
Definition fudge : Z := 2.

(** internal/numa.h:200-202. *)
Definition node_to_partition (node num : Z) : Z := node mod num.

(** [uint64_t |= 1 << node] (internal/numa.cc:129): the shift is of an [int], so it is
    undefined from 32 on, and 1 << 31 is negative and is sign-extended. *)
Definition shift_one (node : Z) : option Z :=
  if node <? 31 then Some (2 ^ node)
  else if node =? 31 then Some (2 ^ 64 - 2 ^ 31)
  else None.

(** internal/numa.cc:149-153. *)
Definition assign_cpus (s : cpuset) (v : Z) (m : Z -> Z) : Z -> Z :=
  fold_left (fun m cpu => if s cpu then upd m (cpu + fudge) v else m) all_cpus m.

(** CpuSet::Count() != 0. *)
Definition any_cpu (s : cpuset) : bool := existsb s all_cpus.

(** internal/numa.cc:116-162.  The fuel bounds the number of nodes:
    the shift is undefined before 40 of them are opened. *)
Fixpoint node_loop (fuel : nat) (opn : Z -> opened) (num scale node : Z) (t : numa) : option numa :=
  match fuel with
  | O => None
  | S fuel =>
    match opn node with
    | Enoent => Some (mk_numa (nt_part t) (nt_nodes t) (nt_bind t) (nt_aware t) node)
    | Open_error => None
    | File text chunk =>
      let p := node_to_partition node num in
      let? b := shift_one node in
      let nodes := upd (nt_nodes t) p (Z.lor (nt_nodes t p) b) in
      if p =? 0 then node_loop fuel opn num scale (node + 1) (mk_numa (nt_part t) nodes (nt_bind t) (nt_aware t) (nt_num t))
      else
        let? s := parse_checked text chunk in
        node_loop fuel opn num scale (node + 1)
          (mk_numa (assign_cpus s (p * scale) (nt_part t)) nodes (nt_bind t) (nt_aware t || any_cpu s) (nt_num t))
    end
  end.

(** internal/numa.cc:79-99: whether awareness is wanted and the
    binding; [want] is default_want_numa_aware(). *)
Definition numa_env (e : option string) (want : bool) (bind : bind_mode) : option (bool * bind_mode) :=
  match e with
  | None => Some (want, bind)
  | Some e =>
    if String.eqb e "no-binding" then Some (true, BindNone)
    else if String.eqb e "advisory-binding" || String.eqb e "1" then Some (true, BindAdvisory)
    else if String.eqb e "strict-binding" then Some (true, BindStrict)
    else if String.eqb e "0" then Some (false, bind)
    else None
  end.

(** internal/numa.cc:54-165.  [fast] is IsFast(), [cpus] is
    NumCPUsMaybe(); the tables are zero before. *)
Definition init_numa (opn : Z -> opened) (fast : bool) (cpus : option Z) (e : option string) (want : bool)
    (num scale : Z) : option numa :=
  let nodes := upd (fun _ => 0) (node_to_partition 0 num) 1 in
  if negb fast then Some (mk_numa (fun _ => 0) nodes BindAdvisory false 1)
  else
    let? (enabled, bind) := numa_env e want BindAdvisory in
    let? n := cpus in
    if n <=? k_max_cpus then
      let? t := node_loop 40 opn num scale 0 (mk_numa (fun _ => 0) nodes bind false 1) in
      Some (mk_numa (nt_part t) (nt_nodes t) (nt_bind t) (enabled && nt_aware t) (nt_num t))
    else None.

(** NumaTopology<NumPartitions, ScaleBy>.  kNumInternalPartitions is
    internal/numa.h:79-80; the gated map is
    internal/numa.h:215-217. *)
Record topology := mk_topology { tp_num : Z; tp_scale : Z; tp_numa : numa; tp_gated : Z -> Z }.
Definition internal_partitions (num : Z) : Z := Z.max 2 num.
(** internal/numa.h:205-219. *)
Definition topology_init (num scale : Z) (opn : Z -> opened) (fast : bool) (cpus : option Z) (e : option string) (want : bool)
  : option topology :=
  let? t := init_numa opn fast cpus e want (internal_partitions num) scale in
  Some (mk_topology num scale t (if (1 <? num) && nt_aware t then nt_part t else fun _ => 0)).
(** internal/numa.h:98-103. *)
Definition numa_aware (t : topology) : bool := (1 <? tp_num t) && nt_aware (tp_numa t).
(** internal/numa.h:109-111. *)
Definition active_partitions (t : topology) : Z := if numa_aware t then internal_partitions (tp_num t) else 1.
(** internal/numa.h:257-260. *)
Definition cpu_scaled_partition (t : topology) (cpu : Z) : Z := nt_part (tp_numa t) (cpu + fudge).
(** internal/numa.h:251-254. *)
Definition cpu_partition (t : topology) (cpu : Z) : Z := cpu_scaled_partition t cpu / tp_scale t.
(** internal/numa.h:243-248;
    [cpu] is what rseq says. *)
Definition current_scaled_partition (t : topology) (cpu : Z) : Z :=
  if tp_num t =? 1 then 0 else tp_gated t (cpu + fudge).
(** internal/numa.h:235-240. *)
Definition current_partition (t : topology) (cpu : Z) : Z :=
  if tp_num t =? 1 then 0 else tp_gated t (cpu + fudge) / tp_scale t.
(** internal/numa.h:263-266. *)
Definition partition_nodes (t : topology) (p : Z) : Z := nt_nodes (tp_numa t) p.

(** ** L3 caches *)

(** internal/cache_topology.h:52-54. *)
Record caches := mk_caches { cc_cpus : Z; cc_count : Z; cc_index : Z -> Z }.

(** CpuSet::FindFirstSet, internal/cpu_utils.h:45-54. *)
Definition find_first (s : cpuset) : Z := match find s all_cpus with Some c => c | None => -1 end.
(** CpuSet::CLR. *)
Definition clear_cpu (s : cpuset) (c : Z) : cpuset := fun x => negb (x =? c) && s x.

(** Enough iterations for every CPU of a [CpuSet] and one more. *)
Definition cpu_fuel : nat := 2049.

(** internal/cache_topology.cc:98-106: the inner loop; an l3_cache_index_ is a
    [uint8_t]. *)
Fixpoint share_loop (fuel : nat) (first : Z) (shared todo : cpuset) (idx : Z -> Z) : option (cpuset * (Z -> Z)) :=
  match fuel with
  | O => None
  | S fuel =>
    let next := find_first shared in
    if next =? -1 then Some (todo, idx)
    else share_loop fuel first (clear_cpu shared next) (clear_cpu todo next) (upd idx next (idx first))
  end.

(** internal/cache_topology.cc:57-107: the outer loop. *)
Fixpoint l3_loop (fuel : nat) (aarch64 : bool) (opn : Z -> opened) (todo : cpuset) (t : caches) : option caches :=
  match fuel with
  | O => None
  | S fuel =>
    let cpu := find_first todo in
    if cpu =? -1 then Some t
    else
      match opn cpu with
      | Enoent => Some (if aarch64 && (cc_count t =? 0) then mk_caches (cc_cpus t) 1 (cc_index t) else t)
      | Open_error => None
      | File text chunk =>
        let? shared := parse_checked text chunk in
        let idx := upd (cc_index t) cpu (cc_count t mod 256) in
        let? (todo, idx) := share_loop cpu_fuel cpu (clear_cpu shared cpu) (clear_cpu todo cpu) idx in
        l3_loop fuel aarch64 opn todo (mk_caches (cc_cpus t) (cc_count t + 1) idx)
      end
  end.

(** internal/cache_topology.cc:43-108. *)
Definition init_caches (aarch64 : bool) (opn : Z -> opened) (cpus : option Z) : option caches :=
  match cpus with
  | None => Some (mk_caches 0 1 (fun _ => 0))
  | Some n => l3_loop cpu_fuel aarch64 opn (fun c => (0 <=? c) && (c <? n)) (mk_caches n 0 (fun _ => 0))
  end.

(** internal/cache_topology.h:43-49, whose TC_ASSERTs are
    [None]. *)
Definition l3_of_cpu (t : caches) (cpu : Z) : option Z :=
  if (0 <=? cpu) && (cpu <? cc_cpus t) && (cc_index t cpu <? cc_count t) then Some (cc_index t cpu) else None.
