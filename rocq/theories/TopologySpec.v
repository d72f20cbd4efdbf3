(** Specification for C59: what the files of sysfs say. *)
From Coq Require Import String.
From Verif Require Import Base CpuList CpuListProps Topology.

(** A readable cpulist file that lists exactly the CPUs [cpus]: empty or only a newline,
    or entries separated by commas (CpuListProps: [entry_ok], [list_text], [listed]). *)
Definition lists (f : opened) (cpus : Z -> Prop) : Prop :=
  exists text chunk, f = File text chunk /\ (forall i, 0 <= chunk i) /\
    (((text = [] \/ text = [ch_newline]) /\ (forall c, ~ cpus c)) \/
     (exists e l nl, text = (list_text e l ++ nl)%list /\ (nl = [] \/ nl = [ch_newline]) /\ Forall entry_ok (e :: l) /\
        (forall c, cpus c <-> exists x, In x (e :: l) /\ listed x c))).

(** A machine with [n] nodes; node [i] has the CPUs [cpus i], no two nodes share one. *)
Definition nodes_are (opn : Z -> opened) (n : Z) (cpus : Z -> Z -> Prop) : Prop :=
  0 <= n /\
  (forall i, 0 <= i < n -> lists (opn i) (cpus i)) /\ opn n = Enoent /\
  (forall i j c, 0 <= i < n -> 0 <= j < n -> cpus i c -> cpus j c -> i = j).

(** What the environment variable asks for: awareness, and the binding of memory. *)
Inductive asks : option string -> bool -> bool -> bind_mode -> Prop :=
| asks_unset : forall want, asks None want want BindAdvisory
| asks_none : forall want, asks (Some "no-binding"%string) want true BindNone
| asks_advisory : forall want, asks (Some "advisory-binding"%string) want true BindAdvisory
| asks_one : forall want, asks (Some "1"%string) want true BindAdvisory
| asks_strict : forall want, asks (Some "strict-binding"%string) want true BindStrict
| asks_zero : forall want, asks (Some "0"%string) want false BindAdvisory.

(** A machine with CPUs 0 to [n]-1, where [cache c] names the L3 cache of CPU [c]. *)
Definition caches_are (opn : Z -> opened) (n : Z) (cache : Z -> Z) : Prop :=
  forall c, 0 <= c < n -> lists (opn c) (fun d => 0 <= d < n /\ cache d = cache c).
