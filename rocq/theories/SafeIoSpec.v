(** Specification for C60: a status file. *)
From Verif Require Import Base CpuList CpuListProps SafeIo.

(** The names that matter. *)
Definition names : list (list Z) := [n_VmSize; n_VmRSS; n_RssFile; n_RssShmem; n_VmExe; n_VmData; n_VmStk; n_VmPTE].

(** A line is one of these fields, as in "VmRSS:<blanks>123 kB", or anything that is not
    (it does not start with one of the names and a colon). *)
Inductive status_line := Field (name pad digits : list Z) | Other (text : list Z).
Definition line_text (l : status_line) : list Z :=
  match l with Field name pad t => name ++ [58] ++ pad ++ t ++ [32; 107; 66] | Other t => t end.
Definition line_ok (l : status_line) : Prop :=
  (length (line_text l) < 1024)%nat /\
  match l with
  | Field name pad t => In name names /\ Forall (fun c => c = 32 \/ c = 9) pad /\ digits t /\ value t * 1024 < 2 ^ 63
  | Other t => ~ In 10 t /\ forall name rest, In name names -> t <> name ++ 58 :: rest
  end.
Definition status_text (ls : list status_line) : list Z := flat_map (fun l => line_text l ++ [10]) ls.

(** The fields, in bytes; a name is there at most once. *)
Definition fields (ls : list status_line) : list (list Z * Z) :=
  flat_map (fun l => match l with Field name _ t => [(name, value t * 1024)] | Other _ => [] end) ls.
(** The value of a field: 0 if it is not there. *)
Definition has (ls : list status_line) (name : list Z) : Prop := exists v, In (name, v) (fields ls).
Definition amount (ls : list status_line) (name : list Z) (v : Z) : Prop :=
  In (name, v) (fields ls) \/ (~ has ls name /\ v = 0).
