(** Specification for C62: lists of labels, variables and tables of experiments. *)
From Coq Require Import String.
From Verif Require Import Base Experiment.

(** [t] is one of the labels of [s], which are separated by commas. *)
Definition listed (t s : list Z) : Prop :=
  exists a b, s = a ++ t ++ b /\ (a = [] \/ exists a', a = a' ++ [44]) /\ (b = [] \/ exists b', b = 44 :: b') /\ ~ In 44 t.

(** The first string of the environment of the form var=... is var=value. *)
Definition env_is (environ : list (list Z)) (var value : list Z) : Prop :=
  exists before after, environ = before ++ (var ++ [61] ++ value) :: after /\ forall x t, In x before -> x <> var ++ [61] ++ t.
Definition env_unset (environ : list (list Z)) (var : list Z) : Prop := forall x t, In x environ -> x <> var ++ [61] ++ t.

(** Every experiment is in the table once, with its own name. *)
Definition table_ok (cfgs : list config) : Prop :=
  NoDup (map c_id cfgs) /\ NoDup (map c_name cfgs) /\ Forall (fun c => 0 <= c_id c < num_experiments) cfgs.

(** What the user asked for. *)
Definition asked (active : list Z) (name : list Z) : Prop := active = str "enable-all-known-experiments" \/ listed name active.
Definition refused (disabled : list Z) (name : list Z) : Prop := disabled = str "all" \/ listed name disabled.
