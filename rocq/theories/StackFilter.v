(** Model of tcmalloc/internal/stacktrace_filter.h.  Every access to shared memory is
    an atomic operation on one location, so the code is modelled as activities that
    advance by one such operation at a time.  The hash functions are parameters; a
    stack trace is represented by a number and [first] is its hash. *)
From Verif Require Import Base.

(** The template parameters: kSize, kHashNum, kDecaySteps, and the hashes
    (internal/stacktrace_filter.h:79-81, internal/stacktrace_filter.h:83-85). *)
Record fcfg := FCfg { f_size : Z; f_hashes : nat; f_steps : Z; f_first : Z -> Z; f_next : Z -> Z }.

Definition wrap16 (x : Z) : Z := x mod 2 ^ 16.

(** internal/stacktrace_filter.h:97, internal/stacktrace_filter.h:152-153. *)
Record filter := Filter { f_counts : Z -> Z; f_ring : Z -> Z; f_pos : Z }.
Definition filter0 : filter := Filter (fun _ => 0) (fun _ => 0) 0.

(** A call in progress. *)
Inductive act :=
| AAdd (h v : Z) (n : nat) (k : option (Z * Z))   (* the loop of Add(stack_hash, val), then the Add in [k] *)
| ADecay (r : Z) (k : option (Z * Z))             (* Decay(r) is about to increment pos_ *)
| AExchange (p r : Z) (k : option (Z * Z))        (* Decay(r) is about to exchange at p *)
| AContains (h : Z) (n : nat)
| ADone (b : bool).

(** What follows a Decay. *)
Definition after (c : fcfg) (k : option (Z * Z)) : act :=
  match k with Some (h, v) => AAdd h v (f_hashes c) None | None => ADone true end.

(** One atomic operation of a call. *)
Definition act_step (c : fcfg) (s : filter) (a : act) : filter * act :=
  match a with
  (* internal/stacktrace_filter.h:87-92 *)
  | AAdd h v (S n) k =>
      let i := h mod f_size c in
      (Filter (upd (f_counts s) i (wrap16 (f_counts s i + v))) (f_ring s) (f_pos s), AAdd (f_next c h) v n k)
  | AAdd h v O k => (s, after c k)
  (* internal/stacktrace_filter.h:142-148 *)
  | ADecay r k => (Filter (f_counts s) (f_ring s) (wrap64 (f_pos s + 1)), AExchange (f_pos s) r k)
  | AExchange p r k =>
      let i := p mod f_steps c in
      let d := f_ring s i in
      (Filter (f_counts s) (upd (f_ring s) i r) (f_pos s),
       if d =? 0 then after c k else AAdd d (-1) (f_hashes c) k)
  (* internal/stacktrace_filter.h:58-68 *)
  | AContains h (S n) =>
      (s, if f_counts s (h mod f_size c) =? 0 then ADone false else AContains (f_next c h) n)
  | AContains h O => (s, ADone true)
  | ADone b => (s, ADone b)
  end.

(** The calls.  internal/stacktrace_filter.h:74-76. *)
Definition call_add (c : fcfg) (t v : Z) : act := AAdd (f_first c t) v (f_hashes c) None.
Definition call_contains (c : fcfg) (t : Z) : act := AContains (f_first c t) (f_hashes c).
(** internal/stacktrace_filter.h:116-127: Add of the decaying filter. *)
Definition call_decaying_add (c : fcfg) (t v : Z) : act :=
  let h := f_first c t in
  if 0 <=? v then ADecay h (Some (h, v + (if h =? 0 then 0 else 1))) else AAdd h v (f_hashes c) None.
(** internal/stacktrace_filter.h:130; DecayAll (internal/stacktrace_filter.h:133-137) is kDecaySteps of these. *)
Definition call_decay : act := ADecay 0 None.

(** A call run alone to its end. *)
Fixpoint run_alone (c : fcfg) (fuel : nat) (s : filter) (a : act) : filter * act :=
  match fuel with
  | O => (s, a)
  | S fuel => match a with ADone _ => (s, a) | _ => let (s, a) := act_step c s a in run_alone c fuel s a end
  end.
