(** Model of tcmalloc/sampler.h and sampler.cc: which allocations are sampled and
    with what weight.  The geometric random variable (floating point) and the
    sampling-interval parameter, which another thread may change at any time, are
    inputs.  [ssize_t] values are signed: results are reduced by [s64]. *)
From Verif Require Import Base.

Definition s64 (x : Z) : Z := (x + 2 ^ 63) mod 2 ^ 64 - 2 ^ 63.
Definition ssize_max : Z := 2 ^ 63 - 1.

(** sampler.h:132-145 without the random state. *)
Record sampler := Sampler { s_interval : Z; s_init : bool; s_bytes : Z }.
(** sampler.h:122-126. *)
Definition sampler0 : sampler := Sampler 0 false 0.

Definition k_interval_offset : Z := 1.   (* sampler.cc:43 *)

(** What the world contributes to one call: the sampling interval each time it is
    read and each value of GetGeometricVariable. *)
Record senv := SEnv { e_int1 : Z; e_geo1 : Z; e_int2 : Z; e_geo2 : Z; e_int3 : Z }.

(** sampler.cc:67-85: the gap drawn when the
    interval is [int]. *)
Definition pick (int geo : Z) : Z :=
  if int <=? 0 then 128 * 2 ^ 20
  else if int =? 1 then 0
  else Z.max 0 (s64 (geo - k_interval_offset)).

(** sampler.h:164-174: [true] when nothing more is to be done. *)
Definition try_fast (s : sampler) (k : Z) : bool * sampler :=
  let k1 := wrap64 (k + 1) in
  let b := wrap64 (s_bytes s) in
  (negb (b <? k1), Sampler (s_interval s) (s_init s) (s64 (b - k1))).

(** sampler.cc:123-154.  Also returns the draws
    (interval, gap) that were made, for the specification. *)
Definition record_slow (s : sampler) (k : Z) (e : senv) : Z * list (Z * Z) * sampler :=
  let '(early, d1, s) :=
    if s_init s then (false, [], s)
    else
      let gap := pick (e_int1 e) (e_geo1 e) in
      let b := s64 (gap - wrap64 (k + 1)) in
      (0 <=? b, [(e_int1 e, gap)], Sampler (e_int1 e) true b) in
  if early then (0, d1, s)
  else
    let w := s_interval s - s64 (s_bytes s + k_interval_offset) in
    let weight := if w =? s64 w then w else ssize_max in
    let gap := pick (e_int2 e) (e_geo2 e) in
    (if e_int3 e <=? 0 then 0 else wrap64 weight, (e_int2 e, gap) :: d1, Sampler (e_int2 e) true gap).

(** sampler.h:176-182. *)
Definition recorded_fast (s : sampler) (k : Z) (e : senv) : Z * list (Z * Z) * sampler :=
  if s_bytes s <? 0 then record_slow s k e else (0, [], s).

(** sampler.h:156-161: the path of large allocations
    (tcmalloc.cc:1256). *)
Definition record (s : sampler) (k : Z) (e : senv) : Z * list (Z * Z) * sampler :=
  let '(ok, s) := try_fast s k in
  if ok then (0, [], s) else record_slow s k e.

(** The path of small allocations, tcmalloc.cc:1290-1293 and
    tcmalloc.cc:1238: the slow path is also taken
    when the per-CPU cache is empty ([miss]). *)
Definition record_small (s : sampler) (k : Z) (miss : bool) (e : senv) : Z * list (Z * Z) * sampler :=
  let '(ok, s) := try_fast s k in
  if negb ok || miss then recorded_fast s k e else (0, [], s).

(** sampler.h:184-186: the comparison is unsigned. *)
Definition will_record (s : sampler) (k : Z) : bool := wrap64 (s_bytes s) <? wrap64 (k + 1).

(** internal/exponential_biased.h:33-40 and the
    26 bits that sampler.cc:106 takes from it. *)
Definition next_random (r : Z) : Z := Z.land (wrap64 (wrap64 (25214903917 * r) + 11)) (2 ^ 48 - 1).
Definition random26 (r : Z) : Z := Z.shiftr r (48 - 26) mod 2 ^ 32.
