(** Model of tcmalloc/internal/timeseries_tracker.h.  The payload type [P], its
    empty value [nil] and its Report [rep] are parameters, as in the template. *)
From Verif Require Import Base.

(** internal/timeseries_tracker.h:59-60: the precomputed reciprocal of
    an epoch of [d] clock ticks ([d > 0]; the floating-point product is an input). *)
Definition bit_width (d : Z) : Z := if d =? 0 then 0 else Z.log2 d + 1.
Definition div_precision (d : Z) : Z := 63 + bit_width d.
Definition epoch_ticks_m (d : Z) : Z := wrap64 (wrap64 (2 ^ div_precision d / d) + 1).

(** internal/timeseries_tracker.h:98-112: the product is 128 bits wide. *)
Definition epoch_at (d now : Z) : Z :=
  wrap64 (Z.shiftr ((epoch_ticks_m d * now) mod 2 ^ 128) (div_precision d)).

(** internal/timeseries_tracker.h:130-138: (epoch_delta, payload). *)
(** internal/timeseries_tracker.h:142-143. *)
Record tseries (P : Type) := TSeries { ts_entries : Z -> Z * P; ts_last : Z; ts_cur : Z; ts_covered : Z }.
Arguments TSeries {P}. Arguments ts_entries {P}. Arguments ts_last {P}. Arguments ts_cur {P}. Arguments ts_covered {P}.

(** internal/timeseries_tracker.h:113-128. *)
Definition ts_init {P} (nil : P) (epoch : Z) : tseries P :=
  TSeries (upd (fun _ => (0, nil)) 0 (1, nil)) epoch 0 1.

(** internal/timeseries_tracker.h:158-184; [epoch] is the current epoch.  Subtractions are
    of [size_t]. *)
Definition update_clock {P} (K : Z) (nil : P) (t : tseries P) (epoch : Z) : bool * tseries P :=
  if epoch <? ts_last t then (false, ts_init nil epoch)
  else if epoch =? ts_last t then (false, t)
  else
    let delta := wrap64 (epoch - ts_last t) in
    let cur := if ts_cur t + 1 =? K then 0 else ts_cur t + 1 in
    let cov := wrap64 (ts_covered t - fst (ts_entries t cur)) in
    (true, TSeries (upd (ts_entries t) cur (delta, nil)) epoch cur (wrap64 (cov + delta))).

(** internal/timeseries_tracker.h:246-250. *)
Definition ts_report {P V} (K : Z) (nil : P) (rep : P -> V -> P) (t : tseries P) (epoch : Z) (v : V) : bool * tseries P :=
  let (b, t) := update_clock K nil t epoch in
  let (d, p) := ts_entries t (ts_cur t) in
  (b, TSeries (upd (ts_entries t) (ts_cur t) (d, rep p v)) (ts_last t) (ts_cur t) (ts_covered t)).

(** internal/timeseries_tracker.h:187-201: the calls made, in order:
    (sequence number, delta, payload). *)
Fixpoint iter_loop {P} (K : Z) (emp : P -> bool) (t : tseries P) (n : nat) (seq j : Z) : list (Z * Z * P) :=
  match n with
  | O => []
  | S n =>
    let e := ts_entries t j in
    let rest := iter_loop K emp t n (seq + 1) (if j + 1 =? K then 0 else j + 1) in
    if emp (snd e) then rest else (seq, fst e, snd e) :: rest
  end.
Definition ts_iter {P} (K : Z) (emp : P -> bool) (t : tseries P) : list (Z * Z * P) :=
  iter_loop K emp t (Z.to_nat K) 0 (if ts_cur t + 1 =? K then 0 else ts_cur t + 1).

(** internal/timeseries_tracker.h:204-232; [want] is the number of epochs the
    window rounds up to ([None]: infinite). *)
Fixpoint back_loop {P} (K : Z) (t : tseries P) (target : Z) (n : nat) (seq j trav : Z) : list (Z * Z * P) :=
  match n with
  | O => []
  | S n =>
    let e := ts_entries t j in
    let trav := trav + fst e in
    (seq, fst e, snd e) ::
      (if target <=? trav then [] else back_loop K t target n (seq + 1) ((if j =? 0 then K else j) - 1) trav)
  end.
Definition ts_target {P} (t : tseries P) (want : option Z) : Z :=
  match want with None => ts_covered t | Some w => Z.min w (ts_covered t) end.
Definition ts_iter_back {P} (K : Z) (t : tseries P) (want : option Z) : list (Z * Z * P) :=
  let target := ts_target t want in
  back_loop K t target (Z.to_nat (Z.min K target)) 0 (ts_cur t) 0.

(** internal/timeseries_tracker.h:236-243. *)
Definition ts_recent {P} (K : Z) (t : tseries P) : Z * P :=
  (fst (ts_entries t (ts_cur t)), snd (ts_entries t ((ts_cur t + K - 1) mod K))).
