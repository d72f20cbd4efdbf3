(** Specification for SubreleaseProps.v. *)
From Verif Require Import Base Subrelease.

Definition greatest (S : Z -> Prop) (r : Z) : Prop := S r /\ forall x, S x -> x <= r.
Definition least (S : Z -> Prop) (r : Z) : Prop := S r /\ forall x, S x -> r <= x.
(** The largest element, or 0 if there is none. *)
Definition top (S : Z -> Prop) (r : Z) : Prop := greatest S r \/ (r = 0 /\ forall x, ~ S x).
(** The smallest element, or 0 if there is none. *)
Definition bottom (S : Z -> Prop) (r : Z) : Prop := least S r \/ (r = 0 /\ forall x, ~ S x).

(** The figures reported fit: page counts. *)
Definition stats_ok (v : sstats) : Prop := 0 <= ss_num v < 2 ^ 62 /\ 0 <= ss_free v /\ 0 <= ss_unmapped v /\ ss_free v + ss_unmapped v < len_max.

(** The window is a whole number of epochs, one per slot. *)
Definition good_cfg (c : scfg) : Prop := 0 < sc_slots c /\ 0 < sc_epoch c /\ sc_window c = sc_slots c * sc_epoch c.
Definition log_ok (log : list (Z * sstats)) : Prop := forall e v, In (e, v) log -> stats_ok v.
(** An interval reaches back over [w] epochs. *)
Definition epochs_of (c : scfg) (interval w : Z) : Prop := (w - 1) * sc_epoch c < interval <= w * sc_epoch c.

(** What was reported in the last [w] epochs, and the epochs it was reported in. *)
Definition reported (log : list (Z * sstats)) (last w : Z) (f : sstats -> Z) (x : Z) : Prop :=
  exists e v, In (e, v) log /\ last - w < e /\ x = f v.
Definition in_epoch (log : list (Z * sstats)) (e : Z) (x : Z) : Prop := exists v, In (e, v) log /\ x = ss_num v.

(** The differences between the largest and the smallest demand of an epoch, and the smallest demands of the epochs. *)
Definition swing (log : list (Z * sstats)) (last w x : Z) : Prop := exists e hi lo, last - w < e /\ greatest (in_epoch log e) hi /\ least (in_epoch log e) lo /\ x = hi - lo.
Definition floor_of (log : list (Z * sstats)) (last w x : Z) : Prop := exists e, last - w < e /\ least (in_epoch log e) x.
