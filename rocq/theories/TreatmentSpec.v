(** Words to state what the treatment of hugepages does, as they are observed from outside. *)
From Verif Require Import Base Bitmap PageTracker PageTrackerProps Filler FillerProps Treatment.

(** Kernel page [i], of the [M] of a hugepage, and TCMalloc page [j], of the [N] of that hugepage, have a byte in common. *)
Definition overlap (N M i j : Z) : Prop := i * N < (j + 1) * M /\ j * M < (i + 1) * N.
(** How many of the [M] kernel pages of a hugepage are marked in [w]; whether one is. *)
Definition marked (M : Z) (w : words) : Z := zcount (bit w) 0 (Z.to_nat M).
Definition some_marked (M : Z) (w : words) : Prop := exists i, 0 <= i < M /\ bit w i = true.

(** The kinds of errors: ENOMEM, EBUSY, EINVAL, EAGAIN, EINTR (Linux values) and all others. *)
Definition is_kind (k errno : Z) : bool :=
  (k =? 0) && (errno =? 12) || (k =? 1) && (errno =? 16) || (k =? 2) && (errno =? 22) || (k =? 3) && (errno =? 11) ||
  (k =? 4) && (errno =? 4) || (k =? 5) && negb (existsb (Z.eqb errno) [12; 16; 22; 11; 4]).
(** Whether a collapse was tried, whether it succeeded, whether it failed with an error of kind [k]; how long it took. *)
Definition tried (e : entry) : bool := match e_out e with TTried _ _ _ => true | _ => false end.
Definition worked (e : entry) : bool := match e_out e with TTried ok _ _ => ok | _ => false end.
Definition failed (k : Z) (e : entry) : bool := match e_out e with TTried false errno _ => is_kind k errno | _ => false end.
Definition took (e : entry) : Z := match e_out e with TTried _ _ elapsed => Z.max elapsed 0 | _ => 0 end.
Definition count {A} (P : A -> bool) (l : list A) : Z := Z.of_nat (length (filter P l)).
Definition longest (l : list entry) : Z := fold_right Z.max 0 (map took l).

(** Which hugepages a pass that may collapse ([enabled]) tries to collapse: those found not to be backed by a hugepage, with few
    swapped and few unbacked pages (unless all are wanted), until one collapse took too long. *)
Definition may_try (M : Z) (c : tconf) (enabled : bool) (before : list entry) (o : obs) : Prop :=
  enabled = true /\ o_huge o = Some false /\
  (tc_unfiltered c = true \/ marked M (o_swapped o) < 128 /\ marked M (o_unbacked o) < 64) /\
  (forall e, In e before -> took e <= tc_slow c).
Definition log_ok (M : Z) (c : tconf) (enabled : bool) (l : list entry) : Prop :=
  forall l1 e l2, l = l1 ++ e :: l2 -> tried e = true <-> may_try M c enabled l1 (e_obs e).

(** The statistics of the tries of [l]. *)
Definition counts_ok (s : tstats) (l : list entry) : Prop :=
  st_attempted s = count tried l /\ st_succeeded s = count worked l /\ (forall k, st_errors s k = count (failed k) l) /\
  st_time s = zsum (map took l) /\ st_max s = longest l.

(** The passes that are over. *)
Definition over (s : tsys) : list past := match y_phase s with PPass _ => tl (y_past s) | _ => y_past s end.
(** How many of the latest passes asked to collapse were skipped in a row; the latest pass comes first. *)
Fixpoint skipped_last (l : list past) : Z :=
  match l with
  | [] => 0
  | a :: l => if a_skipped a then 1 + skipped_last l else if a_asked a then 0 else skipped_last l
  end.
(** The current length of the waits: doubled, up to 128, by a pass one of whose collapses was slow; halved by a pass that tried some and
    all whose collapses were fast. *)
Fixpoint wait_after (c : tconf) (l : list past) : Z :=
  match l with
  | [] => 1
  | a :: l =>
    let w := wait_after c l in
    if count tried (a_done a) =? 0 then w
    else if tc_slow c <? longest (a_done a) then Z.min (2 * w) 128
    else if longest (a_done a) <? tc_fast c then Z.max (w / 2) 1
    else w
  end.
