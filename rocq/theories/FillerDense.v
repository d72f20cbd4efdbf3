(** C33: spans with many objects and the hugepage filler.  The filler keeps hugepages for spans with many objects
    apart, and serves only single pages from them (huge_page_filler.h:1104-1107 asserts it). *)
From Verif Require Import Base SizeMap Tables SizeMapProofs SizeMapProofs2 SizeMapProps PageTracker PageTrackerProps Filler FillerProps.

(** A class whose spans count as dense, central_freelist.cc:62-70: more than kFewObjectsAllocMaxLimit objects. *)
Definition dense_class (e : sci) : Prop := 0 < sz e /\ k_few_objects < bytes e / sz e.

(** C33: in every table that is shipped, spans with many objects are one page long. *)
Theorem shipped_dense_one_page : forall c t e, cfg_ok c -> In t (tables (page_shift c)) -> In e t -> dense_class e -> bytes e = page_size c.
Proof.
  intros c t e Hc. revert t e.
  assert (H : forallb (fun t => forallb (fun e => (sz e <=? 0) || (bytes e / sz e <=? k_few_objects) || (bytes e =? page_size c)) t) (tables (page_shift c)) = true).
  { revert Hc. apply cfg_cases with (P := fun c => forallb (fun t => forallb (fun e => (sz e <=? 0) || (bytes e / sz e <=? k_few_objects) || (bytes e =? page_size c)) t) (tables (page_shift c)) = true);
    intros a b; vm_compute; reflexivity. }
  intros t e Ht He (D1 & D2). pose proof (forallb_In _ _ (forallb_In _ _ H t Ht) e He) as B. cbv beta in B.
  rewrite !orb_true_iff, !Z.leb_le, Z.eqb_eq in B. lia.
Qed.
Print Assumptions shipped_dense_one_page.

(** The check that a table undergoes does not ensure it: the table below is accepted, its class of 16384 bytes has spans
    of two pages with 32 objects, and in a reachable state a request for such a span picks a hugepage
    without two free pages in a row, where the code's own check fails. *)
Definition dense_table : list sci := [Sci 0 0 0; Sci 8 262144 32; Sci 16384 524288 4; Sci 262144 262144 2].

Definition d1 : filler := fl_contribute 8 false (filler_init (fun _ => pt_new 8 false)) 5 (match pt_get 8 (pt_new 8 false) 1 32 with Some (t, _, _) => t | None => pt_new 8 false end) false true.
Definition dget (f : filler) : filler := match try_get 8 false f 1 true 32 with Some (f, _) => f | None => f end.
Definition dput (f : filler) (i : Z) : filler := match fl_put 8 false f 5 i 1 32 true with Some (f, _) => f | None => f end.
Definition d2 : filler := dput (dput (dput (dput (dget (dget (dget (dget (dget (dget (dget d1))))))) 1) 3) 5) 7.

Lemma dget_reach f own lv i : fl_reach 8 false f own lv -> match try_get 8 false f 1 true 32 with Some (_, r) => r | None => None end = Some (5, i, false) ->
  fl_reach 8 false (dget f) own (upd lv 5 (((i, 1), 32) :: lv 5)).
Proof.
  intros R E. unfold dget. destruct (try_get 8 false f 1 true 32) as [[f' r]|] eqn:E'; [|discriminate]. subst r.
  exact (fr_get 8 false f own lv 1 true 32 f' 5 i false R ltac:(lia) ltac:(auto) E').
Qed.
Lemma dput_reach f own lv l1 i l2 : fl_reach 8 false f own lv -> In 5 own -> lv 5 = l1 ++ ((i, 1), 32) :: l2 -> l1 ++ l2 <> [] ->
  fl_reach 8 false (dput f i) own (upd lv 5 (l1 ++ l2)).
Proof.
  intros R Hi El Hn. destruct (filler_put 8 false f own lv 5 l1 i 1 32 l2 true ltac:(lia) R Hi El) as (f' & r & E & _). unfold dput. rewrite E.
  pose proof (fr_put 8 false f own lv 5 l1 i 1 32 l2 true f' r R Hi El E) as R'. destruct (l1 ++ l2); [congruence|exact R'].
Qed.

Theorem accepted_dense_one_page_refuted :
  (exists c t e, cfg_ok c /\ valid_size_classes c t = true /\ fits c t /\ In e t /\ dense_class e /\ bytes e = 2 * page_size c) /\
  (exists f own lv, fl_reach 8 false f own lv /\ try_get 8 false f 2 true 32 = None).
Proof.
  split.
  - exists (cfg18 1 1), dense_table, (Sci 16384 524288 4). split; [exists 1, 1; split; [lia|auto 6]|]. split; [vm_compute; reflexivity|]. split; [left; vm_compute; discriminate|].
    split; [right; right; left; reflexivity|]. split; [split; reflexivity|reflexivity].
  - assert (R0 : exists i u, pt_get 8 (pt_new 8 false) 1 32 = Some (match pt_get 8 (pt_new 8 false) 1 32 with Some (t, _, _) => t | None => pt_new 8 false end, i, u) /\ i = 0).
    { destruct (pt_get 8 (pt_new 8 false) 1 32) as [[[t i] u]|] eqn:E; vm_compute in E; [|discriminate]. injection E as <- <- <-. exists 0, 0. auto. }
    destruct R0 as (i & u & E0 & ->).
    pose proof (fr_contribute 8 false _ _ _ 5 false true 1 32 _ 0 u (fr_init 8 false (fun _ => pt_new 8 false)) ltac:(intros []) ltac:(intros []) ltac:(lia) E0 ltac:(discriminate) ltac:(auto)) as R1.
    fold d1 in R1.
    assert (E1 : match try_get 8 false d1 1 true 32 with Some (_, r) => r | None => None end = Some (5, 1, false)) by (vm_compute; reflexivity).
    pose proof (dget_reach _ _ _ 1 R1 E1) as R2.
    assert (E2 : match try_get 8 false (dget d1) 1 true 32 with Some (_, r) => r | None => None end = Some (5, 2, false)) by (vm_compute; reflexivity).
    pose proof (dget_reach _ _ _ 2 R2 E2) as R3.
    assert (E3 : match try_get 8 false (dget (dget d1)) 1 true 32 with Some (_, r) => r | None => None end = Some (5, 3, false)) by (vm_compute; reflexivity).
    pose proof (dget_reach _ _ _ 3 R3 E3) as R4.
    assert (E4 : match try_get 8 false (dget (dget (dget d1))) 1 true 32 with Some (_, r) => r | None => None end = Some (5, 4, false)) by (vm_compute; reflexivity).
    pose proof (dget_reach _ _ _ 4 R4 E4) as R5.
    assert (E5 : match try_get 8 false (dget (dget (dget (dget d1)))) 1 true 32 with Some (_, r) => r | None => None end = Some (5, 5, false)) by (vm_compute; reflexivity).
    pose proof (dget_reach _ _ _ 5 R5 E5) as R6.
    assert (E6 : match try_get 8 false (dget (dget (dget (dget (dget d1))))) 1 true 32 with Some (_, r) => r | None => None end = Some (5, 6, false)) by (vm_compute; reflexivity).
    pose proof (dget_reach _ _ _ 6 R6 E6) as R7.
    assert (E7 : match try_get 8 false (dget (dget (dget (dget (dget (dget d1)))))) 1 true 32 with Some (_, r) => r | None => None end = Some (5, 7, false)) by (vm_compute; reflexivity).
    pose proof (dget_reach _ _ _ 7 R7 E7) as R8. clear E0 E1 E2 E3 E4 E5 E6 E7 R1 R2 R3 R4 R5 R6 R7.
    pose proof (dput_reach _ _ _ [((7, 1), 32); ((6, 1), 32); ((5, 1), 32); ((4, 1), 32); ((3, 1), 32); ((2, 1), 32)] 1 [((0, 1), 32)] R8 ltac:(left; reflexivity) eq_refl ltac:(discriminate)) as P1.
    pose proof (dput_reach _ _ _ [((7, 1), 32); ((6, 1), 32); ((5, 1), 32); ((4, 1), 32)] 3 [((2, 1), 32); ((0, 1), 32)] P1 ltac:(left; reflexivity) eq_refl ltac:(discriminate)) as P2.
    pose proof (dput_reach _ _ _ [((7, 1), 32); ((6, 1), 32)] 5 [((4, 1), 32); ((2, 1), 32); ((0, 1), 32)] P2 ltac:(left; reflexivity) eq_refl ltac:(discriminate)) as P3.
    pose proof (dput_reach _ _ _ [] 7 [((6, 1), 32); ((4, 1), 32); ((2, 1), 32); ((0, 1), 32)] P3 ltac:(left; reflexivity) eq_refl ltac:(discriminate)) as P4.
    eexists _, _, _. split; [exact P4|]. vm_compute. reflexivity.
Qed.
Print Assumptions accepted_dense_one_page_refuted.
