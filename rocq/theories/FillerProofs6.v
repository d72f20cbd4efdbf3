(** The rounds of ReleasePages. *)
From Coq Require Import Permutation.
From Verif Require Import Base Bitmap BitmapProofs RangeTrackerProofs RangeTrackerProofs2 RangeTrackerProps HintedLists HintedListsProofs PageTracker PageTrackerProps Filler FillerProofs FillerProofs2 FillerProofs3 FillerProofs4 FillerProofs5.

(** What a loop visits: the hugepages for which [E] holds. *)
Definition visits (N : Z) (sub : bool) (visited : filler -> option (list Z)) (E : ptracker -> Prop) : Prop :=
  (forall f own lv, fl_ok N sub f own lv -> exists l, visited f = Some l /\ NoDup l /\ forall x, In x l <-> In x own /\ E (fl_tr f x)) /\
  (forall t, E t -> releasable N t).
Definition is_part (N : Z) (sub : bool) (t : ptracker) : Prop := exists d, kind N sub t = LPart d.
Definition is_reg (N : Z) (sub : bool) (t : ptracker) : Prop := ((exists d, kind N sub t = LReg d) \/ kind N sub t = LDon) /\ releasable N t.

Lemma visits_partial N sub : 1 < N -> visits N sub (visited_partial N) (is_part N sub).
Proof.
  intros HN. split; [intros f own lv Ok; exact (visited_partial_ok N sub f own lv HN Ok)|]. intros t (d & H). unfold kind in H. unfold releasable.
  destruct (pt_donated t); [discriminate|]. destruct (_ && _); [discriminate|]. destruct (Z.leb_spec (pt_free_pages N t) (pt_rcount t)); [discriminate|assumption].
Qed.
Lemma visits_regular N sub : 1 < N -> visits N sub (visited_regular N) (is_reg N sub).
Proof. intros HN. split; [intros f own lv Ok; exact (visited_regular_ok N sub f own lv HN Ok)|]. intros t (_ & H). assumption. Qed.

(** The hugepages a loop may choose from. *)
Definition elig (E : ptracker -> Prop) (f : filler) (own : list Z) (x : Z) : Prop := In x own /\ E (fl_tr f x) /\ fl_collapsing f x = false.

Lemma same_key f f' y : same_pages f f' -> key (fl_tr f' y) = key (fl_tr f y).
Proof. intros []. unfold key, pt_used. rewrite sp_free, sp_dense. reflexivity. Qed.
Lemma still_unreleasable N f f' y : same_pages f f' -> ~ releasable N (fl_tr f y) -> ~ releasable N (fl_tr f' y).
Proof. intros [] H. unfold releasable, pt_free_pages, pt_used in *. rewrite sp_free. specialize (sp_more y). lia. Qed.

(** [touched]: the hugepages the loop released from. *)
Record touches (N : Z) (E : ptracker -> Prop) (ans : (Z -> Z -> Z -> bool) -> Prop) (own : list Z) (f f' : filler) (touched : list Z) : Prop := {
  to_same : forall x, ~ In x touched -> fl_tr f' x = fl_tr f x;
  to_elig : forall x, In x touched -> elig E f own x;
  to_don : forall x, In x touched -> pt_donated (fl_tr f' x) = false;
  to_best : forall x y, In x touched -> elig E f own y -> ~ In y touched -> key (fl_tr f x) <= key (fl_tr f y);
  to_all : forall y, In y touched -> (forall os, ans os -> forall i n, os y i n = true) -> ~ releasable N (fl_tr f' y) }.

(** At most a hugepage more than asked for. *)
Lemma release_candidates_bound N sub own lv os : 0 < N -> forall c f target f' r, fl_ok N sub f own lv -> (forall x, In x c -> In x own) ->
  release_candidates N sub f c target os = Some (f', r) -> r = 0 \/ r < target + N.
Proof.
  intros HN. induction c as [|x c IH]; intros f target f' r Ok Hc E; cbn [release_candidates] in E; [injection E as <- <-; lia|].
  destruct (Z.ltb_spec 0 target) as [Ht|Ht]; [|injection E as <- <-; lia].
  destruct (release_tracker_ok N sub f own lv x (os x) HN Ok (Hc x (or_introl eq_refl))) as (f1 & r1 & t & E1 & Ok1 & S1 & _ & Et & Hr & Er1 & _).
  rewrite E1 in E. cbn [obind] in E.
  set (f2 := if pt_was_released (fl_tr f1 x) && pt_released (fl_tr f1 x) then clear_was_released f1 x (fl_tr f1 x) else f1) in E.
  assert (Ok2 : fl_ok N sub f2 own lv).
  { unfold f2. destruct (pt_was_released (fl_tr f1 x)) eqn:Ew; [|assumption]. destruct (pt_released (fl_tr f1 x)); [|assumption].
    apply clear_was_ok; [assumption|apply Hc; left; reflexivity|assumption]. }
  destruct (release_candidates N sub f2 c (target - r1) os) as [[f3 r3]|] eqn:E3; [|discriminate]. cbn [obind] in E. injection E as <- <-.
  assert (r1 <= N).
  { pose proof (tk_bounds N _ _ HN (fo_tk _ _ _ _ _ Ok x (Hc x (or_introl eq_refl)))) as B0.
    pose proof (tk_bounds N _ _ HN (fo_tk _ _ _ _ _ Ok1 x (Hc x (or_introl eq_refl)))) as B1. rewrite Et, upd_same in B1. change (pt_rcount (pt_set_donated t false)) with (pt_rcount t) in B1. unfold pt_free_pages in B0, B1. lia. }
  destruct (IH f2 (target - r1) f3 r3 Ok2 (fun y Hy => Hc y (or_intror Hy)) E3); lia.
Qed.

Lemma round_ok N sub E (ans : (Z -> Z -> Z -> bool) -> Prop) visited own lv f l c c' os f1 r target : 0 < N -> visits N sub visited E -> fl_ok N sub f own lv ->
  visited f = Some l -> select_candidates N f [] l c -> sorts_to (fl_tr f) c c' -> ans os -> release_candidates N sub f c' target os = Some (f1, r) ->
  fl_ok N sub f1 own lv /\ same_pages f f1 /\ 0 <= r /\ fl_unmapped f1 = fl_unmapped f + r /\ fl_unaccounted f1 = fl_unaccounted f /\
  (exists p, touches N E ans own f f1 p) /\
  (0 < target -> (forall y i n, os y i n = true) -> (exists y, elig E f own y) -> 0 < r) /\ (r = 0 \/ r < target + N).
Proof.
  intros HN [V R] Ok Hv Hs [Hc1 Hc2] Ha Hr. destruct (V f own lv Ok) as (l0 & V0 & Nl & Hl). rewrite Hv in V0. injection V0 as <-.
  destruct (select_all N f l c ltac:(lia) Nl Hs) as (d & Nc & Hcd & Hdj & Hfull & Hbest).
  assert (P : Permutation c c') by (apply (Permutation_count_occ Z.eq_dec); exact Hc1). clear Hc1.
  assert (Hel : forall x, In x c \/ In x d <-> elig E f own x).
  { intros x. rewrite Hcd, Hl. unfold elig. tauto. }
  assert (Hin : forall x, In x c' -> In x own).
  { intros x Hx. apply (Permutation_in _ (Permutation_sym P)) in Hx. destruct (proj1 (Hel x) (or_introl Hx)) as (A & _). exact A. }
  destruct (release_candidates_ok N sub own lv os HN c' f target Ok Hin) as (f1' & r' & Hr' & Ok1 & S1 & Hr0 & Eu & Ea & _).
  rewrite Hr in Hr'. injection Hr' as <- <-.
  destruct (release_candidates_pre N sub own lv os HN c' f target f1 r Ok Hin Hr) as (p & q & Epq & G1 & G2 & G3 & G4 & G5).
  assert (Hp : forall x, In x p -> In x c).
  { intros x Hx. apply (Permutation_in _ (Permutation_sym P)). rewrite Epq. apply in_app_iff. auto. }
  split; [assumption|]. split; [assumption|]. split; [assumption|]. split; [assumption|]. split; [assumption|]. split.
  - exists p. constructor; [assumption| |assumption| |].
    + intros x Hx. apply Hel. left. apply Hp. assumption.
    + intros x y Hx Hy Nyp. apply Hel in Hy. destruct Hy as [Hy|Hy]; [|apply Hbest; [apply Hp; assumption|assumption]].
      apply (Permutation_in _ P) in Hy. rewrite Epq in Hy, Hc2. apply in_app_iff in Hy. destruct Hy as [Hy|Hy]; [contradiction|].
      clear - Hc2 Hx Hy. induction p as [|z p IH]; [destruct Hx|]. cbn [app] in Hc2. inversion Hc2 as [|? ? A B]; subst.
      destruct Hx as [<-|Hx]; [|exact (IH B Hx)]. specialize (A y ltac:(apply in_app_iff; auto)). cbn beta in A. rewrite compare_key in A. apply Z.ltb_ge in A. exact A.
    + intros y Hy Ho. apply G4; [assumption|]. apply Ho. assumption.
  - split; [|exact (release_candidates_bound N sub own lv os HN c' f target f1 r Ok Hin Hr)]. intros Ht Ho (y & Hy). destruct p as [|z p].
    + assert (q <> []); [|specialize (G2 H); lia]. cbn [app] in Epq. subst q. intros ->. apply Permutation_sym, Permutation_nil in P. subst c.
      apply Hel in Hy. destruct Hy as [[]|Hy]. destruct d; [destruct Hy|]. specialize (Hfull ltac:(discriminate)). cbn in Hfull. lia.
    + apply (G5 z (or_introl eq_refl) (Ho z)). apply R. exact (proj1 (proj2 (proj1 (Hel z) (or_introl (Hp z (or_introl eq_refl)))))).
Qed.

Lemma touches_trans N E (ans : (Z -> Z -> Z -> bool) -> Prop) own f f1 f' p P : same_pages f f1 -> same_pages f1 f' ->
  touches N E ans own f f1 p -> touches N E ans own f1 f' P -> touches N E ans own f f' (p ++ P).
Proof.
  intros S1 S2 [A1 A2 A3 A4 A5] [B1 B2 B3 B4 B5]. constructor.
  - intros x Hx. rewrite in_app_iff in Hx. rewrite B1 by tauto. apply A1. tauto.
  - intros x Hx. apply in_app_iff in Hx. destruct (in_dec Z.eq_dec x p) as [Hp|Hp]; [auto|]. destruct Hx as [Hx|Hx]; [contradiction|].
    destruct (B2 x Hx) as (C1 & C2 & C3). rewrite (A1 x Hp) in C2. rewrite (sp_coll _ _ S1) in C3. repeat split; assumption.
  - intros x Hx. apply in_app_iff in Hx. destruct (in_dec Z.eq_dec x P) as [Hp|Hp]; [auto|]. destruct Hx as [Hx|Hx]; [|contradiction]. rewrite B1 by assumption. auto.
  - intros x y Hx Hy Hn. rewrite in_app_iff in Hn. apply in_app_iff in Hx. destruct Hx as [Hx|Hx]; [apply A4; tauto|].
    assert (Hy1 : elig E f1 own y). { destruct Hy as (C1 & C2 & C3). split; [assumption|]. rewrite (A1 y) by tauto. rewrite (sp_coll _ _ S1). auto. }
    specialize (B4 x y Hx Hy1 ltac:(tauto)). rewrite !(same_key _ _ _ S1) in B4. exact B4.
  - intros y Hy Ho. apply in_app_iff in Hy. destruct (in_dec Z.eq_dec y P) as [Hp|Hp]; [auto|]. destruct Hy as [Hy|Hy]; [|contradiction].
    apply (still_unreleasable N f1 f' y S2). auto.
Qed.
Lemma touches_none N E ans own f : touches N E ans own f f [].
Proof. constructor; [reflexivity|intros x []|intros x []|intros x y []|intros x []]. Qed.

Lemma rounds_ok N sub E ans visited desired own lv f total f' total' : 0 < N -> visits N sub visited E ->
  release_rounds N sub ans visited desired f total f' total' -> fl_ok N sub f own lv ->
  fl_ok N sub f' own lv /\ same_pages f f' /\ total <= total' /\ fl_unmapped f' = fl_unmapped f + (total' - total) /\ fl_unaccounted f' = fl_unaccounted f /\
  (exists P, touches N E ans own f f' P) /\ (desired <= total -> f' = f /\ total' = total) /\ (total' = total \/ total' < desired + N) /\
  ((forall os, ans os -> forall y i n, os y i n = true) -> total' < desired -> forall y, ~ elig E f' own y).
Proof.
  intros HN V. induction 1 as [f total Hd|f total l c c' os f' Hd Hv Hs Hc Ha Hr|f total l c c' os f1 r f' total' Hd Hv Hs Hc Ha Hr Hr0 Hrest IH]; intros Ok.
  - split; [assumption|]. split; [apply same_pages_refl|]. repeat match goal with |- _ /\ _ => split end; try lia. + exists []. apply touches_none. + auto.
  - destruct (round_ok N sub E ans visited own lv f l c c' os f' 0 (desired - total) HN V Ok Hv Hs Hc Ha Hr) as (Ok1 & S1 & _ & Eu & Ea & T & Pr & _).
    split; [assumption|]. split; [assumption|]. repeat match goal with |- _ /\ _ => split end; try lia; try assumption.
    intros Ho _ y Hy. destruct T as (p & T). assert (Nf : elig E f own y).
    { destruct (in_dec Z.eq_dec y p) as [Hp|Hp]; [exact (to_elig _ _ _ _ _ _ _ T y Hp)|]. destruct Hy as (C1 & C2 & C3). rewrite (to_same _ _ _ _ _ _ _ T y Hp) in C2. rewrite (sp_coll _ _ S1) in C3. repeat split; assumption. }
    specialize (Pr ltac:(lia) (Ho os Ha) ltac:(exists y; exact Nf)). lia.
  - destruct (round_ok N sub E ans visited own lv f l c c' os f1 r (desired - total) HN V Ok Hv Hs Hc Ha Hr) as (Ok1 & S1 & Hr1 & Eu & Ea & (p & T) & _ & Bd).
    destruct (IH Ok1) as (Ok2 & S2 & Ht & Eu2 & Ea2 & (P & T2) & _ & Bd2 & Fin).
    split; [assumption|]. split; [exact (same_pages_trans _ _ _ S1 S2)|]. split; [lia|]. split; [lia|]. split; [congruence|].
    split; [exists (p ++ P); exact (touches_trans N E ans own f f1 f' p P S1 S2 T T2)|]. split; [lia|]. split; [lia|]. exact Fin.
Qed.

(** ** The rounds can always be completed *)

Lemma worst_exists (tr : Z -> ptracker) c : c <> [] -> exists c1 w c2, c = c1 ++ w :: c2 /\ forall y, In y c -> key (tr y) <= key (tr w).
Proof.
  induction c as [|x c IH]; [congruence|intros _]. destruct c as [|z c].
  { exists [], x, []. split; [reflexivity|]. intros y [<-|[]]. lia. }
  destruct (IH ltac:(discriminate)) as (c1 & w & c2 & E & H). destruct (Z_le_gt_dec (key (tr x)) (key (tr w))).
  - exists (x :: c1), w, c2. rewrite E. split; [reflexivity|]. intros y [<-|Hy]; [assumption|]. apply H. rewrite E. assumption.
  - exists [], x, (z :: c). split; [reflexivity|]. intros y [<-|Hy]; [lia|]. specialize (H y Hy). lia.
Qed.
Lemma push_exists K tr c x : 0 < K -> exists c', push_candidate K tr c x c'.
Proof.
  intros HK. destruct (Z_lt_ge_dec (Z.of_nat (length c)) K); [eexists; apply pc_room; assumption|].
  destruct (worst_exists tr c) as (c1 & w & c2 & -> & Hw); [intros ->; cbn in *; lia|].
  assert (Hw' : forall y, In y (c1 ++ w :: c2) -> compare_for_subrelease (tr w) (tr y) = false) by (intros y Hy; rewrite compare_key; apply Z.ltb_ge; auto).
  destruct (compare_for_subrelease (tr w) (tr x)) eqn:E; eexists; [apply pc_worse|apply pc_swap]; try eassumption; lia.
Qed.
Lemma select_exists K f : 0 < K -> forall l c, exists c', select_candidates K f c l c'.
Proof.
  intros HK. induction l as [|x l IH]; intros c; [eexists; constructor|]. destruct (fl_collapsing f x) eqn:E.
  - destruct (IH c) as (c' & H). exists c'. apply sc_skip; assumption.
  - destruct (push_exists K (fl_tr f) c x HK) as (c1 & H1). destruct (IH c1) as (c' & H). exists c'. eapply sc_push; eassumption.
Qed.
Fixpoint insert_by (k : Z -> Z) (x : Z) (l : list Z) : list Z := match l with [] => [x] | y :: l' => if k x <=? k y then x :: l else y :: insert_by k x l' end.
Lemma insert_by_perm k x l : Permutation (x :: l) (insert_by k x l).
Proof. induction l as [|y l IH]; cbn [insert_by]; [reflexivity|]. destruct (k x <=? k y); [reflexivity|]. rewrite perm_swap. apply perm_skip. assumption. Qed.
Lemma insert_by_sorted k x l : sorted_by (fun a b => k a <? k b) l -> sorted_by (fun a b => k a <? k b) (insert_by k x l).
Proof.
  induction 1 as [|y l Hy Hs IH]; cbn [insert_by]; [constructor; [intros y []|constructor]|]. destruct (Z.leb_spec (k x) (k y)).
  - constructor; [|constructor; assumption]. intros z [<-|Hz]; [apply Z.ltb_ge; lia|]. specialize (Hy z Hz). apply Z.ltb_ge in Hy. apply Z.ltb_ge. lia.
  - constructor; [|assumption]. intros z Hz. apply (Permutation_in _ (Permutation_sym (insert_by_perm k x l))) in Hz. destruct Hz as [<-|Hz]; [apply Z.ltb_ge; lia|auto].
Qed.
Lemma sorts_exists tr c : exists c', sorts_to tr c c'.
Proof.
  exists (fold_right (insert_by (fun x => key (tr x))) [] c). split.
  - apply (Permutation_count_occ Z.eq_dec). induction c as [|x c IH]; cbn [fold_right]; [reflexivity|]. rewrite <- insert_by_perm. apply perm_skip. assumption.
  - assert (H : sorted_by (fun a b => key (tr a) <? key (tr b)) (fold_right (insert_by (fun x => key (tr x))) [] c)).
    { induction c as [|x c IH]; cbn [fold_right]; [constructor|]. apply (insert_by_sorted (fun x => key (tr x))). assumption. }
    revert H. generalize (fold_right (insert_by (fun x => key (tr x))) [] c). intros l H. induction H as [|y l Hy Hs IH]; constructor; [|assumption]. intros z Hz. rewrite compare_key. auto.
Qed.

Lemma rounds_exist N sub E (ans : (Z -> Z -> Z -> bool) -> Prop) visited desired own lv os : 0 < N -> visits N sub visited E -> ans os ->
  forall n f total, fl_ok N sub f own lv -> desired - total <= Z.of_nat n -> exists f' total', release_rounds N sub ans visited desired f total f' total'.
Proof.
  intros HN V Ha. induction n as [|n IH]; intros f total Ok Hn; [exists f, total; constructor; lia|].
  destruct (Z_le_gt_dec desired total); [exists f, total; constructor; lia|].
  destruct (proj1 V f own lv Ok) as (l & Hv & _ & Hl). destruct (select_exists N f HN l []) as (c & Hs). destruct (sorts_exists (fl_tr f) c) as (c' & Hc).
  assert (Hin : forall x, In x c' -> In x own).
  { intros x Hx. destruct Hc as [Hc _]. apply (Permutation_count_occ Z.eq_dec) in Hc. apply (Permutation_in _ (Permutation_sym Hc)) in Hx.
    destruct (proj1 V f own lv Ok) as (l0 & V0 & Nl & _). rewrite Hv in V0. injection V0 as <-.
    destruct (select_all N f l c ltac:(lia) Nl Hs) as (d & _ & Hcd & _). destruct (proj1 (Hcd x) (or_introl Hx)) as (A & _). apply Hl in A. tauto. }
  destruct (release_candidates_ok N sub own lv os HN c' f (desired - total) Ok Hin) as (f1 & r & Hr & Ok1 & _ & Hr0 & _).
  destruct (Z.eq_dec r 0) as [->|Nr].
  - exists f1, total. eapply rd_stop; try eassumption. lia.
  - destruct (IH f1 (total + r) Ok1 ltac:(lia)) as (f' & total' & H). exists f', total'. eapply rd_more; try eassumption. lia.
Qed.

(** ** ReleasePages *)

(** What ReleasePages tries to reach. *)
Definition release_target (N : Z) (f : filler) (desired from_partial : Z) (skip : option Z) : Z :=
  match skip with None => Z.max desired from_partial | Some required => desired_subrelease N f (Z.max desired from_partial) (fl_unaccounted f) required end.

Lemma desired_subrelease_le N f d t r : desired_subrelease N f d t r <= d.
Proof. unfold desired_subrelease. destruct (negb _); [|lia]. match goal with |- (if ?a <=? ?b then _ else _) <= _ => destruct (Z.leb_spec a b) end; lia. Qed.

Lemma set_unaccounted_ok N sub f own lv : fl_ok N sub f own lv -> fl_ok N sub (set_unaccounted f 0) own lv /\ same_pages f (set_unaccounted f 0).
Proof. intros [A1 A2 A3 A4 A5 A6 A7 A8 A9]. split; [constructor; auto; cbn; lia|]. constructor; intros; cbn; auto; lia. Qed.

Lemma release_pages_ok N sub ans f own lv desired fp skip f' r : 1 < N -> fl_ok N sub f own lv -> release_pages N sub ans f desired fp skip f' r ->
  fl_ok N sub f' own lv /\ same_pages f f' /\ fl_unaccounted f' = 0 /\ r = fl_unaccounted f + (fl_unmapped f' - fl_unmapped f) /\
  (r = fl_unaccounted f \/ r < release_target N f desired fp skip + N) /\
  (exists Q, (forall x, ~ In x Q -> fl_tr f' x = fl_tr f x) /\
     (forall x, In x Q -> In x own /\ fl_collapsing f x = false /\ releasable N (fl_tr f x)) /\
     (forall x y, In x Q -> In y own -> ~ In y Q -> fl_collapsing f y = false -> is_part N sub (fl_tr f x) -> is_part N sub (fl_tr f y) -> key (fl_tr f x) <= key (fl_tr f y)) /\
     (forall x y, In x Q -> In y own -> ~ In y Q -> fl_collapsing f y = false -> is_reg N sub (fl_tr f x) -> is_reg N sub (fl_tr f y) -> key (fl_tr f x) <= key (fl_tr f y)) /\
     ((forall os, ans os -> forall y i n, os y i n = true) -> forall x y, In x Q -> is_reg N sub (fl_tr f x) -> In y own -> fl_collapsing f y = false -> is_part N sub (fl_tr f y) -> In y Q)) /\
  ((forall os, ans os -> forall y i n, os y i n = true) -> r < release_target N f desired fp skip -> forall y, In y own -> fl_collapsing f y = false -> ~ releasable N (fl_tr f' y)).
Proof.
  intros HN Ok H. pose proof (fo_unacc _ _ _ _ _ Ok) as U0. destruct (set_unaccounted_ok N sub f own lv Ok) as (Ok0 & S0).
  assert (Triv : exists Q : list Z, (forall x, ~ In x Q -> fl_tr (set_unaccounted f 0) x = fl_tr f x) /\
     (forall x, In x Q -> In x own /\ fl_collapsing f x = false /\ releasable N (fl_tr f x)) /\
     (forall x y, In x Q -> In y own -> ~ In y Q -> fl_collapsing f y = false -> is_part N sub (fl_tr f x) -> is_part N sub (fl_tr f y) -> key (fl_tr f x) <= key (fl_tr f y)) /\
     (forall x y, In x Q -> In y own -> ~ In y Q -> fl_collapsing f y = false -> is_reg N sub (fl_tr f x) -> is_reg N sub (fl_tr f y) -> key (fl_tr f x) <= key (fl_tr f y)) /\
     ((forall os, ans os -> forall y i n, os y i n = true) -> forall x y, In x Q -> is_reg N sub (fl_tr f x) -> In y own -> fl_collapsing f y = false -> is_part N sub (fl_tr f y) -> In y Q)).
  { exists []. split; [reflexivity|]. split; [intros x []|]. split; [intros x y []|]. split; [intros x y []|intros _ x y []]. }
  inversion H as [H1|required H1 Hs H2|desired1 f1 total1 f2 total2 H1 Hd H2 R1 R2]; subst.
  - destruct (Z.ltb_spec 0 (fl_unaccounted f)) as [Hp|Hp].
    + rewrite Z.max_r by lia. split; [assumption|]. split; [assumption|]. split; [reflexivity|]. split; [cbn; lia|]. split; [left; reflexivity|]. split; [assumption|].
      intros _ Hr. exfalso. revert Hr. unfold release_target. destruct skip; [pose proof (desired_subrelease_le N f (Z.max desired fp) (fl_unaccounted f) z)|]; lia.
    + assert (E0 : fl_unaccounted f = 0) by lia. rewrite E0. cbn [Z.max]. split; [assumption|]. split; [apply same_pages_refl|]. split; [first [assumption|reflexivity]|]. split; [lia|]. split; [left; reflexivity|]. split; [exact Triv|].
      intros _ Hr. exfalso. revert Hr. unfold release_target. destruct skip; [pose proof (desired_subrelease_le N f (Z.max desired fp) (fl_unaccounted f) z)|]; lia.
  - split; [assumption|]. split; [assumption|]. split; [reflexivity|]. split; [cbn; lia|]. split; [left; reflexivity|]. split; [assumption|].
    unfold release_target. intros _ Hr. lia.
  - change (match skip with Some required => desired_subrelease N f (Z.max desired fp) (fl_unaccounted f) required | None => Z.max desired fp end) with (release_target N f desired fp skip) in *.
    set (target := release_target N f desired fp skip) in *.
    destruct (rounds_ok N sub (is_part N sub) ans (visited_partial N) target own lv _ _ _ _ ltac:(lia) (visits_partial N sub HN) R1 Ok0) as (Ok1 & S1 & T1 & Eu1 & Ea1 & (P1 & P1k) & D1 & Bd1 & Fin1).
    destruct (rounds_ok N sub (is_reg N sub) ans (visited_regular N) target own lv _ _ _ _ ltac:(lia) (visits_regular N sub HN) R2 Ok1) as (Ok2 & S2 & T2 & Eu2 & Ea2 & (P2 & P2k) & D2 & Bd2 & Fin2).
    assert (Disj : forall t, is_part N sub t -> is_reg N sub t -> False).
    { intros t (d & A) ([(d' & B)|B] & _); congruence. }
    assert (F1 : forall x, ~ In x P1 -> fl_tr f1 x = fl_tr f x) by (intros x Hx; exact (to_same _ _ _ _ _ _ _ P1k x Hx)).
    assert (Ec1 : fl_collapsing f1 = fl_collapsing f) by exact (sp_coll _ _ S1).
    split; [assumption|]. split; [exact (same_pages_trans _ _ _ S0 (same_pages_trans _ _ _ S1 S2))|]. split; [rewrite Ea2, Ea1; reflexivity|].
    split; [rewrite Eu2, Eu1; cbn; lia|]. split; [lia|]. split.
    + exists (P1 ++ P2). split; [|split; [|split; [|split]]].
      * intros x Hx. rewrite in_app_iff in Hx. rewrite (to_same _ _ _ _ _ _ _ P2k) by tauto. apply F1. tauto.
      * intros x Hx. apply in_app_iff in Hx. destruct (in_dec Z.eq_dec x P1) as [Hp|Hp].
        { destruct (to_elig _ _ _ _ _ _ _ P1k x Hp) as (C1 & C2 & C3). cbn in C2, C3. split; [assumption|]. split; [assumption|]. apply (proj2 (visits_partial N sub HN)). assumption. }
        destruct Hx as [Hx|Hx]; [contradiction|]. destruct (to_elig _ _ _ _ _ _ _ P2k x Hx) as (C1 & C2 & C3). rewrite (F1 x Hp) in C2. rewrite Ec1 in C3.
        split; [assumption|]. split; [assumption|]. exact (proj2 C2).
      * intros x y Hx Hy Ny Hc Ex Ey. rewrite in_app_iff in Ny. destruct (in_dec Z.eq_dec x P1) as [Hp|Hp].
        { apply (to_best _ _ _ _ _ _ _ P1k x y Hp); [repeat split; assumption|tauto]. }
        apply in_app_iff in Hx. destruct Hx as [Hx|Hx]; [contradiction|]. destruct (to_elig _ _ _ _ _ _ _ P2k x Hx) as (_ & C2 & _). rewrite (F1 x Hp) in C2. destruct (Disj _ Ex C2).
      * intros x y Hx Hy Ny Hc Ex Ey. rewrite in_app_iff in Ny. destruct (in_dec Z.eq_dec x P1) as [Hp|Hp].
        { destruct (to_elig _ _ _ _ _ _ _ P1k x Hp) as (_ & C2 & _). destruct (Disj _ C2 Ex). }
        apply in_app_iff in Hx. destruct Hx as [Hx|Hx]; [contradiction|].
        assert (Hel : elig (is_reg N sub) f1 own y) by (split; [assumption|]; rewrite (F1 y) by tauto; rewrite Ec1; auto).
        pose proof (to_best _ _ _ _ _ _ _ P2k x y Hx Hel ltac:(tauto)) as B. rewrite !(same_key _ _ _ S1) in B. exact B.
      * intros Ho x y Hx Ex Hy Hc Ey. destruct (in_dec Z.eq_dec y P1) as [Hp|Hp]; [apply in_app_iff; auto|]. exfalso.
        assert (Hx2 : In x P2).
        { apply in_app_iff in Hx. destruct Hx as [Hx|Hx]; [|assumption]. destruct (to_elig _ _ _ _ _ _ _ P1k x Hx) as (_ & C2 & _). destruct (Disj _ C2 Ex). }
        destruct (Z_lt_ge_dec total1 target) as [Hlt|Hge].
        { apply (Fin1 Ho Hlt y). split; [assumption|]. rewrite (F1 y Hp), Ec1. auto. }
        destruct (D2 ltac:(lia)) as (-> & _).
        destruct (to_elig _ _ _ _ _ _ _ P2k x Hx2) as (_ & C2 & _). apply (to_all _ _ _ _ _ _ _ P2k x Hx2 (fun os Ha => Ho os Ha x)). exact (proj2 C2).
    + intros Ho Hr y Hy Hc Hrel. pose proof (sp_coll _ _ S2) as Ec2. destruct (kind N sub (fl_tr f' y)) as [d| |d|d] eqn:Ek.
      * apply (Fin2 Ho Hr y). split; [assumption|]. split; [split; [left; exists d; assumption|assumption]|]. rewrite Ec2, Ec1. assumption.
      * apply (Fin2 Ho Hr y). split; [assumption|]. split; [split; [right; assumption|assumption]|]. rewrite Ec2, Ec1. assumption.
      * destruct (in_dec Z.eq_dec y P2) as [Hp|Hp]; [exact (to_all _ _ _ _ _ _ _ P2k y Hp (fun os Ha => Ho os Ha y) Hrel)|].
        apply (Fin1 Ho ltac:(lia) y). split; [assumption|]. rewrite <- (to_same _ _ _ _ _ _ _ P2k y Hp), Ec1. split; [exists d; assumption|assumption].
      * pose proof (kind_is N sub _ _ ltac:(lia) (fo_tk _ _ _ _ _ Ok2 y Hy)) as KI. rewrite Ek in KI. tauto.
Qed.

Lemma release_pages_exist N sub (ans : (Z -> Z -> Z -> bool) -> Prop) f own lv desired fp skip os : 1 < N -> fl_ok N sub f own lv -> ans os ->
  exists f' r, release_pages N sub ans f desired fp skip f' r.
Proof.
  intros HN Ok Ha. destruct (Z_le_gt_dec (Z.max desired fp) (fl_unaccounted f)); [eexists _, _; apply rp_enough; assumption|].
  destruct (set_unaccounted_ok N sub f own lv Ok) as (Ok0 & _).
  set (target := release_target N f desired fp skip).
  destruct (Z_le_gt_dec target (fl_unaccounted f)).
  - unfold target, release_target in *. destruct skip as [required|]; [|lia]. eexists _, _. eapply rp_skip; try eassumption; [lia|reflexivity].
  - destruct (rounds_exist N sub _ ans _ target own lv os ltac:(lia) (visits_partial N sub HN) Ha (Z.to_nat (target - fl_unaccounted f)) _ (fl_unaccounted f) Ok0 ltac:(lia)) as (f1 & t1 & R1).
    destruct (rounds_ok N sub (is_part N sub) ans (visited_partial N) target own lv _ _ _ _ ltac:(lia) (visits_partial N sub HN) R1 Ok0) as (Ok1 & _).
    destruct (rounds_exist N sub _ ans _ target own lv os ltac:(lia) (visits_regular N sub HN) Ha (Z.to_nat (target - t1)) _ t1 Ok1 ltac:(lia)) as (f2 & t2 & R2).
    exists f2, t2. eapply rp_release; try eassumption; try lia. reflexivity.
Qed.
