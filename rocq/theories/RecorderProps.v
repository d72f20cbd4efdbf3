(** * The registry of sampled allocations (C36)

    Specification.  [live] lists the samples that were registered and not unregistered since, with the data given to
    Register; [known] the samples the allocator has made.  The allocator makes a new sample each time, and a client
    unregisters only a sample that is live. *)
From Coq Require Import Permutation.
From Verif Require Import Base Recorder.

Definition without (p : Z) (live : list (Z * Z)) : list (Z * Z) := filter (fun e => negb (fst e =? p)) live.
Definition live_after (e : revent) (live : list (Z * Z)) : list (Z * Z) :=
  match e with
  | RRegistered p x => (p, x) :: live
  | RUnregistered p | RDropped p => without p live
  | _ => live
  end.
Definition known_after (e : revent) (known : list Z) : list Z := match e with RAllocated p => p :: known | _ => known end.
Definition allowed (e : revent) (known : list Z) (live : list (Z * Z)) : Prop :=
  match e with
  | RAllocated p => 0 < p /\ ~ In p known
  | RUnregistered p => In p (map fst live)
  | _ => True
  end.

(** All histories. *)
Inductive rc_reach : rsys -> list Z -> list (Z * Z) -> Prop :=
| rr_init : rc_reach rs_init [] []
| rr_step s known live e s' : rc_reach s known live -> rcstep s e s' -> allowed e known live ->
    rc_reach s' (known_after e known) (live_after e live)
| rr_start c un ua known live : rc_reach (RSys c un ua Idle) known live -> rc_reach (RSys c un ua (At (rc_all c) [])) known live
| rr_read s known live s' : rc_reach s known live -> itstep s s' -> rc_reach s' known live
| rr_return c un ua out known live : rc_reach (RSys c un ua (At 0 out)) known live -> rc_reach (RSys c un ua Idle) known live.

(** An iteration, from the moment it starts: the lists of live samples at its moments, the latest first. *)
Inductive iterating : list (list (Z * Z)) -> rsys -> list Z -> list (Z * Z) -> Prop :=
| ig_start c un ua known live : rc_reach (RSys c un ua Idle) known live -> iterating [live] (RSys c un ua (At (rc_all c) [])) known live
| ig_step ms s known live e s' : iterating ms s known live -> rcstep s e s' -> allowed e known live ->
    iterating (live_after e live :: ms) s' (known_after e known) (live_after e live)
| ig_read ms s known live s' : iterating ms s known live -> itstep s s' -> iterating (live :: ms) s' known live.

(** An UnregisterAll that started when [live0] was live. *)
Inductive clearing (live0 : list (Z * Z)) : rsys -> list Z -> list (Z * Z) -> Prop :=
| cl_start c un rd known : rc_reach (RSys c un None rd) known live0 -> clearing live0 (RSys c un (Some (rc_all c)) rd) known live0
| cl_step s known live e s' : clearing live0 s known live -> rcstep s e s' -> rs_ua s' <> None -> allowed e known live ->
    clearing live0 s' (known_after e known) (live_after e live)
| cl_read s known live s' : clearing live0 s known live -> itstep s s' -> clearing live0 s' known live.

(** ** Linked lists *)

Fixpoint path (f : Z -> Z) (a : Z) (l : list Z) (z : Z) : Prop :=
  match l with
  | [] => a = z
  | x :: l => a = x /\ path f (f x) l z
  end.

Lemma path_ext f g l : forall a z, (forall x, In x l -> f x = g x) -> path f a l z -> path g a l z.
Proof.
  induction l as [|x l IH]; intros a z H P; [exact P|]. cbn [path] in *. destruct P as (-> & P). split; [reflexivity|].
  rewrite <- (H x (or_introl eq_refl)). apply IH; [|assumption]. intros y Hy. apply H. right. assumption.
Qed.

Lemma path_suffix f l1 l2 a : path f a (l1 ++ l2) 0 -> path f (hd 0 l2) l2 0.
Proof.
  revert a. induction l1 as [|x l1 IH]; intros a P.
  - cbn [app] in P. destruct l2 as [|y l2]; [reflexivity|]. cbn [path hd] in *. tauto.
  - cbn [app path] in P. apply (IH (f x)). tauto.
Qed.

Lemma path_next f l1 x l2 a : path f a (l1 ++ x :: l2) 0 -> f x = hd 0 l2.
Proof. intros P. apply path_suffix in P. cbn [path hd] in P. destruct P as (_ & P). destruct l2 as [|y l2]; [exact P|]. cbn [path] in P. apply P. Qed.

(** ** Invariant: [l] is the list of all samples, [d] the list of the dead *)

Record rc_inv (s : rsys) (known : list Z) (live : list (Z * Z)) (l d : list Z) : Prop := {
  iv_path : path (rc_next (rs_rc s)) (rc_all (rs_rc s)) l 0;
  iv_nodup : NoDup l;
  iv_pos : forall p, In p l -> 0 < p;
  iv_dpath : path (rc_dead (rs_rc s)) (rc_dead (rs_rc s) grave) d grave;
  iv_dnodup : NoDup d;
  iv_dincl : incl d l;
  iv_dead : forall p, In p l -> (rc_dead (rs_rc s) p = 0 <-> ~ In p d);
  iv_push : forall p, rs_pushing s p <> None -> 0 < p /\ ~ In p l /\ rc_dead (rs_rc s) p = 0;
  iv_known : forall p, In p known <-> In p l \/ rs_pushing s p <> None;
  iv_live : forall p x, In (p, x) live <-> In p l /\ ~ In p d /\ rc_data (rs_rc s) p = x;
  iv_lnodup : NoDup (map fst live);
  iv_ua : forall p, rs_ua s = Some p -> exists pre suf, l = pre ++ suf /\ p = hd 0 suf;
  iv_reader : forall p out, rs_reader s = At p out -> exists pre suf, l = pre ++ suf /\ p = hd 0 suf
}.

Lemma in_without p q x (live : list (Z * Z)) : In (q, x) (without p live) <-> In (q, x) live /\ q <> p.
Proof. unfold without. rewrite filter_In. cbn [fst]. intuition lia. Qed.
Lemma in_map_fst p (live : list (Z * Z)) : In p (map fst live) <-> exists x, In (p, x) live.
Proof.
  rewrite in_map_iff. split.
  - intros ((q & x) & E & H). cbn [fst] in E. subst. exists x. assumption.
  - intros (x & H). exists (p, x). auto.
Qed.
Lemma nodup_without p (live : list (Z * Z)) : NoDup (map fst live) -> NoDup (map fst (without p live)).
Proof.
  unfold without. induction live as [|(q, x) live IH]; intros N; [assumption|]. cbn [filter fst map] in *. apply NoDup_cons_iff in N. destruct N as (N & N').
  destruct (q =? p); cbn [negb map fst]; [auto|]. constructor; [|auto]. intros H. apply N. apply in_map_fst in H. destruct H as (y & H).
  apply filter_In in H. apply in_map_fst. exists y. tauto.
Qed.

Lemma inv_grave s known live l d : rc_inv s known live l d -> ~ In grave l.
Proof. intros H Hin. apply (iv_pos _ _ _ _ _ H) in Hin. unfold grave in Hin. lia. Qed.

(** Putting a live sample on the list of the dead. *)
Lemma push_dead_inv c un ua ua' rd known live l d p : rc_inv (RSys c un ua rd) known live l d -> In p l -> ~ In p d ->
  (forall q, ua' = Some q -> exists pre suf, l = pre ++ suf /\ q = hd 0 suf) ->
  rc_inv (RSys (push_dead c p) un ua' rd) known (without p live) l (p :: d).
Proof.
  intros H Hp Nd Hu. pose proof (inv_grave _ _ _ _ _ H) as Ng. destruct H. cbn [rs_rc rs_pushing rs_ua rs_reader] in *.
  assert (Npg : p <> grave) by congruence.
  constructor; cbn [rs_rc rs_pushing rs_ua rs_reader push_dead rc_all rc_next rc_dead rc_data]; try assumption.
  - rewrite upd_same. cbn [path]. split; [reflexivity|]. rewrite upd_other by congruence. rewrite upd_same. apply (path_ext (rc_dead c)); [|assumption].
    intros x Hx. rewrite upd_other by (intros ->; apply Ng; apply iv_dincl0; assumption). rewrite upd_other by congruence. reflexivity.
  - constructor; assumption.
  - intros x [<-|Hx]; [assumption|apply iv_dincl0; assumption].
  - intros q Hq. rewrite upd_other by congruence. destruct (Z.eq_dec q p) as [->|Nq].
    + rewrite upd_same. split; [|intros F; exfalso; apply F; left; reflexivity]. intros E. exfalso.
      destruct d as [|y d]; cbn [path] in iv_dpath0; [unfold grave in *; lia|]. destruct iv_dpath0 as (Ey & _). pose proof (iv_pos0 y (iv_dincl0 y (or_introl eq_refl))). lia.
    + rewrite upd_other by assumption. rewrite (iv_dead0 q Hq). cbn [In]. intuition congruence.
  - intros q Hq. destruct (iv_push0 q Hq) as (A & B & C). split; [assumption|]. split; [assumption|]. rewrite upd_other by (unfold grave; lia). rewrite upd_other by (intros ->; contradiction). assumption.
  - intros q x. rewrite in_without, iv_live0. cbn [In]. intuition congruence.
  - apply nodup_without. assumption.
Qed.

Lemma rcstep_inv s known live l d e s' : rc_inv s known live l d -> rcstep s e s' -> allowed e known live ->
  exists l' d', rc_inv s' (known_after e known) (live_after e live) l' d' /\ (exists new, l' = new ++ l) /\
    (rs_ua s <> None -> forall p, In p l -> In p d -> In p d').
Proof.
  intros H St Al. pose proof (inv_grave _ _ _ _ _ H) as Ng. destruct St; cbn [known_after live_after allowed] in *.
  - (* reuse *)
    unfold pop_dead in H0. destruct (Z.eqb_spec (rc_dead c grave) grave) as [|Ne]; [discriminate|]. inversion H0; subst; clear H0.
    destruct d as [|q d]; [exfalso; destruct H; cbn [rs_rc path] in iv_dpath0; congruence|].
    exists l, d. split; [|split; [exists []; reflexivity|intros F; cbn in F; congruence]].
    destruct H. cbn [rs_rc rs_pushing rs_ua rs_reader] in *. cbn [path] in iv_dpath0. destruct iv_dpath0 as (Eq & Dp). rewrite Eq in *. clear Eq.
    apply NoDup_cons_iff in iv_dnodup0. destruct iv_dnodup0 as (Nq & Nd). assert (Hq : In q l) by (apply iv_dincl0; left; reflexivity). assert (Nqg : q <> grave) by congruence.
    constructor; cbn [rs_rc rs_pushing rs_ua rs_reader rc_all rc_next rc_dead rc_data]; try assumption.
    + rewrite upd_other by congruence. rewrite upd_same. apply (path_ext (rc_dead c)); [|assumption]. intros y Hy.
      assert (In y l) by (apply iv_dincl0; right; assumption). rewrite upd_other by congruence. rewrite upd_other by congruence. reflexivity.
    + intros y Hy. apply iv_dincl0. right. assumption.
    + intros p Hp. destruct (Z.eq_dec p q) as [->|Np]; [rewrite upd_same; intuition|]. rewrite upd_other by assumption. rewrite upd_other by congruence.
      rewrite (iv_dead0 p Hp). cbn [In]. intuition congruence.
    + intros p Hp. destruct (iv_push0 p Hp) as (A & B & C). split; [assumption|]. split; [assumption|]. rewrite upd_other by congruence. rewrite upd_other by (unfold grave; lia). assumption.
    + intros p y. cbn [In]. rewrite iv_live0. destruct (Z.eq_dec p q) as [->|Np].
      * rewrite upd_same. cbn [In]. split; [intros [E|F]; [inversion E; subst; auto|exfalso; apply (proj1 (proj2 F)); left; reflexivity]|]. intros (_ & _ & ->). left. reflexivity.
      * rewrite upd_other by assumption. cbn [In]. intuition congruence.
    + cbn [map fst]. constructor; [|assumption]. intros F. apply in_map_fst in F. destruct F as (y & F). apply iv_live0 in F. apply (proj1 (proj2 F)). left. reflexivity.
  - (* new *)
    exists l, d. split; [|split; [exists []; reflexivity|auto]]. subst un'. destruct H. cbn [rs_rc rs_pushing rs_ua rs_reader] in *. destruct Al as (Pp & Nk).
    assert (Npl : ~ In p l) by (intros F; apply Nk, iv_known0; left; assumption).
    constructor; cbn [rs_rc rs_pushing rs_ua rs_reader new_sample rc_all rc_next rc_dead rc_data]; try assumption.
    + apply (path_ext (rc_next c)); [|assumption]. intros y Hy. rewrite upd_other by congruence. reflexivity.
    + rewrite upd_other by (unfold grave; lia). apply (path_ext (rc_dead c)); [|assumption]. intros y Hy. apply iv_dincl0 in Hy. rewrite upd_other by congruence. reflexivity.
    + intros q Hq. rewrite upd_other by congruence. auto.
    + intros q Hq. destruct (Z.eq_dec q p) as [->|Nq]; [rewrite upd_same; auto|]. rewrite upd_other in Hq by assumption. rewrite upd_other by assumption. auto.
    + intros q. cbn [In]. rewrite iv_known0. destruct (Z.eq_dec q p) as [->|Nq]; [rewrite upd_same; intuition congruence|]. rewrite upd_other by assumption. intuition congruence.
    + intros q y. rewrite iv_live0. split; intros (A & B & C); (split; [assumption|split; [assumption|]]); [rewrite upd_other by congruence|rewrite upd_other in C by congruence]; assumption.
  - (* load *)
    exists l, d. split; [|split; [exists []; reflexivity|auto]]. subst un'. destruct H. cbn [rs_rc rs_pushing rs_ua rs_reader] in *.
    destruct (iv_push0 p ltac:(congruence)) as (Pp & Npl & Dp).
    constructor; cbn [rs_rc rs_pushing rs_ua rs_reader push_load rc_all rc_next rc_dead rc_data]; try assumption.
    + apply (path_ext (rc_next c)); [|assumption]. intros y Hy. rewrite upd_other by congruence. reflexivity.
    + intros q Hq. destruct (Z.eq_dec q p) as [->|Nq]; [auto|]. rewrite upd_other in Hq by assumption. auto.
    + intros q. rewrite iv_known0. destruct (Z.eq_dec q p) as [->|Nq]; [rewrite upd_same; intuition congruence|]. rewrite upd_other by assumption. tauto.
  - (* failed compare-exchange *)
    exists l, d. split; [|split; [exists []; reflexivity|auto]]. destruct H. cbn [rs_rc rs_pushing rs_ua rs_reader] in *.
    destruct (iv_push0 p ltac:(congruence)) as (Pp & Npl & Dp).
    constructor; cbn [rs_rc rs_pushing rs_ua rs_reader push_load rc_all rc_next rc_dead rc_data]; try assumption.
    apply (path_ext (rc_next c)); [|assumption]. intros y Hy. rewrite upd_other by congruence. reflexivity.
  - (* compare-exchange *)
    exists (p :: l), d. split; [|split; [exists [p]; reflexivity|auto]]. subst un'. destruct H. cbn [rs_rc rs_pushing rs_ua rs_reader] in *.
    destruct (iv_push0 p ltac:(congruence)) as (Pp & Npl & Dp). unfold push_cas in H1. destruct (Z.eqb_spec (rc_all c) (rc_next c p)) as [E|]; [|discriminate]. inversion H1; subst; clear H1.
    assert (Npd : ~ In p d) by (intros F; apply Npl, iv_dincl0; assumption).
    constructor; cbn [rs_rc rs_pushing rs_ua rs_reader rc_all rc_next rc_dead rc_data]; try assumption.
    + cbn [path]. split; [reflexivity|]. rewrite <- E. assumption.
    + constructor; assumption.
    + intros q [<-|Hq]; [assumption|auto].
    + intros q Hq. right. apply iv_dincl0. assumption.
    + intros q [<-|Hq]; [tauto|auto].
    + intros q Hq. destruct (Z.eq_dec q p) as [->|Nq]; [rewrite upd_same in Hq; congruence|]. rewrite upd_other in Hq by assumption. destruct (iv_push0 q Hq) as (A & B & C).
      split; [assumption|]. split; [|assumption]. cbn [In]. intuition congruence.
    + intros q. rewrite iv_known0. cbn [In]. destruct (Z.eq_dec q p) as [->|Nq]; [rewrite upd_same; intuition congruence|]. rewrite upd_other by assumption. intuition congruence.
    + intros q y. cbn [In]. rewrite iv_live0. split.
      * intros [Eq|F]; [inversion Eq; subst; auto|tauto].
      * intros ([<-|A] & B & C); [left; congruence|tauto].
    + cbn [map fst]. constructor; [|assumption]. intros F. apply in_map_fst in F. destruct F as (y & F). apply iv_live0 in F. tauto.
    + intros q Hq. destruct (iv_ua0 q Hq) as (pre & suf & -> & ->). exists (p :: pre), suf. auto.
    + intros q out Hq. destruct (iv_reader0 q out Hq) as (pre & suf & -> & ->). exists (p :: pre), suf. auto.
  - (* unregister *)
    exists l, (p :: d). split; [|split; [exists []; reflexivity|intros _ q _ Hq; right; assumption]].
    apply in_map_fst in Al. destruct Al as (x & Al). pose proof (proj1 (iv_live _ _ _ _ _ H p x) Al) as (A & B & _).
    apply (push_dead_inv _ _ None); [assumption..|]. intros q F. discriminate.
  - (* UnregisterAll starts *)
    exists l, d. split; [|split; [exists []; reflexivity|auto]]. destruct H. cbn [rs_rc rs_pushing rs_ua rs_reader] in *. constructor; cbn [rs_rc rs_pushing rs_ua rs_reader]; try assumption.
    intros p E. inversion E. exists [], l. split; [reflexivity|]. destruct l as [|y l]; cbn [path hd] in *; tauto.
  - (* one sample *)
    destruct (iv_ua _ _ _ _ _ H p eq_refl) as (pre & suf & El & Ep). destruct suf as [|q suf]; [cbn [hd] in Ep; congruence|]. cbn [hd] in Ep. subst q.
    assert (Hn : rc_next c p = hd 0 suf) by (apply (path_next _ pre p suf (rc_all c)); rewrite <- El; exact (iv_path _ _ _ _ _ H)).
    assert (Hu : forall q, Some (rc_next c p) = Some q -> exists pre suf, l = pre ++ suf /\ q = hd 0 suf).
    { intros q E. inversion E. exists (pre ++ [p]), suf. rewrite <- app_assoc. auto. }
    assert (Hp : In p l) by (rewrite El; apply in_or_app; right; left; reflexivity).
    unfold unregister_one. pose proof (iv_dead _ _ _ _ _ H p Hp) as Dd. cbn [rs_rc] in Dd. destruct (Z.eqb_spec (rc_dead c p) 0) as [E0|E0].
    + exists l, (p :: d). split; [|split; [exists []; reflexivity|intros _ q _ Hq; right; assumption]]. cbn [live_after known_after]. apply (push_dead_inv _ _ (Some p)); tauto.
    + exists l, d. split; [|split; [exists []; reflexivity|auto]]. cbn [live_after known_after]. destruct H. constructor; cbn [rs_rc rs_pushing rs_ua rs_reader] in *; assumption.
  - exists l, d. split; [|split; [exists []; reflexivity|auto]]. destruct H. constructor; cbn [rs_rc rs_pushing rs_ua rs_reader] in *; try assumption. intros q F. discriminate.
Qed.

Lemma itstep_inv s known live l d s' : rc_inv s known live l d -> itstep s s' -> rc_inv s' known live l d.
Proof.
  intros H St. destruct St. assert (Hr := iv_reader _ _ _ _ _ H p out eq_refl). destruct Hr as (pre & suf & El & Ep). destruct suf as [|q suf]; [cbn [hd] in Ep; congruence|].
  cbn [hd] in Ep. subst q. assert (Hn : rc_next c p = hd 0 suf) by (apply (path_next _ pre p suf (rc_all c)); rewrite <- El; exact (iv_path _ _ _ _ _ H)).
  destruct H. constructor; cbn [rs_rc rs_pushing rs_ua rs_reader] in *; try assumption. intros q o E. inversion E. exists (pre ++ [p]), suf. rewrite <- app_assoc. auto.
Qed.

Lemma set_reader_inv c un ua rd rd' known live l d : rc_inv (RSys c un ua rd) known live l d -> rd' = Idle \/ rd' = At (rc_all c) [] ->
  rc_inv (RSys c un ua rd') known live l d.
Proof.
  intros H E. destruct H. constructor; cbn [rs_rc rs_pushing rs_ua rs_reader] in *; try assumption. intros p out F. destruct E as [->| ->]; [discriminate|].
  inversion F. exists [], l. split; [reflexivity|]. destruct l as [|y l]; cbn [path hd] in *; tauto.
Qed.

Lemma rc_reach_inv s known live : rc_reach s known live -> exists l d, rc_inv s known live l d.
Proof.
  induction 1 as [|s known live e s' _ IH St Al|c un ua known live _ IH|s known live s' _ IH St|c un ua out known live _ IH].
  - exists [], []. constructor; cbn [rs_init rs_rc rs_pushing rs_ua rs_reader rc_init rc_all rc_next rc_dead rc_data path map In]; try constructor; try tauto; try congruence.
  - destruct IH as (l & d & IH). destruct (rcstep_inv _ _ _ _ _ _ _ IH St Al) as (l' & d' & IH' & _). eauto.
  - destruct IH as (l & d & IH). exists l, d. apply (set_reader_inv _ _ _ Idle); auto.
  - destruct IH as (l & d & IH). exists l, d. eapply itstep_inv; eauto.
  - destruct IH as (l & d & IH). exists l, d. eapply set_reader_inv; eauto.
Qed.

Lemma rcstep_reader s e s' : rcstep s e s' -> rs_reader s' = rs_reader s.
Proof. destruct 1; reflexivity. Qed.

Lemma NoDup_snoc {A} (l : list A) a : NoDup l -> ~ In a l -> NoDup (l ++ [a]).
Proof. intros N H. apply (Permutation_NoDup (Permutation_cons_append l a)). constructor; assumption. Qed.

Lemma iterating_inv ms s known live : iterating ms s known live ->
  exists l d pre suf out, rc_inv s known live l d /\ l = pre ++ suf /\ rs_reader s = At (hd 0 suf) out /\ In live ms /\
    NoDup (map fst out) /\ (forall q, In q (map fst out) -> In q pre) /\
    (forall q x, In (q, x) out -> exists m, In m ms /\ In (q, x) m) /\
    (forall q x, (forall m, In m ms -> In (q, x) m) -> In q suf \/ In (q, x) out).
Proof.
  induction 1 as [c un ua known live H|ms s known live e s' _ IH St Al|ms s known live s' _ IH St].
  - destruct (rc_reach_inv _ _ _ H) as (l & d & Hi). exists l, d, [], l, []. split; [apply (set_reader_inv _ _ _ Idle); auto|]. split; [reflexivity|].
    split; [cbn [rs_reader]; f_equal; pose proof (iv_path _ _ _ _ _ Hi) as P; destruct l; cbn [path hd rs_rc] in *; tauto|].
    split; [left; reflexivity|]. split; [constructor|]. split; [intros q []|]. split; [intros q x []|]. intros q x Hq. left. specialize (Hq live (or_introl eq_refl)).
    apply (iv_live _ _ _ _ _ Hi) in Hq. apply Hq.
  - destruct IH as (l & d & pre & suf & out & Hi & El & Er & Hl & Nd & Hp & Hm & Ha). destruct (rcstep_inv _ _ _ _ _ _ _ Hi St Al) as (l' & d' & Hi' & (new & En) & _).
    exists l', d', (new ++ pre), suf, out. split; [assumption|]. split; [rewrite En, El; apply app_assoc|]. split; [rewrite (rcstep_reader _ _ _ St); assumption|].
    split; [left; reflexivity|]. split; [assumption|]. split; [intros q Hq; apply in_or_app; right; auto|].
    split; [intros q x Hq; destruct (Hm q x Hq) as (m & A & B); exists m; split; [right|]; assumption|]. intros q x Hq. apply Ha. intros m Hm'. apply Hq. right. assumption.
  - destruct IH as (l & d & pre & suf & out & Hi & El & Er & Hl & Nd & Hp & Hm & Ha). destruct St. cbn [rs_reader] in Er. injection Er as Ep Eo. subst out0.
    destruct suf as [|q suf]; [cbn [hd] in Ep; congruence|]. cbn [hd] in Ep. subst q.
    assert (Hn : rc_next c p = hd 0 suf) by (apply (path_next _ pre p suf (rc_all c)); rewrite <- El; exact (iv_path _ _ _ _ _ Hi)).
    assert (Hpl : In p l) by (rewrite El; apply in_or_app; right; left; reflexivity).
    assert (Npre : ~ In p pre). { pose proof (iv_nodup _ _ _ _ _ Hi) as N. rewrite El in N. apply NoDup_remove_2 in N. intros F. apply N, in_or_app. left. assumption. }
    pose proof (iv_dead _ _ _ _ _ Hi p Hpl) as Dd. cbn [rs_rc] in Dd.
    exists l, d, (pre ++ [p]), suf, (out ++ iterate_one c p). split; [eapply itstep_inv; [exact Hi|constructor; assumption]|]. split; [rewrite <- app_assoc; assumption|].
    split; [cbn [rs_reader]; rewrite Hn; reflexivity|]. split; [left; reflexivity|]. unfold iterate_one. pose proof (iv_live _ _ _ _ _ Hi p) as Lv. cbn [rs_rc] in Lv.
    destruct (Z.eqb_spec (rc_dead c p) 0) as [E0|E0].
    + split; [rewrite map_app; apply NoDup_snoc; [assumption|]; intros F; apply Npre, Hp; assumption|].
      split; [intros q Hq; rewrite map_app in Hq; apply in_app_or in Hq; apply in_or_app; destruct Hq as [Hq|Hq]; [left; auto|right; exact Hq]|].
      split.
      * intros q x Hq. apply in_app_or in Hq. destruct Hq as [Hq|[Hq|[]]].
        -- destruct (Hm q x Hq) as (m & A & B). exists m. split; [right|]; assumption.
        -- injection Hq as <- <-. exists live. split; [left; reflexivity|]. apply Lv. tauto.
      * intros q x Hq. specialize (Ha q x ltac:(intros m Hm'; apply Hq; right; assumption)). specialize (Hq live (or_introl eq_refl)). destruct Ha as [[->|Ha]|Ha]; [|left; assumption|right; apply in_or_app; left; assumption].
        right. apply in_or_app. right. apply Lv in Hq. destruct Hq as (_ & _ & ->). left. reflexivity.
    + rewrite app_nil_r. split; [assumption|]. split; [intros q Hq; apply in_or_app; left; auto|].
      split; [intros q x Hq; destruct (Hm q x Hq) as (m & A & B); exists m; split; [right|]; assumption|].
      intros q x Hq. specialize (Ha q x ltac:(intros m Hm'; apply Hq; right; assumption)). specialize (Hq live (or_introl eq_refl)). destruct Ha as [[->|Ha]|Ha]; [|left; assumption|right; assumption].
      exfalso. apply Lv in Hq. tauto.
Qed.

(** ** The theorems *)

(** When an iteration is over: it has reported every sample at most once, each was live at some moment of it with the
    data that is reported, and each that was live at every moment of it was reported. *)
Theorem iterate_reports : forall ms s known live out, iterating ms s known live -> rs_reader s = At 0 out ->
  NoDup (map fst out) /\
  (forall p x, In (p, x) out -> exists m, In m ms /\ In (p, x) m) /\
  (forall p x, (forall m, In m ms -> In (p, x) m) -> In (p, x) out).
Proof.
  intros ms s known live out H E. destruct (iterating_inv _ _ _ _ H) as (l & d & pre & suf & o & Hi & El & Er & Hl & Nd & Hp & Hm & Ha). rewrite E in Er. injection Er as E0 <-.
  assert (suf = []). { destruct suf as [|q suf]; [reflexivity|]. cbn [hd] in E0. subst q. pose proof (iv_pos _ _ _ _ _ Hi 0). rewrite El in H0. specialize (H0 ltac:(apply in_or_app; right; left; reflexivity)). lia. }
  subst suf. split; [assumption|]. split; [assumption|]. intros p x Hx. destruct (Ha p x Hx) as [[]|]; assumption.
Qed.

(** An iteration can always go on until it is over. *)
Theorem iterate_goes_on : forall s known live p out, rc_reach s known live -> rs_reader s = At p out ->
  p = 0 \/ exists s', itstep s s'.
Proof.
  intros (c, un, ua, rd) known live p out H E. cbn [rs_reader] in E. subst rd. destruct (Z.eq_dec p 0); [left; assumption|right]. eexists. constructor. assumption.
Qed.

(** With nothing else going on an iteration from the start ends, and it reports exactly the live samples. *)
Fixpoint iterate_all (fuel : nat) (c : rc) (p : Z) (out : list (Z * Z)) : list (Z * Z) :=
  match fuel with
  | O => out
  | S fuel => if p =? 0 then out else iterate_all fuel c (rc_next c p) (out ++ iterate_one c p)
  end.

Lemma iterate_all_spec c suf : (forall p, In p suf -> p <> 0) -> forall fuel p out, path (rc_next c) p suf 0 -> (length suf <= fuel)%nat ->
  iterate_all fuel c p out = out ++ flat_map (iterate_one c) suf.
Proof.
  induction suf as [|q suf IH]; intros Hz fuel p out P L; cbn [path length flat_map] in *.
  - subst p. rewrite app_nil_r. destruct fuel; reflexivity.
  - destruct P as (-> & P). destruct fuel as [|fuel]; [lia|]. cbn [iterate_all]. pose proof (Hz q (or_introl eq_refl)). destruct (Z.eqb_spec q 0); [contradiction|].
    rewrite IH; [now rewrite <- app_assoc| |assumption|lia]. intros y Hy. apply Hz. right. assumption.
Qed.

Theorem iterate_quiet : forall s known live, rc_reach s known live ->
  exists n, forall fuel, (n <= fuel)%nat -> Permutation (iterate_all fuel (rs_rc s) (rc_all (rs_rc s)) []) live.
Proof.
  intros s known live H. destruct (rc_reach_inv _ _ _ H) as (l & d & Hi). exists (length l). intros fuel Hf.
  rewrite (iterate_all_spec _ l); [|intros p Hp; pose proof (iv_pos _ _ _ _ _ Hi p Hp); lia|exact (iv_path _ _ _ _ _ Hi)|assumption]. cbn [app].
  assert (Hin : forall l', (forall p, In p l' -> In p l) -> NoDup l' -> NoDup (flat_map (iterate_one (rs_rc s)) l') /\
            forall e, In e (flat_map (iterate_one (rs_rc s)) l') <-> In e live /\ In (fst e) l').
  { induction l' as [|q l' IH]; intros Hl Hn; cbn [flat_map].
    - split; [constructor|]. intros e. cbn [In]. tauto.
    - apply NoDup_cons_iff in Hn. destruct Hn as (Nq & Hn). destruct (IH ltac:(intros p Hp; apply Hl; right; assumption) Hn) as (IH1 & IH2).
      pose proof (iv_dead _ _ _ _ _ Hi q (Hl q (or_introl eq_refl))) as Dd. pose proof (iv_live _ _ _ _ _ Hi q) as Lv. unfold iterate_one at 1 3.
      destruct (Z.eqb_spec (rc_dead (rs_rc s) q) 0) as [E0|E0]; cbn [app].
      + split; [constructor; [|assumption]; intros F; apply IH2 in F; cbn [fst] in F; tauto|]. intros (p & x). cbn [In fst]. rewrite IH2. cbn [fst]. split.
        * intros [E|E]; [|tauto]. injection E as <- <-. split; [apply Lv; repeat split; [apply Hl; left; reflexivity|tauto]|left; reflexivity].
        * intros (A & [<-|B]); [|right; tauto]. left. apply Lv in A. destruct A as (_ & _ & ->). reflexivity.
      + split; [assumption|]. intros (p & x). cbn [In fst]. rewrite IH2. cbn [fst]. split; [tauto|]. intros (A & [<-|B]); [|tauto]. exfalso. apply Lv in A. tauto. }
  destruct (Hin l ltac:(auto) (iv_nodup _ _ _ _ _ Hi)) as (N & I). apply NoDup_Permutation; [assumption| |].
  - apply (NoDup_map_inv fst). exact (iv_lnodup _ _ _ _ _ Hi).
  - intros (p & x). rewrite I. cbn [fst]. split; [tauto|]. intros A. split; [assumption|]. apply (iv_live _ _ _ _ _ Hi) in A. apply A.
Qed.

(** Register never gives out a sample that is live, so no sample is live twice; and it asks the allocator for a new one only
    when every sample made so far is live or is being registered. *)
Theorem register_reuses : forall s known live, rc_reach s known live ->
  NoDup (map fst live) /\
  (forall e s' p x, rcstep s e s' -> e = RRegistered p x -> In p known /\ ~ In p (map fst live)) /\
  (rs_ua s = None -> forall x, pop_dead (rs_rc s) x = None <-> (forall p, In p known -> In p (map fst live) \/ rs_pushing s p <> None)).
Proof.
  intros s known live H. destruct (rc_reach_inv _ _ _ H) as (l & d & Hi). split; [exact (iv_lnodup _ _ _ _ _ Hi)|]. split.
  - intros e s' p x St E. assert (Al : allowed e known live) by (rewrite E; exact I). destruct (rcstep_inv _ _ _ _ _ _ _ Hi St Al) as (l' & d' & Hi' & _). subst e. cbn [known_after live_after] in Hi'.
    split.
    + apply (iv_known _ _ _ _ _ Hi'). left. apply (iv_live _ _ _ _ _ Hi' p x). left. reflexivity.
    + pose proof (iv_lnodup _ _ _ _ _ Hi') as N. cbn [map fst] in N. apply NoDup_cons_iff in N. apply N.
  - intros Eu x. unfold pop_dead. pose proof (iv_dpath _ _ _ _ _ Hi) as Dp. destruct (Z.eqb_spec (rc_dead (rs_rc s) grave) grave) as [E|E].
    + split; [|reflexivity]. intros _ p Hp. apply (iv_known _ _ _ _ _ Hi) in Hp. destruct Hp as [Hp|Hp]; [left|right; assumption].
      apply in_map_fst. exists (rc_data (rs_rc s) p). apply (iv_live _ _ _ _ _ Hi). repeat split; [assumption|]. destruct d as [|q d]; [intros []|]. exfalso.
      cbn [path] in Dp. destruct Dp as (Dp & _). rewrite E in Dp. apply (inv_grave _ _ _ _ _ Hi). rewrite Dp. apply (iv_dincl _ _ _ _ _ Hi). left. reflexivity.
    + split; [discriminate|]. intros Hall. exfalso. destruct d as [|q d]; [cbn [path] in Dp; contradiction|].
      assert (Hq : In q l) by (apply (iv_dincl _ _ _ _ _ Hi); left; reflexivity). destruct (Hall q (proj2 (iv_known _ _ _ _ _ Hi q) (or_introl Hq))) as [F|F].
      * apply in_map_fst in F. destruct F as (y & F). apply (iv_live _ _ _ _ _ Hi) in F. apply (proj1 (proj2 F)). left. reflexivity.
      * apply (iv_push _ _ _ _ _ Hi) in F. tauto.
Qed.

(** UnregisterAll: nothing that was live when it started is live when it has come to the end. *)
Theorem unregister_all_clears : forall live0 s known live, clearing live0 s known live -> rs_ua s = Some 0 ->
  forall p, In p (map fst live0) -> ~ In p (map fst live).
Proof.
  assert (G : forall live0 s known live, clearing live0 s known live -> exists l d pre suf, rc_inv s known live l d /\ l = pre ++ suf /\ rs_ua s = Some (hd 0 suf) /\
            forall p, In p (map fst live0) -> In p suf \/ In p d).
  { induction 1 as [c un rd known H|s known live e s' _ IH St Nu Al|s known live s' _ IH St].
    - destruct (rc_reach_inv _ _ _ H) as (l & d & Hi). assert (Eh : rc_all c = hd 0 l) by (pose proof (iv_path _ _ _ _ _ Hi) as P; destruct l; cbn [path hd rs_rc] in *; tauto).
      exists l, d, [], l. split; [|split; [reflexivity|split; [cbn [rs_ua]; rewrite Eh; reflexivity|]]].
      + pose proof Hi as Hi'. destruct Hi. constructor; cbn [rs_rc rs_pushing rs_ua rs_reader] in *; try assumption. intros p E. injection E as <-. exists [], l. auto.
      + intros p Hp. left. apply in_map_fst in Hp. destruct Hp as (x & Hp). apply (iv_live _ _ _ _ _ Hi) in Hp. apply Hp.
    - destruct IH as (l & d & pre & suf & Hi & El & Eu & Hc). destruct (rcstep_inv _ _ _ _ _ _ _ Hi St Al) as (l' & d' & Hi' & (new & En) & Hd).
      assert (Hd' : forall p, In p d -> In p d') by (intros p Hp; apply Hd; [congruence|apply (iv_dincl _ _ _ _ _ Hi); assumption|assumption]).
      assert (Same : rs_ua s' = rs_ua s \/ exists c un rd p, s = RSys c un (Some p) rd /\ p <> 0 /\ s' = RSys (unregister_one c p) un (Some (rc_next c p)) rd).
      { destruct St; cbn [rs_ua] in *; try (left; reflexivity); try discriminate; try congruence. right. eauto 10. }
      destruct Same as [Same|(c & un & rd & p & -> & Np & ->)].
      + exists l', d', (new ++ pre), suf. split; [assumption|]. split; [rewrite En, El; apply app_assoc|]. split; [congruence|]. intros p Hp. destruct (Hc p Hp); auto.
      + cbn [rs_ua] in Eu. injection Eu as Ep. destruct suf as [|q suf]; [cbn [hd] in Ep; congruence|]. cbn [hd] in Ep. subst q.
        assert (Hn : rc_next c p = hd 0 suf) by (apply (path_next _ pre p suf (rc_all c)); rewrite <- El; exact (iv_path _ _ _ _ _ Hi)).
        exists l', d', (new ++ pre ++ [p]), suf. split; [assumption|]. split; [rewrite En, El, <- !app_assoc; reflexivity|]. split; [cbn [rs_ua]; rewrite Hn; reflexivity|].
        intros q Hq. destruct (Hc q Hq) as [[<-|A]|A]; [|left; assumption|right; auto]. right.
        assert (Hpl : In p l') by (rewrite En, El; apply in_or_app; right; apply in_or_app; right; left; reflexivity).
        pose proof (iv_dead _ _ _ _ _ Hi' p Hpl) as Dd. cbn [rs_rc] in Dd. destruct (in_dec Z.eq_dec p d') as [|Nd]; [assumption|exfalso]. apply Dd in Nd.
        assert (Hpl0 : In p l) by (rewrite El; apply in_or_app; right; left; reflexivity). pose proof (iv_dead _ _ _ _ _ Hi p Hpl0) as Dd0. cbn [rs_rc] in Dd0.
        unfold unregister_one in Nd. destruct (Z.eqb_spec (rc_dead c p) 0) as [E0|E0]; [|contradiction]. unfold push_dead in Nd. cbn [rc_dead] in Nd.
        assert (p <> grave) by (intros ->; apply (inv_grave _ _ _ _ _ Hi); assumption). rewrite upd_other in Nd by congruence. rewrite upd_same in Nd.
        pose proof (iv_dpath _ _ _ _ _ Hi) as P. cbn [rs_rc] in P. destruct d as [|y d]; cbn [path] in P; [unfold grave in *; lia|]. destruct P as (P & _).
        pose proof (iv_pos _ _ _ _ _ Hi y (iv_dincl _ _ _ _ _ Hi y (or_introl eq_refl))). lia.
    - destruct IH as (l & d & pre & suf & Hi & El & Eu & Hc). exists l, d, pre, suf. split; [eapply itstep_inv; eauto|]. split; [assumption|]. split; [|assumption]. destruct St. assumption. }
  intros live0 s known live H E p Hp F. destruct (G _ _ _ _ H) as (l & d & pre & suf & Hi & El & Eu & Hc). rewrite E in Eu. injection Eu as E0.
  assert (suf = []). { destruct suf as [|q suf]; [reflexivity|]. cbn [hd] in E0. subst q. pose proof (iv_pos _ _ _ _ _ Hi 0) as Z0. rewrite El in Z0. specialize (Z0 ltac:(apply in_or_app; right; left; reflexivity)). lia. }
  subst suf. destruct (Hc p Hp) as [[]|Hd]. apply in_map_fst in F. destruct F as (x & F). apply (iv_live _ _ _ _ _ Hi) in F. tauto.
Qed.

Ltac does R tac al R' :=
  let H := fresh "St" in
  match type of R with
  | rc_reach ?s _ _ => eassert (H : rcstep s _ _) by tac; pose proof (rr_step _ _ _ _ _ R H al) as R'; clear H
  | iterating _ ?s _ _ => eassert (H : rcstep s _ _) by tac; pose proof (ig_step _ _ _ _ _ _ R H al) as R'; clear H
  end.

(** ** A concrete case

    Samples 8 and 9 are registered; an iteration has seen 9 when 9 is unregistered, reused for other data and a new sample is
    made: it reports 9 with the old data and 8, which is live throughout. *)
Example recorder_example : exists ms s known live,
  iterating ms s known live /\ rs_reader s = At 0 [(9, 100); (8, 200)] /\ live = [(4, 400); (9, 300); (8, 200)] /\
  known = [4; 9; 8] /\ length ms = 8%nat /\ (forall m, In m ms -> In (8, 200) m).
Proof.
  assert (R0 : rc_reach (RSys rc_init (fun _ => None) None Idle) [] []) by exact rr_init.
  assert (A0 : forall p k, (0 <? p) = true -> existsb (Z.eqb p) k = false -> 0 < p /\ ~ In p k).
  { intros p k H1 H2. split; [lia|]. intros F. assert (E : existsb (Z.eqb p) k = true) by (apply existsb_exists; exists p; split; [assumption|apply Z.eqb_refl]). congruence. }
  does R0 ltac:(eapply (rc_new _ _ _ _ 8 200); reflexivity) (A0 8 [] eq_refl eq_refl) R1.
  does R1 ltac:(eapply (rc_load _ _ _ _ _ 8); reflexivity) I R2.
  does R2 ltac:(eapply (rc_cas _ _ _ _ _ 8 _); reflexivity) I R3.
  does R3 ltac:(eapply (rc_new _ _ _ _ 9 100); reflexivity) (A0 9 [8] eq_refl eq_refl) R4.
  does R4 ltac:(eapply (rc_load _ _ _ _ _ 9); reflexivity) I R5.
  does R5 ltac:(eapply (rc_cas _ _ _ _ _ 9 _); reflexivity) I R6.
  pose proof (ig_start _ _ _ _ _ R6) as D0.
  pose proof (fun Hp => ig_read _ _ _ _ _ D0 (it_next _ _ _ _ _ Hp)) as D1; specialize (D1 ltac:(vm_compute; discriminate)).
  does D1 ltac:(eapply (rc_unregister _ _ _ 9)) (or_introl eq_refl : In 9 [9; 8]) D2.
  does D2 ltac:(eapply (rc_reuse _ _ _ _ 9 300); reflexivity) I D3.
  does D3 ltac:(eapply (rc_new _ _ _ _ 4 400); reflexivity) (A0 4 [9; 8] eq_refl eq_refl) D4.
  does D4 ltac:(eapply (rc_load _ _ _ _ _ 4); reflexivity) I D5.
  does D5 ltac:(eapply (rc_cas _ _ _ _ _ 4 _); reflexivity) I D6.
  pose proof (fun Hp => ig_read _ _ _ _ _ D6 (it_next _ _ _ _ _ Hp)) as D7; specialize (D7 ltac:(vm_compute; discriminate)).
  do 4 eexists. split; [exact D7|]. split; [vm_compute; reflexivity|]. split; [vm_compute; reflexivity|]. split; [reflexivity|]. split; [reflexivity|].
  apply Forall_forall. repeat constructor; vm_compute; tauto.
Qed.

Print Assumptions iterate_reports.
Print Assumptions iterate_goes_on.
Print Assumptions iterate_quiet.
Print Assumptions register_reuses.
Print Assumptions unregister_all_clears.
Print Assumptions recorder_example.
