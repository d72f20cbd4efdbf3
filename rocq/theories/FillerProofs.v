(** The lists of the hugepage filler (Filler.v). *)
From Coq Require Import Permutation.
From Verif Require Import Base Bitmap BitmapProofs HintedLists HintedListsProofs PageTracker PageTrackerProps Filler.

(** Where a tracker belongs: the array and the index in it. *)
Definition kind (N : Z) (sub : bool) (t : ptracker) : lk :=
  if pt_donated t then LDon
  else if negb (pt_released t) && (pt_unbroken t || negb sub) then LReg (pt_dense t)
  else if pt_free_pages N t <=? pt_rcount t then LRel (pt_dense t)
  else LPart (pt_dense t).
Definition pidx (N : Z) (t : ptracker) : Z :=
  if pt_donated t then pt_longest t else list_for N (pt_longest t) (index_for t) (pt_dense t) (pt_nallocs t).

Definition take_off (f : filler) (k : lk) (i x : Z) : filler :=
  let f := put_list f k (hl_remove (fl_lists f k) x i) in
  match k with
  | LRel d => set_used_rel f (updb (fl_used_rel f) d (fl_used_rel f d - pt_used (fl_tr f x)))
  | LPart d => set_used_part f (updb (fl_used_part f) d (fl_used_part f d - pt_used (fl_tr f x)))
  | _ => f
  end.
Definition put_on (f : filler) (k : lk) (i x : Z) : filler :=
  let f := put_list f k (hl_add (fl_lists f k) x i) in
  match k with
  | LRel d => set_used_rel f (updb (fl_used_rel f) d (fl_used_rel f d + pt_used (fl_tr f x)))
  | LPart d => set_used_part f (updb (fl_used_part f) d (fl_used_part f d + pt_used (fl_tr f x)))
  | _ => f
  end.

Lemma fl_remove_eq N sub f x : fl_remove N sub f x = take_off f (kind N sub (fl_tr f x)) (pidx N (fl_tr f x)) x.
Proof.
  unfold fl_remove, take_off, kind, pidx. destruct (pt_donated (fl_tr f x)); [reflexivity|].
  destruct (negb (pt_released (fl_tr f x)) && (pt_unbroken (fl_tr f x) || negb sub)); [reflexivity|].
  destruct (pt_free_pages N (fl_tr f x) <=? pt_rcount (fl_tr f x)); reflexivity.
Qed.
Lemma fl_add_eq N sub f x : pt_longest (fl_tr f x) <> N ->
  let t := pt_set_donated (fl_tr f x) false in
  fl_add N sub f x = put_on (put_tracker f x t) (kind N sub t) (pidx N t) x.
Proof.
  intros H. cbv zeta. unfold fl_add. destruct (Z.eqb_spec (pt_longest (fl_tr f x)) N); [contradiction|].
  unfold put_tracker. cbn [fl_tr set_tr]. rewrite upd_same.
  remember (pt_set_donated (fl_tr f x) false) as t eqn:Et.
  assert (E1 : pt_longest (fl_tr f x) = pt_longest t) by (subst t; reflexivity). rewrite E1.
  assert (E2 : pt_donated t = false) by (subst t; reflexivity).
  unfold put_on, kind, pidx. rewrite E2.
  destruct (negb (pt_released t) && (pt_unbroken t || negb sub)); [reflexivity|].
  destruct (pt_free_pages N t <=? pt_rcount t); cbn [fl_used_rel fl_used_part put_list set_lists set_tr fl_tr]; rewrite upd_same; reflexivity.
Qed.
Lemma fl_donate_eq f x : let t := pt_set_donated (fl_tr f x) true in
  fl_donate f x = put_on (put_tracker f x t) LDon (pt_longest t) x.
Proof. reflexivity. Qed.

(** ** Sums over the trackers *)

Definition tsum (g : ptracker -> Z) (tr : Z -> ptracker) (own : list Z) : Z := zsum (map (fun x => g (tr x)) own).

Lemma tsum_cons g tr x own : tsum g tr (x :: own) = g (tr x) + tsum g tr own.
Proof. unfold tsum. cbn [map]. apply zsum_cons. Qed.
Lemma tsum_perm g tr l l' : Permutation l l' -> tsum g tr l = tsum g tr l'.
Proof. intros H. unfold tsum. induction H; cbn [map]; rewrite ?zsum_cons; lia. Qed.
Lemma tsum_ext g tr tr' own : (forall x, In x own -> g (tr x) = g (tr' x)) -> tsum g tr own = tsum g tr' own.
Proof.
  intros H. unfold tsum. f_equal. apply map_ext_in. assumption.
Qed.
Lemma tsum_upd_out g tr x t own : ~ In x own -> tsum g (upd tr x t) own = tsum g tr own.
Proof. intros H. apply tsum_ext. intros y Hy. rewrite upd_other; [reflexivity|]. intros ->. contradiction. Qed.
Lemma tsum_take g tr x own : In x own -> tsum g tr own = g (tr x) + tsum g tr (rem1 x own).
Proof. intros H. rewrite (tsum_perm g tr _ _ (rem1_perm x own H)). apply tsum_cons. Qed.
Lemma tsum_change g tr x t own : NoDup own -> In x own -> tsum g (upd tr x t) own = tsum g tr own - g (tr x) + g t.
Proof.
  intros ND H. rewrite !(tsum_take g _ x own H), upd_same, tsum_upd_out; [lia|]. apply (rem1_NoDup x own ND).
Qed.
Lemma tsum_nonneg g tr own : (forall x, In x own -> 0 <= g (tr x)) -> 0 <= tsum g tr own.
Proof.
  induction own as [|x own IH]; intros H; [unfold tsum; cbn; lia|]. rewrite tsum_cons.
  pose proof (H x (or_introl eq_refl)). assert (0 <= tsum g tr own) by (apply IH; intros; apply H; right; assumption). lia.
Qed.
Lemma tsum_add g h tr own : tsum (fun t => g t + h t) tr own = tsum g tr own + tsum h tr own.
Proof. induction own as [|x own IH]; [reflexivity|]. rewrite !tsum_cons, IH. lia. Qed.
Lemma tsum_sub g h tr own : tsum (fun t => g t - h t) tr own = tsum g tr own - tsum h tr own.
Proof. induction own as [|x own IH]; [reflexivity|]. rewrite !tsum_cons, IH. lia. Qed.
Lemma tsum_const c tr own : tsum (fun _ => c) tr own = c * Z.of_nat (length own).
Proof. induction own as [|x own IH]; [unfold tsum; cbn; lia|]. rewrite tsum_cons, IH. cbn [length]. lia. Qed.
Lemma tsum_gext g h tr own : (forall x, In x own -> g (tr x) = h (tr x)) -> tsum g tr own = tsum h tr own.
Proof. intros H. unfold tsum. f_equal. apply map_ext_in. assumption. Qed.

(** ** Each tracker is on the list where it belongs *)

Lemma lk_eqb_spec a b : reflect (a = b) (lk_eqb a b).
Proof. destruct a, b; cbn; try (constructor; congruence); destruct dense, dense0; constructor; congruence. Qed.
Lemma updk_same {A} (f : lk -> A) k v : updk f k v k = v.
Proof. unfold updk. destruct (lk_eqb_spec k k); congruence. Qed.
Lemma updk_other {A} (f : lk -> A) k k' v : k' <> k -> updk f k v k' = f k'.
Proof. intros H. unfold updk. destruct (lk_eqb_spec k' k); congruence. Qed.
Lemma updb_at {A} (f : bool -> A) d v b : updb f d v b = if Bool.eqb b d then v else f b.
Proof. reflexivity. Qed.

Definition g_rel N sub (d : bool) (t : ptracker) : Z := if lk_eqb (kind N sub t) (LRel d) then pt_used t else 0.
Definition g_part N sub (d : bool) (t : ptracker) : Z := if lk_eqb (kind N sub t) (LPart d) then pt_used t else 0.

Record lists_ok (N : Z) (sub : bool) (L : lk -> hlists) (ur up : bool -> Z) (tr : Z -> ptracker) (own : list Z) : Prop := {
  lk_ok : forall k, hl_ok (nlists N k) (L k);
  lk_nodup : forall k, NoDup (hl_total (nlists N k) (L k));
  lk_in : forall k i x, 0 <= i < nlists N k -> (In x (hl (L k) i) <-> In x own /\ kind N sub (tr x) = k /\ pidx N (tr x) = i);
  lk_own : NoDup own;
  lk_range : forall x, In x own -> 0 <= pidx N (tr x) < nlists N (kind N sub (tr x));
  lk_rel : forall d, ur d = tsum (g_rel N sub d) tr own;
  lk_part : forall d, up d = tsum (g_part N sub d) tr own }.
Definition flists_ok N sub (f : filler) (own : list Z) : Prop :=
  lists_ok N sub (fl_lists f) (fl_used_rel f) (fl_used_part f) (fl_tr f) own.

Lemma NoDup_app_r {A} (l l' : list A) : NoDup (l ++ l') -> NoDup l'.
Proof. induction l as [|x l IH]; [auto|]. intros H. inversion H. auto. Qed.
Lemma NoDup_app_l {A} (l l' : list A) : NoDup (l ++ l') -> NoDup l.
Proof.
  induction l as [|x l IH]; intros H; [constructor|]. inversion H as [|? ? Hx Hn]; subst. constructor; [|auto].
  intros Hi. apply Hx. apply in_or_app. left. assumption.
Qed.
Lemma nodup_hl N t i : NoDup (hl_total N t) -> 0 <= i < N -> NoDup (hl t i).
Proof.
  intros H Hi. unfold hl_total in H. destruct (concat_upd (hl t) i [] (Z.to_nat N) 0 ltac:(lia)) as (A & B & E & _).
  rewrite E in H. apply NoDup_app_r in H. apply NoDup_app_l in H. assumption.
Qed.

Lemma hl_remove_list t x i j : hl (hl_remove t x i) j = if j =? i then rem1 x (hl t i) else hl t j.
Proof. reflexivity. Qed.
Lemma hl_add_list t x i j : hl (hl_add t x i) j = if j =? i then x :: hl t i else hl t j.
Proof. reflexivity. Qed.

Lemma rem1_In_iff x y l : NoDup l -> (In y (rem1 x l) <-> In y l /\ y <> x).
Proof.
  intros ND. destruct (rem1_NoDup x l ND) as (_ & B). split.
  - intros H. split; [apply (rem1_In x); assumption|]. intros ->. contradiction.
  - intros (H & Hne). apply rem1_other; assumption.
Qed.

Lemma take_off_ok N sub f own x : flists_ok N sub f own -> In x own ->
  flists_ok N sub (take_off f (kind N sub (fl_tr f x)) (pidx N (fl_tr f x)) x) (rem1 x own).
Proof.
  intros [Ok Nd In_ Own Rg Rl Pt] Hx. set (t := fl_tr f x). set (k := kind N sub t). set (i := pidx N t).
  assert (Hi : 0 <= i < nlists N k) by (exact (Rg x Hx)).
  assert (Hin : In x (hl (fl_lists f k) i)) by (apply In_; [assumption|auto]).
  destruct (hl_remove_ok _ _ x i (Ok k) Hi Hin) as (A & B).
  assert (EL : fl_lists (take_off f k i x) = updk (fl_lists f) k (hl_remove (fl_lists f k) x i)) by (unfold take_off; destruct k; reflexivity).
  assert (ET : fl_tr (take_off f k i x) = fl_tr f) by (unfold take_off; destruct k; reflexivity).
  unfold flists_ok. rewrite EL, ET. destruct (rem1_NoDup x own Own) as (No' & Nx).
  constructor.
  - intros k'. destruct (lk_eqb_spec k' k) as [->|Hne]; [rewrite updk_same|rewrite updk_other by assumption]; auto.
  - intros k'. destruct (lk_eqb_spec k' k) as [->|Hne]; [rewrite updk_same|rewrite updk_other by assumption; auto].
    pose proof (Permutation_NoDup B (Nd k)) as Hd. inversion Hd. assumption.
  - intros k' j y Hj. rewrite rem1_In_iff by assumption. destruct (lk_eqb_spec k' k) as [->|Hne].
    + rewrite updk_same, hl_remove_list. destruct (Z.eqb_spec j i) as [->|Hji].
      * rewrite rem1_In_iff by (apply (nodup_hl (nlists N k)); [apply Nd|assumption]). rewrite (In_ k i y Hi). tauto.
      * rewrite (In_ k j y Hj). split; [|tauto]. intros (H1 & H2 & H3). repeat split; auto. intros ->. apply Hji. symmetry. exact H3.
    + rewrite updk_other by assumption. rewrite (In_ k' j y Hj). split; [|tauto]. intros (H1 & H2 & H3). repeat split; auto.
      intros ->. apply Hne. symmetry. exact H2.
  - assumption.
  - intros y Hy. apply Rg. apply (rem1_In x). assumption.
  - intros d. specialize (Rl d). rewrite (tsum_take _ _ x own Hx) in Rl. unfold g_rel at 1 in Rl. fold t k in Rl.
    unfold take_off. destruct k; cbn [lk_eqb fl_used_rel put_list set_lists set_used_part set_used_rel] in Rl |- *; try lia.
    rewrite updb_at. destruct dense, d; cbn [Bool.eqb] in Rl |- *; cbn [fl_tr put_list set_lists]; fold t; lia.
  - intros d. specialize (Pt d). rewrite (tsum_take _ _ x own Hx) in Pt. unfold g_part at 1 in Pt. fold t k in Pt.
    unfold take_off. destruct k; cbn [lk_eqb fl_used_part put_list set_lists set_used_part set_used_rel] in Pt |- *; try lia.
    rewrite updb_at. destruct dense, d; cbn [Bool.eqb] in Pt |- *; cbn [fl_tr put_list set_lists]; fold t; lia.
Qed.

Lemma put_on_ok N sub f own x : flists_ok N sub f own -> ~ In x own -> 0 <= pidx N (fl_tr f x) < nlists N (kind N sub (fl_tr f x)) ->
  flists_ok N sub (put_on f (kind N sub (fl_tr f x)) (pidx N (fl_tr f x)) x) (x :: own).
Proof.
  intros [Ok Nd In_ Own Rg Rl Pt] Hx. set (t := fl_tr f x). set (k := kind N sub t). set (i := pidx N t). intros Hi.
  destruct (hl_add_ok _ _ x i (Ok k) Hi) as (A & B).
  assert (EL : fl_lists (put_on f k i x) = updk (fl_lists f) k (hl_add (fl_lists f k) x i)) by (unfold put_on; destruct k; reflexivity).
  assert (ET : fl_tr (put_on f k i x) = fl_tr f) by (unfold put_on; destruct k; reflexivity).
  unfold flists_ok. rewrite EL, ET.
  constructor.
  - intros k'. destruct (lk_eqb_spec k' k) as [->|Hne]; [rewrite updk_same|rewrite updk_other by assumption]; auto.
  - intros k'. destruct (lk_eqb_spec k' k) as [->|Hne]; [rewrite updk_same|rewrite updk_other by assumption; auto].
    apply (Permutation_NoDup (Permutation_sym B)). constructor; [|apply Nd].
    rewrite hl_total_In. intros (j & Hj & Hin). apply In_ in Hin; [|assumption]. apply Hx. apply Hin.
  - intros k' j y Hj. cbn [In]. destruct (lk_eqb_spec k' k) as [->|Hne].
    + rewrite updk_same, hl_add_list. destruct (Z.eqb_spec j i) as [->|Hji].
      * cbn [In]. rewrite (In_ k i y Hi). split; [intros [<-|H]; auto; tauto|]. intros ([<-|H] & H2 & H3); auto.
      * rewrite (In_ k j y Hj). split; [tauto|]. intros ([<-|H] & H2 & H3); [|auto]. exfalso. apply Hji. symmetry. exact H3.
    + rewrite updk_other by assumption. rewrite (In_ k' j y Hj). split; [tauto|]. intros ([<-|H] & H2 & H3); [|auto]. exfalso. apply Hne. symmetry. exact H2.
  - constructor; assumption.
  - intros y [<-|Hy]; [exact Hi|auto].
  - intros d. specialize (Rl d). rewrite tsum_cons. unfold g_rel at 1. fold t k.
    unfold put_on. destruct k; cbn [lk_eqb fl_used_rel put_list set_lists set_used_part set_used_rel]; try lia.
    rewrite updb_at. destruct dense, d; cbn [Bool.eqb]; cbn [fl_tr put_list set_lists]; fold t; lia.
  - intros d. specialize (Pt d). rewrite tsum_cons. unfold g_part at 1. fold t k.
    unfold put_on. destruct k; cbn [lk_eqb fl_used_part put_list set_lists set_used_part set_used_rel]; try lia.
    rewrite updb_at. destruct dense, d; cbn [Bool.eqb]; cbn [fl_tr put_list set_lists]; fold t; lia.
Qed.

(** A tracker may change in ways that do not matter for where it belongs. *)
Lemma lists_ok_tr N sub L ur up tr tr' own : lists_ok N sub L ur up tr own ->
  (forall y, In y own -> kind N sub (tr' y) = kind N sub (tr y) /\ pidx N (tr' y) = pidx N (tr y) /\ pt_used (tr' y) = pt_used (tr y)) ->
  lists_ok N sub L ur up tr' own.
Proof.
  intros [Ok Nd In_ Own Rg Rl Pt] H. constructor; auto.
  - intros k i y Hi. rewrite (In_ k i y Hi). split; intros (H1 & H2 & H3); destruct (H y H1) as (E1 & E2 & _); rewrite ?E1, ?E2 in *; auto.
  - intros y Hy. destruct (H y Hy) as (E1 & E2 & _). rewrite E1, E2. auto.
  - intros d. rewrite Rl. apply tsum_ext. intros y Hy. destruct (H y Hy) as (E1 & _ & E2). unfold g_rel. rewrite E1, E2. reflexivity.
  - intros d. rewrite Pt. apply tsum_ext. intros y Hy. destruct (H y Hy) as (E1 & _ & E2). unfold g_part. rewrite E1, E2. reflexivity.
Qed.
Lemma lists_ok_out N sub L ur up tr x t own : lists_ok N sub L ur up tr own -> ~ In x own -> lists_ok N sub L ur up (upd tr x t) own.
Proof.
  intros H Hx. apply (lists_ok_tr _ _ _ _ _ _ _ _ H). intros y Hy. rewrite upd_other; [auto|]. intros ->. contradiction.
Qed.
Lemma lists_ok_perm N sub L ur up tr own own' : lists_ok N sub L ur up tr own -> Permutation own own' -> lists_ok N sub L ur up tr own'.
Proof.
  intros [Ok Nd In_ Own Rg Rl Pt] P. constructor; auto.
  - intros k i y Hi. rewrite (In_ k i y Hi). split; intros (H1 & H2); split; auto; [apply (Permutation_in _ P)|apply (Permutation_in _ (Permutation_sym P))]; assumption.
  - exact (Permutation_NoDup P Own).
  - intros y Hy. apply Rg. apply (Permutation_in _ (Permutation_sym P)). assumption.
  - intros d. rewrite Rl. apply tsum_perm. assumption.
  - intros d. rewrite Pt. apply tsum_perm. assumption.
Qed.
