(** Lemmas about the treap of free ranges. *)
From Coq Require Import Permutation.
From Verif Require Import Base HugeAddressMap.

(** Ascending, non-empty, non-adjacent ranges starting above [lo] and ending below [hi]. *)
Fixpoint gaps (lo : Z) (l : list hrange) : Prop :=
  match l with [] => True | x :: l => lo < fst x /\ 1 <= snd x /\ gaps (fst x + snd x) l end.

Fixpoint endof (lo : Z) (l : list hrange) : Z :=
  match l with [] => lo | x :: l => endof (fst x + snd x) l end.

Lemma gaps_app lo a b : gaps lo (a ++ b) <-> gaps lo a /\ gaps (endof lo a) b.
Proof.
  revert lo. induction a as [|x a IH]; intros lo; cbn [app gaps endof]; [tauto|]. rewrite IH. tauto.
Qed.

Lemma endof_app lo a b : endof lo (a ++ b) = endof (endof lo a) b.
Proof. revert lo. induction a as [|x a IH]; intros lo; cbn [app endof]; [reflexivity|apply IH]. Qed.

Lemma gaps_le lo lo' l : gaps lo l -> lo' <= lo -> gaps lo' l.
Proof. destruct l; cbn [gaps]; [auto|]. intros (A & B & C) H. repeat split; try assumption. lia. Qed.

Lemma gaps_In lo l x : gaps lo l -> In x l -> lo < fst x /\ 1 <= snd x /\ fst x + snd x <= endof lo l.
Proof.
  revert lo. induction l as [|y l IH]; intros lo; cbn [gaps endof In]; [tauto|]. intros (A & B & C).
  assert (Hend : forall lo l, gaps lo l -> lo <= endof lo l).
  { clear. intros lo l. revert lo. induction l as [|z l IH]; intros lo; cbn [gaps endof]; [lia|]. intros (A & B & C).
    specialize (IH _ C). lia. }
  intros [<-|H]; [specialize (Hend _ _ C); lia|]. specialize (IH _ C H). lia.
Qed.

Lemma endof_ge lo l : gaps lo l -> lo <= endof lo l.
Proof.
  revert lo. induction l as [|z l IH]; intros lo; cbn [gaps endof]; [lia|]. intros (A & B & C). specialize (IH _ C). lia.
Qed.

Lemma gaps_inj lo l x y : gaps lo l -> In x l -> In y l -> fst x = fst y -> x = y.
Proof.
  revert lo. induction l as [|z l IH]; intros lo; cbn [gaps In]; [tauto|]. intros (A & B & C) Hx Hy E.
  destruct Hx as [->|Hx], Hy as [->|Hy]; [reflexivity| | |apply (IH _ C); assumption].
  - destruct (gaps_In _ _ _ C Hy). lia.
  - destruct (gaps_In _ _ _ C Hx). lia.
Qed.

(** A tree whose in-order contents are ascending splits at the root. *)
Lemma gaps_node lo l x r : gaps lo (ranges l ++ x :: ranges r) ->
  gaps lo (ranges l) /\ gaps (fst x + snd x) (ranges r) /\ 1 <= snd x /\ lo < fst x /\ endof lo (ranges l) < fst x /\
  (forall y, In y (ranges l) -> fst y + snd y < fst x /\ fst y < fst x /\ lo < fst y /\ 1 <= snd y) /\
  (forall y, In y (ranges r) -> fst x + snd x < fst y /\ 1 <= snd y).
Proof.
  rewrite gaps_app. cbn [gaps]. intros (A & B & C & D). repeat split; try assumption.
  - pose proof (endof_ge _ _ A). lia.
  - destruct (gaps_In _ _ _ A H). lia.
  - destruct (gaps_In _ _ _ A H). lia.
  - destruct (gaps_In _ _ _ A H). lia.
  - destruct (gaps_In _ _ _ A H). lia.
  - destruct (gaps_In _ _ _ D H). lia.
  - destruct (gaps_In _ _ _ D H). lia.
Qed.

(** ** Shape: [longest] and heap order are exact *)
Definition prio_le (t : tree) (p : Z) : Prop := match t with Leaf => True | Node _ _ q _ _ => q <= p end.
Fixpoint shape (t : tree) : Prop :=
  match t with
  | Leaf => True
  | Node l x p lg r => shape l /\ shape r /\ lg = Z.max (Z.max (longest l) (longest r)) (snd x) /\ prio_le l p /\ prio_le r p
  end.

Definition maxlen (l : list hrange) : Z := fold_right (fun x m => Z.max (snd x) m) 0 l.
Lemma maxlen_app a b : maxlen (a ++ b) = Z.max (maxlen a) (maxlen b).
Proof.
  assert (H : forall l, 0 <= maxlen l). { intros l. induction l as [|x l IH]; cbn [maxlen fold_right]; [lia|]. change (fold_right _ 0 l) with (maxlen l). lia. }
  induction a as [|x a IH]; cbn [app maxlen fold_right].
  - change (fold_right _ 0 b) with (maxlen b). specialize (H b). lia.
  - change (fold_right _ 0 (a ++ b)) with (maxlen (a ++ b)). change (fold_right _ 0 a) with (maxlen a). lia.
Qed.
Lemma maxlen_nonneg l : 0 <= maxlen l.
Proof. induction l as [|x l IH]; cbn [maxlen fold_right]; [lia|]. change (fold_right _ 0 l) with (maxlen l). lia. Qed.
Lemma maxlen_cons x l : maxlen (x :: l) = Z.max (snd x) (maxlen l).
Proof. reflexivity. Qed.

Lemma shape_longest t : shape t -> longest t = maxlen (ranges t).
Proof.
  induction t as [|l IHl x p lg r IHr]; cbn [shape ranges longest]; [reflexivity|].
  intros (A & B & C & _). rewrite maxlen_app, maxlen_cons, <- IHl, <- IHr by assumption. lia.
Qed.

(** ** Look-ups *)
Lemma tfirst_spec t : tfirst t = hd_error (ranges t).
Proof.
  induction t as [|l IHl x p lg r IHr]; [reflexivity|]. cbn [tfirst ranges]. destruct l as [|ll lx lp llg lr]; [reflexivity|].
  rewrite IHl. cbn [ranges]. destruct (ranges ll); reflexivity.
Qed.

Definition after (s : Z) (l : list hrange) : list hrange := filter (fun x => s <? fst x) l.
Definition upto (s : Z) (l : list hrange) : list hrange := filter (fun x => fst x <=? s) l.

Lemma filter_all {A} (f : A -> bool) l : (forall x, In x l -> f x = true) -> filter f l = l.
Proof.
  induction l as [|x l IH]; intros H; [reflexivity|]. cbn [filter]. rewrite H by (left; reflexivity). f_equal. apply IH.
  intros y Hy. apply H. right. assumption.
Qed.
Lemma filter_none {A} (f : A -> bool) l : (forall x, In x l -> f x = false) -> filter f l = [].
Proof.
  induction l as [|x l IH]; intros H; [reflexivity|]. cbn [filter]. rewrite H by (left; reflexivity). apply IH.
  intros y Hy. apply H. right. assumption.
Qed.

Definition hd_or (l : list hrange) (d : option hrange) : option hrange := match l with [] => d | x :: _ => Some x end.

Lemma hd_or_app a b d : hd_or (a ++ b) d = hd_or a (hd_or b d).
Proof. destruct a; reflexivity. Qed.

Lemma tnext_spec t : forall lo s up, gaps lo (ranges t) -> In s (map fst (ranges t)) -> tnext_from t s up = hd_or (after s (ranges t)) up.
Proof.
  induction t as [|l IHl x p lg r IHr]; intros lo s up G Hs; cbn [ranges map] in *; [destruct Hs|].
  destruct (gaps_node _ _ _ _ G) as (Gl & Gr & A & B & C & D & E).
  rewrite map_app in Hs. cbn [map] in Hs. apply in_app_or in Hs. cbn [tnext_from]. unfold after in *. rewrite filter_app. cbn [filter].
  assert (Dl : forall z, In z (map fst (ranges l)) -> z < fst x).
  { intros z Hz. apply in_map_iff in Hz. destruct Hz as (y & <- & Hy). apply D in Hy. lia. }
  assert (Dr : forall z, In z (map fst (ranges r)) -> fst x < z).
  { intros z Hz. apply in_map_iff in Hz. destruct Hz as (y & <- & Hy). apply E in Hy. lia. }
  destruct (Z.ltb_spec s (fst x)).
  - rewrite (IHl lo); [|assumption|destruct Hs as [Hs|[Hs|Hs]]; [assumption|lia|apply Dr in Hs; lia]].
    rewrite hd_or_app. reflexivity.
  - assert (Hfl : filter (fun x0 => s <? fst x0) (ranges l) = []) by (apply filter_none; intros y Hy; apply D in Hy; lia).
    rewrite Hfl. cbn [app]. destruct (Z.ltb_spec (fst x) s).
    + apply (IHr (fst x + snd x)); [assumption|]. destruct Hs as [Hs|[Hs|Hs]]; [apply Dl in Hs; lia|lia|assumption].
    + assert (s = fst x) by lia. subst s.
      rewrite (filter_all (fun x0 => fst x <? fst x0) (ranges r)) by (intros y Hy; apply E in Hy; lia).
      destruct r as [|rl rx rp rlg rr]; [reflexivity|]. rewrite tfirst_spec. cbn [ranges]. destruct (ranges rl); reflexivity.
Qed.

Definition last_or (l : list hrange) (d : option hrange) : option hrange := hd_or (rev l) d.
Lemma last_or_app a b d : last_or (a ++ b) d = last_or b (last_or a d).
Proof. unfold last_or. rewrite rev_app_distr. apply hd_or_app. Qed.

Lemma tpred_spec t : forall lo p best, gaps lo (ranges t) -> tpred_from t p best = last_or (upto p (ranges t)) best.
Proof.
  induction t as [|l IHl x pr lg r IHr]; intros lo p best G; [reflexivity|]. cbn [ranges] in *.
  destruct (gaps_node _ _ _ _ G) as (Gl & Gr & A & B & C & D & E). cbn [tpred_from]. unfold upto in *. rewrite filter_app. cbn [filter].
  unfold hr_contains. destruct (Z.ltb_spec p (fst x)) as [H|H].
  - replace ((fst x <=? p) && _) with false by lia.
    rewrite (IHl lo) by assumption. replace (fst x <=? p) with false by lia.
    rewrite (filter_none (fun x0 => fst x0 <=? p) (ranges r)) by (intros y Hy; apply E in Hy; lia). rewrite app_nil_r. reflexivity.
  - replace (fst x <=? p) with true by lia. cbn [andb]. rewrite last_or_app. 
    change (x :: filter (fun x0 => fst x0 <=? p) (ranges r)) with ([x] ++ filter (fun x0 => fst x0 <=? p) (ranges r)). rewrite last_or_app.
    cbn [last_or rev app hd_or]. destruct (Z.ltb_spec (p - fst x) (snd x)).
    + rewrite (filter_none (fun x0 => fst x0 <=? p) (ranges r)) by (intros y Hy; apply E in Hy; lia). reflexivity.
    + apply (IHr (fst x + snd x)). assumption.
Qed.

(** ** Updates: contents *)
Definition replace_at (s : Z) (v : hrange) (l : list hrange) : list hrange := map (fun x => if fst x =? s then v else x) l.
Definition delete_at (s : Z) (l : list hrange) : list hrange := filter (fun x => negb (fst x =? s)) l.

Lemma replace_none s v l : (forall x, In x l -> fst x <> s) -> replace_at s v l = l.
Proof.
  intros H. unfold replace_at. rewrite <- (map_id l) at 2. apply map_ext_in. intros x Hx. specialize (H x Hx).
  destruct (Z.eqb_spec (fst x) s); [lia|reflexivity].
Qed.
Lemma delete_none s l : (forall x, In x l -> fst x <> s) -> delete_at s l = l.
Proof. intros H. apply filter_all. intros x Hx. specialize (H x Hx). lia. Qed.

Lemma set_range_ranges t : forall lo s v, gaps lo (ranges t) -> ranges (set_range t s v) = replace_at s v (ranges t).
Proof.
  induction t as [|l IHl x pr lg r IHr]; intros lo s v G; [reflexivity|]. cbn [ranges] in G.
  destruct (gaps_node _ _ _ _ G) as (Gl & Gr & A & B & C & D & E). cbn [set_range ranges]. unfold replace_at in *. rewrite map_app. cbn [map].
  fold (replace_at s v (ranges l)). fold (replace_at s v (ranges r)).
  destruct (Z.ltb_spec s (fst x)); [|destruct (Z.ltb_spec (fst x) s)]; cbn [fix_node ranges].
  - rewrite (IHl lo) by assumption. replace (fst x =? s) with false by lia.
    rewrite (replace_none s v (ranges r)) by (intros y Hy; apply E in Hy; lia). reflexivity.
  - rewrite (IHr (fst x + snd x)) by assumption. replace (fst x =? s) with false by lia.
    rewrite (replace_none s v (ranges l)) by (intros y Hy; apply D in Hy; lia). reflexivity.
  - replace (fst x =? s) with true by lia. rewrite !replace_none; [reflexivity| |]; intros y Hy; [apply E in Hy|apply D in Hy]; lia.
Qed.

Lemma set_range_shape t s v : shape t -> shape (set_range t s v).
Proof.
  revert s v. induction t as [|l IHl x pr lg r IHr]; intros s v; cbn [set_range shape]; [auto|]. intros (A & B & C & D & E).
  assert (P : forall t s v q, prio_le t q -> prio_le (set_range t s v) q).
  { clear. intros t s v q. destruct t as [|l x p lg r]; cbn [set_range]; [auto|].
    destruct (s <? fst x); [|destruct (fst x <? s)]; cbn [fix_node prio_le]; auto. }
  destruct (s <? fst x); [|destruct (fst x <? s)]; cbn [fix_node shape]; auto 10.
Qed.

Lemma reorder_perm t b : reorder t b = (t, b) \/ reorder t b = (b, t).
Proof. destruct t as [|? ? tp ? ?], b as [|? ? bp ? ?]; cbn [reorder]; auto. destruct (tp <? bp); auto. Qed.

(** Two treaps with separated contents. *)
Definition sep (a b : tree) : Prop := forall x y, In x (ranges a) -> In y (ranges b) -> fst x < fst y.

Lemma tmerge_spec fuel : forall a b, (tsize a + tsize b < fuel)%nat -> shape a -> shape b -> sep a b -> forall lo lo', gaps lo (ranges a) -> gaps lo' (ranges b) ->
  forall t u, (t = a /\ u = b) \/ (t = b /\ u = a) ->
  ranges (tmerge fuel t u) = ranges a ++ ranges b /\ shape (tmerge fuel t u) /\
  longest (tmerge fuel t u) = Z.max (longest a) (longest b) /\ (forall q, prio_le a q -> prio_le b q -> prio_le (tmerge fuel t u) q).
Proof.
  induction fuel as [|fuel IH]; intros a b Hf Sa Sb Hsep lo lo' Ga Gb t u Htu; [lia|].
  assert (Hr : reorder t u = (a, b) \/ reorder t u = (b, a)).
  { destruct Htu as [(-> & ->)|(-> & ->)]; [destruct (reorder_perm a b)|destruct (reorder_perm b a)]; auto. }
  cbn [tmerge].
  assert (Hprio : forall x y, reorder t u = (x, y) -> match y with Leaf => True | Node _ _ q _ _ => match x with Leaf => False | Node _ _ p _ _ => q <= p end end).
  { clear. intros x y. destruct t as [|? ? tp ? ?], u as [|? ? up ? ?]; cbn [reorder]; intros [= <- <-] || destruct (Z.ltb_spec tp up); try (intros [= <- <-]); cbn; auto; lia. }
  assert (HL : forall t, shape t -> 0 <= longest t) by (intros t0 H0; rewrite shape_longest by assumption; apply maxlen_nonneg).
  destruct Hr as [Hr|Hr]; specialize (Hprio _ _ Hr); rewrite Hr.
  - (* top = a *)
    destruct a as [|al ax ap alg ar].
    { destruct b as [|? ? ? ? ?]; [|contradiction]. cbn. repeat split; auto. }
    destruct b as [|bl bx bp blg br].
    { cbn [ranges longest shape]. rewrite app_nil_r. split; [reflexivity|]. split; [exact Sa|]. split; [|auto].
      specialize (HL _ Sa). cbn [longest] in HL. lia. }
    assert (Hlt : fst ax < fst bx) by (apply Hsep; cbn [ranges]; apply in_or_app; right; left; reflexivity).
    replace (fst bx <? fst ax) with false by lia.
    cbn [ranges] in Ga. destruct (gaps_node _ _ _ _ Ga) as (Gl & Gr & _). cbn [shape] in Sa. destruct Sa as (S1 & S2 & S3 & S4 & S5).
    assert (Hsep' : sep ar (Node bl bx bp blg br)). { intros x y Hx Hy. apply Hsep; [cbn [ranges]; apply in_or_app; right; right; assumption|assumption]. }
    destruct (IH ar (Node bl bx bp blg br) ltac:(cbn [tsize] in *; lia) S2 Sb Hsep' _ _ Gr Gb ar (Node bl bx bp blg br) ltac:(auto))
      as (R1 & R2 & R3 & R4).
    cbn [ranges longest shape prio_le]. cbn [ranges] in R1. rewrite R1. cbn [longest] in R3. split; [rewrite <- app_assoc; reflexivity|].
    split; [|split; [reflexivity|auto]]. split; [assumption|]. split; [assumption|]. split; [rewrite R3; lia|]. split; [assumption|].
    apply R4; [assumption|exact Hprio].
  - (* top = b *)
    destruct b as [|bl bx bp blg br].
    { destruct a as [|? ? ? ? ?]; [|contradiction]. cbn. repeat split; auto. }
    destruct a as [|al ax ap alg ar].
    { cbn [ranges longest shape app]. split; [reflexivity|]. split; [exact Sb|]. split; [|auto].
      specialize (HL _ Sb). cbn [longest] in HL. lia. }
    assert (Hlt : fst ax < fst bx) by (apply Hsep; cbn [ranges]; apply in_or_app; right; left; reflexivity).
    replace (fst ax <? fst bx) with true by lia.
    cbn [ranges] in Gb. destruct (gaps_node _ _ _ _ Gb) as (Gl & Gr & _). cbn [shape] in Sb. destruct Sb as (S1 & S2 & S3 & S4 & S5).
    assert (Hsep' : sep (Node al ax ap alg ar) bl). { intros x y Hx Hy. apply Hsep; [assumption|cbn [ranges]; apply in_or_app; left; assumption]. }
    destruct (IH (Node al ax ap alg ar) bl ltac:(cbn [tsize] in *; lia) Sa S1 Hsep' _ _ Ga Gl bl (Node al ax ap alg ar) ltac:(auto))
      as (R1 & R2 & R3 & R4).
    cbn [ranges longest shape prio_le]. cbn [ranges] in R1. rewrite R1. cbn [longest] in R3. split; [rewrite <- !app_assoc; reflexivity|].
    split; [|split; [lia|auto]]. split; [assumption|]. split; [assumption|]. split; [rewrite R3; lia|]. split; [|assumption].
    apply R4; [exact Hprio|assumption].
Qed.

Lemma remove_node_spec t : forall lo s, gaps lo (ranges t) -> shape t ->
  let r := remove_node t s in
  ranges (fst r) = delete_at s (ranges t) /\ shape (fst r) /\ snd r = longest (fst r) /\ (forall q, prio_le t q -> prio_le (fst r) q).
Proof.
  induction t as [|l IHl x pr lg r IHr]; intros lo s G Sh; [cbn; auto|]. cbn [ranges] in G.
  destruct (gaps_node _ _ _ _ G) as (Gl & Gr & A & B & C & D & E). cbn [shape] in Sh. destruct Sh as (S1 & S2 & S3 & S4 & S5).
  cbn [remove_node ranges]. unfold delete_at in *. rewrite filter_app. cbn [filter]. fold (delete_at s (ranges l)). fold (delete_at s (ranges r)).
  destruct (Z.ltb_spec s (fst x)); [|destruct (Z.ltb_spec (fst x) s)].
  - specialize (IHl lo s Gl S1). destruct (remove_node l s) as [l' llg]. cbn zeta in *. cbn [fst snd] in *. destruct IHl as (I1 & I2 & I3 & I4).
    cbn [ranges shape longest prio_le]. replace (fst x =? s) with false by lia. cbn [negb].
    rewrite (delete_none s (ranges r)) by (intros y Hy; apply E in Hy; lia). rewrite I1, I3. unfold delete_at. auto 10.
  - specialize (IHr (fst x + snd x) s Gr S2). destruct (remove_node r s) as [r' rlg]. cbn zeta in *. cbn [fst snd] in *. destruct IHr as (I1 & I2 & I3 & I4).
    cbn [ranges shape longest prio_le]. replace (fst x =? s) with false by lia. cbn [negb].
    rewrite (delete_none s (ranges l)) by (intros y Hy; apply D in Hy; lia). rewrite I1, I3. unfold delete_at. auto 10.
  - replace (fst x =? s) with true by lia. cbn [negb fst snd]. 
    rewrite !delete_none; [|intros y Hy; apply E in Hy; lia|intros y Hy; apply D in Hy; lia].
    destruct (tmerge_spec (S (tsize l + tsize r)) l r ltac:(lia) S1 S2) with (lo := lo) (lo' := fst x + snd x) (t := l) (u := r) as (R1 & R2 & R3 & R4); auto.
    { intros a b Ha Hb. apply D in Ha. apply E in Hb. lia. }
    cbn zeta. split; [assumption|]. split; [assumption|]. split; [symmetry; assumption|]. intros q Hq. cbn [prio_le] in Hq.
    apply R4; [destruct l|destruct r]; cbn [prio_le] in *; lia.
Qed.

Definition below (s : Z) (l : list hrange) : list hrange := filter (fun x => fst x <? s) l.
Definition above (s : Z) (l : list hrange) : list hrange := filter (fun x => negb (fst x <? s)) l.

Lemma tsplit_spec t : forall lo p, gaps lo (ranges t) -> shape t ->
  let r := tsplit t p in
  ranges (fst r) = below p (ranges t) /\ ranges (snd r) = above p (ranges t) /\ shape (fst r) /\ shape (snd r) /\
  (forall q, prio_le t q -> prio_le (fst r) q /\ prio_le (snd r) q).
Proof.
  induction t as [|l IHl x pr lg r IHr]; intros lo p G Sh; [cbn; auto 10|]. cbn [ranges] in G.
  destruct (gaps_node _ _ _ _ G) as (Gl & Gr & A & B & C & D & E). cbn [shape] in Sh. destruct Sh as (S1 & S2 & S3 & S4 & S5).
  cbn [tsplit ranges]. unfold below, above in *. rewrite !filter_app. cbn [filter].
  assert (T : forall t q, prio_le t pr -> pr <= q -> prio_le t q) by (clear; intros [|]; cbn; intros; lia).
  destruct (Z.ltb_spec (fst x) p).
  - specialize (IHr (fst x + snd x) p Gr S2). destruct (tsplit r p) as [a b]. cbn zeta in *. cbn [fst snd] in *.
    destruct IHr as (I1 & I2 & I3 & I4 & I5). destruct (I5 _ S5) as (I6 & I7). cbn [fix_node ranges shape prio_le negb].
    rewrite I1, I2. rewrite (filter_all _ (ranges l)) by (intros y Hy; apply D in Hy; lia).
    rewrite (filter_none _ (ranges l)) by (intros y Hy; apply D in Hy; lia). repeat split; eauto.
  - specialize (IHl lo p Gl S1). destruct (tsplit l p) as [a b]. cbn zeta in *. cbn [fst snd] in *.
    destruct IHl as (I1 & I2 & I3 & I4 & I5). destruct (I5 _ S4) as (I6 & I7). cbn [fix_node ranges shape prio_le negb].
    rewrite I1, I2. rewrite (filter_none _ (ranges r)) by (intros y Hy; apply E in Hy; lia).
    rewrite (filter_all _ (ranges r)) by (intros y Hy; apply E in Hy; lia). rewrite app_nil_r. repeat split; eauto.
Qed.

Lemma insert_node_spec t : forall lo y p, gaps lo (ranges t) -> shape t -> 0 <= snd y ->
  let r := insert_node t y p in
  ranges (fst r) = below (fst y) (ranges t) ++ y :: above (fst y) (ranges t) /\ shape (fst r) /\
  (forall q, prio_le t q -> p <= q -> prio_le (fst r) q).
Proof.
  induction t as [|l IHl x pr lg r IHr]; intros lo y p G Sh Hy.
  { cbn. repeat split; auto; lia. }
  cbn [ranges] in G.
  destruct (gaps_node _ _ _ _ G) as (Gl & Gr & A & B & C & D & E). pose proof Sh as Sh0. cbn [shape] in Sh. destruct Sh as (S1 & S2 & S3 & S4 & S5).
  cbn [insert_node]. destruct (Z.leb_spec p pr).
  - destruct (Z.ltb_spec (fst x) (fst y)).
    + specialize (IHr (fst x + snd x) y p Gr S2 Hy). destruct (insert_node r y p) as [r' f]. cbn zeta in *. cbn [fst snd] in *.
      destruct IHr as (I1 & I2 & I3). unfold below, above in *.
      assert (HR : ranges l ++ x :: ranges r' = filter (fun x0 => fst x0 <? fst y) (ranges l ++ x :: ranges r) ++ y :: filter (fun x0 => negb (fst x0 <? fst y)) (ranges l ++ x :: ranges r)).
      { rewrite !filter_app. cbn [filter]. replace (fst x <? fst y) with true by lia. cbn [negb]. rewrite I1.
        rewrite (filter_all _ (ranges l)) by (intros z Hz; apply D in Hz; lia).
        rewrite (filter_none _ (ranges l)) by (intros z Hz; apply D in Hz; lia). rewrite <- app_assoc. reflexivity. }
      assert (HL : Z.max lg (snd y) = Z.max (Z.max (longest l) (longest r')) (snd x)).
      { rewrite S3, !shape_longest by assumption. rewrite I1, maxlen_app, maxlen_cons.
        assert (HM : maxlen (ranges r) = Z.max (maxlen (filter (fun x0 => fst x0 <? fst y) (ranges r))) (maxlen (filter (fun x0 => negb (fst x0 <? fst y)) (ranges r)))).
        { clear. induction (ranges r) as [|z k IH]; [reflexivity|]. cbn [filter]. destruct (fst z <? fst y); cbn [negb]; rewrite !maxlen_cons, IH; lia. }
        lia. }
      destruct f; cbn [fix_node ranges shape prio_le]; (split; [exact HR|]); (split; [|auto]); rewrite ?HL; auto 10.
    + specialize (IHl lo y p Gl S1 Hy). destruct (insert_node l y p) as [l' f]. cbn zeta in *. cbn [fst snd] in *.
      destruct IHl as (I1 & I2 & I3). unfold below, above in *.
      assert (HR : ranges l' ++ x :: ranges r = filter (fun x0 => fst x0 <? fst y) (ranges l ++ x :: ranges r) ++ y :: filter (fun x0 => negb (fst x0 <? fst y)) (ranges l ++ x :: ranges r)).
      { rewrite !filter_app. cbn [filter]. replace (fst x <? fst y) with false by lia. cbn [negb]. rewrite I1.
        rewrite (filter_none _ (ranges r)) by (intros z Hz; apply E in Hz; lia).
        rewrite (filter_all _ (ranges r)) by (intros z Hz; apply E in Hz; lia). rewrite app_nil_r, <- app_assoc. reflexivity. }
      assert (HL : Z.max lg (snd y) = Z.max (Z.max (longest l') (longest r)) (snd x)).
      { rewrite S3, !shape_longest by assumption. rewrite I1, maxlen_app, maxlen_cons.
        assert (HM : maxlen (ranges l) = Z.max (maxlen (filter (fun x0 => fst x0 <? fst y) (ranges l))) (maxlen (filter (fun x0 => negb (fst x0 <? fst y)) (ranges l)))).
        { clear. induction (ranges l) as [|z k IH]; [reflexivity|]. cbn [filter]. destruct (fst z <? fst y); cbn [negb]; rewrite !maxlen_cons, IH; lia. }
        lia. }
      destruct f; cbn [fix_node ranges shape prio_le]; (split; [exact HR|]); (split; [|auto]); rewrite ?HL; auto 10.
  - destruct (tsplit_spec (Node l x pr lg r) lo (fst y) G Sh0) as (I1 & I2 & I3 & I4 & I5).
    destruct (tsplit (Node l x pr lg r) (fst y)) as [a b]. cbn zeta in *. cbn [fst snd] in *. destruct (I5 pr ltac:(cbn; lia)) as (I6 & I7).
    cbn [fix_node ranges shape prio_le]. rewrite I1, I2.
    assert (T : forall t, prio_le t pr -> prio_le t p) by (intros [|]; cbn; intros; lia). auto 10.
Qed.
