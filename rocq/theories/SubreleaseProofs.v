(** Lemmas for SubreleaseProps.v: the entries visited, the aggregates they hold, and the
    decisions counted. *)
From Coq Require Import Permutation Sorted.
From Verif Require Import Base TimeSeries TimeSeriesProps Subrelease SubreleaseSpec.

(** ** The entries visited *)
Lemma total_len h : Forall (fun x : Z * Z => 0 < snd x) h -> Z.of_nat (length h) <= total h.
Proof. induction 1 as [|x h Hx F IH]; [reflexivity|]. change (total (x :: h)) with (snd x + total h). cbn [length]. lia. Qed.
Lemma total_split n h : total h = total (firstn n h) + total (skipn n h).
Proof. rewrite <- total_app, firstn_skipn. reflexivity. Qed.
Lemma forall_skipn {A} (Q : A -> Prop) n l : Forall Q l -> Forall Q (skipn n l).
Proof. intros F. rewrite Forall_forall in *. intros x H. apply F. rewrite <- (firstn_skipn n l). apply in_or_app. now right. Qed.
Lemma total_firstn_mono h a b : Forall (fun x : Z * Z => 0 < snd x) h -> (a <= b)%nat -> total (firstn a h) <= total (firstn b h).
Proof.
  intros F L. destruct (firstn_le_le h a b L) as (x & E). rewrite E, total_app.
  pose proof (forall_firstn _ b _ F) as Fb. rewrite E in Fb. apply Forall_app in Fb as (_ & Fx). pose proof (total_nonneg _ Fx). lia.
Qed.
Lemma in_firstn_nth {A} (x : A) k l : In x (firstn k l) -> exists i, (i < k)%nat /\ nth_error l i = Some x.
Proof.
  revert l. induction k as [|k IH]; intros [|y l] H; try (destruct H; fail). destruct H as [->|H].
  - exists 0%nat. split; [lia|reflexivity].
  - destruct (IH _ H) as (i & Hi & E). exists (S i). split; [lia|exact E].
Qed.
Lemma in_skipn_nth {A} (x : A) k l : In x (skipn k l) -> exists i, (k <= i)%nat /\ nth_error l i = Some x.
Proof.
  revert l. induction k as [|k IH]; intros l H.
  - destruct (In_nth_error _ _ H) as (i & E). exists i. split; [lia|exact E].
  - destruct l as [|y l]; [destruct H|]. destruct (IH _ H) as (i & Hi & E). exists (S i). split; [lia|exact E].
Qed.

Lemma visited {P V} K (nil : P) (rep : P -> V -> P) t last log h w : 0 < K -> reach_ts K nil rep t last log -> ts_inv K nil rep t last log h -> 1 <= w ->
  exists k, (1 <= k)%nat /\ (k <= length h)%nat /\
    ts_iter_back K t (Some w) = map (fun i => (i, fst (entry K t i), snd (entry K t i))) (zseq 0 k) /\
    (forall i, (i < k)%nat -> exists x d, nth_error h i = Some (x, d) /\ entry K t (Z.of_nat i) = (d, fold_left rep (at_epoch log x) nil)) /\
    (forall x, In x (firstn k h) -> last - w < fst x) /\
    (w <= K -> forall x, In x (skipn k h) -> fst x <= last - w).
Proof.
  intros HK R I Hw. destruct (timeseries_iter_back P V K nil rep t last log (Some w) HK R ltac:(intros w' E; inversion E; subst; exact Hw)) as (m & Hm & E & A1 & A2).
  pose proof I as [C1 C2 C3 C4 C5 C6 C7 C8 C9]. pose proof (chain_pos h last C5) as Fp.
  set (tg := Z.min w (ts_covered t)) in *.
  assert (Hc : tg <= total (firstn (Z.to_nat K) h)) by (rewrite <- C8; unfold tg; lia).
  assert (Hml : (Z.to_nat m <= length h)%nat).
  { destruct (le_lt_dec (Z.to_nat m) (length h)) as [H|H]; [exact H|]. exfalso. specialize (A1 (m - 1) ltac:(lia)).
    rewrite (age_eq K nil rep t last log h (m - 1) I) in A1 by lia. rewrite firstn_all2 in A1 by lia. pose proof (total_firstn_le (Z.to_nat K) h Fp). lia. }
  exists (Z.to_nat m). split; [lia|]. split; [exact Hml|]. split; [exact E|]. split; [|split].
  - intros i Hi. destruct (nth_error h i) as [(x & d)|] eqn:N. 2:{ apply nth_error_None in N. lia. }
    exists x, d. split; [reflexivity|]. rewrite C7 by lia. rewrite Nat2Z.id, N. reflexivity.
  - intros (x & d) Hx. destruct (in_firstn_nth _ _ _ Hx) as (i & Hi & N). cbn [fst]. rewrite (chain_nth _ _ _ _ _ C5 N).
    specialize (A1 (Z.of_nat i) ltac:(lia)). rewrite (age_eq K nil rep t last log h _ I) in A1 by lia. rewrite Nat2Z.id in A1. unfold tg in A1. lia.
  - intros HwK (x & d) Hx. destruct (in_skipn_nth _ _ _ Hx) as (i & Hi & N). cbn [fst]. rewrite (chain_nth _ _ _ _ _ C5 N).
    rewrite (age_eq K nil rep t last log h _ I) in A2 by lia. pose proof (total_firstn_mono h _ _ Fp Hi) as M.
    destruct (Z_le_gt_dec w (ts_covered t)) as [G|G]; [unfold tg in A2; lia|]. exfalso.
    assert (Lh : (length h < Z.to_nat K)%nat).
    { destruct (le_lt_dec (Z.to_nat K) (length h)) as [L|L]; [|exact L]. exfalso.
      pose proof (total_len _ (forall_firstn _ (Z.to_nat K) _ Fp)) as T. rewrite firstn_length, <- C8 in T. lia. }
    assert (Ec : ts_covered t = total h) by (rewrite C8, firstn_all2 by lia; reflexivity).
    assert (Hi2 : (i < length h)%nat) by (apply nth_error_Some; congruence).
    pose proof (total_split i h) as Sp. pose proof (total_len _ (forall_skipn _ i _ Fp)) as Tl. rewrite skipn_length in Tl. unfold tg in A2. lia.
Qed.

Lemma visited_payloads {P V} K (nil : P) (rep : P -> V -> P) t log h k :
  (forall i, (i < k)%nat -> exists x d, nth_error h i = Some (x, d) /\ entry K t (Z.of_nat i) = (d, fold_left rep (at_epoch log x) nil)) ->
  (k <= length h)%nat ->
  map (fun i => snd (entry K t i)) (zseq 0 k) = map (fun x => fold_left rep (at_epoch log x) nil) (map fst (firstn k h)).
Proof.
  induction k as [|k IH]; intros H Hk; [reflexivity|]. replace (S k) with (k + 1)%nat at 1 by lia. rewrite zseq_app, map_app.
  rewrite IH by (auto with arith || lia; intros; apply H; lia). rewrite firstn_S_nth, map_app, map_app. f_equal.
  destruct (H k ltac:(lia)) as (x & d & N & E). rewrite N. cbn [zseq map]. rewrite Z.add_0_l, E. reflexivity.
Qed.

(** ** Largest and smallest *)
Lemma fold_top {A} (g : A -> Z) l : (forall e, In e l -> 0 <= g e) ->
  top (fun x => exists e, In e l /\ x = g e) (fold_left (fun m e => if m <? g e then g e else m) l 0).
Proof.
  intros H. assert (G : forall l m, (forall e, In e l -> g e <= fold_left (fun m e => if m <? g e then g e else m) l m) /\ m <= fold_left (fun m e => if m <? g e then g e else m) l m /\
     (fold_left (fun m e => if m <? g e then g e else m) l m = m \/ exists e, In e l /\ fold_left (fun m e => if m <? g e then g e else m) l m = g e)).
  { clear. induction l as [|y l IH]; intros m; cbn [fold_left]; [split; [intros e []|split; [lia|now left]]|].
    destruct (IH (if m <? g y then g y else m)) as (I1 & I2 & I3). destruct (Z.ltb_spec m (g y)).
    - split; [|split; [lia|]]. { intros e [->|He]; [exact I2|apply I1, He]. } right. destruct I3 as [E|(e & He & E)]; [exists y; split; [now left|exact E]|exists e; split; [now right|exact E]].
    - split; [|split; [exact I2|]]. { intros e [->|He]; [lia|apply I1, He]. } destruct I3 as [E|(e & He & E)]; [now left|right; exists e; split; [now right|exact E]]. }
  destruct (G l 0) as (G1 & G2 & G3). destruct l as [|y l]; [right; split; [reflexivity|intros x (e & [] & _)]|].
  left. split; [|intros x (e & He & ->); apply G1, He].
  destruct G3 as [E|(e & He & E)]; [|exists e; split; [exact He|exact E]].
  exists y. split; [now left|]. specialize (G1 y (or_introl eq_refl)). specialize (H y (or_introl eq_refl)). lia.
Qed.

Lemma fold_bottom {A} (g : A -> Z) l M : (forall e, In e l -> g e < M) ->
  bottom (fun x => exists e, In e l /\ x = g e) (let f := fold_left (fun m e => Z.min m (g e)) l M in if f =? M then 0 else f).
Proof.
  intros H. assert (G : forall l m, (forall e, In e l -> fold_left (fun m e => Z.min m (g e)) l m <= g e) /\ fold_left (fun m e => Z.min m (g e)) l m <= m /\
     (fold_left (fun m e => Z.min m (g e)) l m = m \/ exists e, In e l /\ fold_left (fun m e => Z.min m (g e)) l m = g e)).
  { clear. induction l as [|y l IH]; intros m; cbn [fold_left]; [split; [intros e []|split; [lia|now left]]|].
    destruct (IH (Z.min m (g y))) as (I1 & I2 & I3). split; [intros e [->|He]; [lia|apply I1, He]|]. split; [lia|].
    destruct I3 as [E|(e & He & E)]; [|right; exists e; split; [now right|exact E]].
    destruct (Z_le_gt_dec m (g y)); [left; lia|right; exists y; split; [now left|lia]]. }
  destruct (G l M) as (G1 & G2 & G3). cbv zeta. destruct l as [|y l].
  { right. cbn [fold_left]. rewrite Z.eqb_refl. split; [reflexivity|intros x (e & [] & _)]. }
  pose proof (G1 y (or_introl eq_refl)) as Gy. pose proof (H y (or_introl eq_refl)) as Hy.
  match goal with |- context [?a =? M] => replace (a =? M) with false by lia end.
  left. split; [destruct G3 as [E|(e & He & E)]; [lia|exists e; split; [exact He|exact E]]|intros x (e & He & ->); apply G1, He].
Qed.

Lemma top_ext (S T : Z -> Prop) r : (forall x, S x <-> T x) -> top S r -> top T r.
Proof. intros H [(A & B)|(A & B)]; [left; split; [now apply H|intros x Hx; apply B, H, Hx]|right; split; [exact A|intros x Hx; apply (B x), H, Hx]]. Qed.
Lemma bottom_ext (S T : Z -> Prop) r : (forall x, S x <-> T x) -> bottom S r -> bottom T r.
Proof. intros H [(A & B)|(A & B)]; [left; split; [now apply H|intros x Hx; apply B, H, Hx]|right; split; [exact A|intros x Hx; apply (B x), H, Hx]]. Qed.

(** ** The aggregate of an epoch *)
Definition vals (f : sstats -> Z) (l : list sstats) (x : Z) : Prop := exists v, In v l /\ x = f v.

Record agg (l : list sstats) (e : sentry) : Prop := {
  ag_full : se_empty e = false;
  ag_max : greatest (vals ss_num l) (ss_num (se_max e));
  ag_min : least (vals ss_num l) (ss_num (se_min e));
  ag_free : least (vals (fun v => ss_free v + ss_unmapped v) l) (se_min_free e);
  ag_backed : least (vals ss_free l) (se_min_backed e) }.

Lemma greatest_snoc f l v r : greatest (vals f l) r -> greatest (vals f (l ++ [v])) (Z.max r (f v)).
Proof.
  intros ((u & Hu & E) & B). split.
  - destruct (Z_le_gt_dec r (f v)); [exists v; split; [apply in_or_app; right; now left|lia]|exists u; split; [apply in_or_app; now left|lia]].
  - intros x (w & Hw & ->). apply in_app_or in Hw as [Hw|[->|[]]]; [|lia]. specialize (B (f w) ltac:(exists w; split; [exact Hw|reflexivity])). lia.
Qed.
Lemma least_snoc f l v r : least (vals f l) r -> least (vals f (l ++ [v])) (Z.min r (f v)).
Proof.
  intros ((u & Hu & E) & B). split.
  - destruct (Z_le_gt_dec r (f v)); [exists u; split; [apply in_or_app; now left|lia]|exists v; split; [apply in_or_app; right; now left|lia]].
  - intros x (w & Hw & ->). apply in_app_or in Hw as [Hw|[->|[]]]; [|lia]. specialize (B (f w) ltac:(exists w; split; [exact Hw|reflexivity])). lia.
Qed.
Lemma vals_one f v : greatest (vals f [v]) (f v) /\ least (vals f [v]) (f v).
Proof. split; split; try (exists v; split; [now left|reflexivity]); intros x (w & [->|[]] & ->); lia. Qed.

Lemma agg_fold l : Forall stats_ok l -> l <> [] -> agg l (fold_left se_report l sentry_nil).
Proof.
  induction l as [|v l IH] using rev_ind; [congruence|]. intros F _. apply Forall_app in F as (F & Fv). inversion Fv as [|? ? (V1 & V2 & V3 & V4) _]; subst.
  rewrite fold_left_app. cbn [fold_left]. assert (Hw : wrap64 (ss_free v + ss_unmapped v) = ss_free v + ss_unmapped v).
  { apply wrap64_small. unfold two64. unfold len_max in V4. lia. }
  destruct l as [|u l].
  - clear IH F. cbn [fold_left]. destruct (vals_one ss_num v) as (A1 & A2). destruct (vals_one ss_free v) as (_ & A3). destruct (vals_one (fun v => ss_free v + ss_unmapped v) v) as (_ & A4).
    unfold se_report, sentry_nil, se_empty. cbn [se_min_free se_min_backed se_min se_max]. rewrite Z.eqb_refl, Z.ltb_irrefl, Hw. cbn [app].
    rewrite !Z.min_r by lia. constructor; cbn [se_min_free se_min_backed se_min se_max]; auto. unfold se_empty. cbn [se_min_free]. lia.
  - specialize (IH F ltac:(discriminate)). set (l0 := u :: l) in *. set (e := fold_left se_report l0 sentry_nil) in *. destruct IH as [A1 A2 A3 A4 A5].
    unfold se_report. rewrite A1, Hw. constructor; unfold se_empty; cbn [se_min_free se_min_backed se_min se_max].
    + lia.
    + replace (ss_num (if _ : bool then _ else _)) with (Z.max (ss_num (se_max e)) (ss_num v)); [apply greatest_snoc, A2|]. destruct (Z.ltb_spec (ss_num (se_max e)) (ss_num v)); lia.
    + replace (ss_num (if _ : bool then _ else _)) with (Z.min (ss_num (se_min e)) (ss_num v)); [apply least_snoc, A3|]. destruct (Z.ltb_spec (ss_num v) (ss_num (se_min e))); lia.
    + apply (least_snoc (fun v => ss_free v + ss_unmapped v)), A4.
    + apply least_snoc, A5.
Qed.

Lemma epochs_ceil c i w : 0 < sc_epoch c -> epochs_of c i w -> (i + sc_epoch c - 1) / sc_epoch c = w.
Proof.
  intros He (A & B). symmetry. apply Z.div_unique with (i + sc_epoch c - 1 - sc_epoch c * w); [left; nia|lia].
Qed.

Lemma in_at_epoch {V} (log : list (Z * V)) e v : In v (at_epoch log e) <-> In (e, v) log.
Proof.
  unfold at_epoch. rewrite in_map_iff. split.
  - intros ((x & u) & E & H). cbn in E. subst u. apply filter_In in H as (H & Ex). cbn in Ex. apply Z.eqb_eq in Ex. now subst.
  - intros H. exists (e, v). split; [reflexivity|]. apply filter_In. split; [exact H|]. cbn. apply Z.eqb_refl.
Qed.
Lemma at_epoch_ok log e : log_ok log -> Forall stats_ok (at_epoch log e).
Proof. intros H. rewrite Forall_forall. intros v Hv. apply in_at_epoch in Hv. exact (H _ _ Hv). Qed.

Lemma seen_spec c t last log i w : good_cfg c -> reach_ts (sc_slots c) sentry_nil se_report t last log -> log_ok log ->
  0 <= i <= sc_window c -> epochs_of c i w ->
  forall e, In e (seen c t i) <-> exists x, last - w < x /\ at_epoch log x <> [] /\ e = fold_left se_report (at_epoch log x) sentry_nil.
Proof.
  intros (HK & He & Hw) R L Hi E e. destruct (reach_inv _ _ _ _ _ _ HK R) as (h & I). pose proof E as (E1 & E2).
  pose proof I as [C1 C2 C3 C4 C5 C6 C7 C8 C9].
  assert (Hle : forall x, at_epoch log x <> [] -> In x (map fst h) /\ x <= last).
  { intros x Hx. destruct (at_epoch log x) as [|v l] eqn:Ev; [congruence|]. assert (Hv : In (x, v) log) by (apply in_at_epoch; rewrite Ev; now left).
    apply C9 in Hv. split; [exact Hv|exact (chain_le _ _ _ C5 Hv)]. }
  unfold seen, back. destruct (Z.eqb_spec i 0) as [->|N0].
  { cbn [map filter In]. split; [intros []|]. intros (x & A & B & _). destruct (Hle x B). nia. }
  assert (Hw1 : 1 <= w) by nia. assert (HwK : w <= sc_slots c) by nia.
  rewrite (epochs_ceil c i w He E). destruct (visited _ _ _ _ _ _ _ w HK R I Hw1) as (k & Hk1 & Hk2 & Ek & Hen & V1 & V2). rewrite Ek, map_map. cbn [snd].
  rewrite (visited_payloads _ _ _ _ _ _ _ Hen Hk2). rewrite filter_In, in_map_iff. split.
  - intros ((x & <- & Hx) & Em). apply in_map_iff in Hx as ((x' & d) & Ex & Hx). cbn in Ex. subst x'. exists x. split; [exact (V1 _ Hx)|]. split; [|reflexivity].
    intros N. rewrite N in Em. cbn in Em. discriminate.
  - intros (x & A & B & ->). destruct (Hle x B) as (Hx & _). split.
    + exists x. split; [reflexivity|]. rewrite <- (firstn_skipn k h), map_app in Hx. apply in_app_or in Hx as [Hx|Hx]; [exact Hx|].
      apply in_map_iff in Hx as (y & <- & Hy). specialize (V2 HwK y Hy). lia.
    + rewrite (ag_full _ _ (agg_fold _ (at_epoch_ok log x L) B)). reflexivity.
Qed.

Lemma nonempty_in {A} (l : list A) : l <> [] <-> exists v, In v l.
Proof. destruct l as [|v l]; split; intros H; [congruence|destruct H as (v & [])|exists v; now left|discriminate]. Qed.

Lemma in_epoch_vals log e x : in_epoch log e x <-> vals ss_num (at_epoch log e) x.
Proof. unfold in_epoch, vals. split; intros (v & Hv & ->); exists v; (split; [now apply in_at_epoch|reflexivity]). Qed.
Lemma greatest_ext (S T : Z -> Prop) r : (forall x, S x <-> T x) -> greatest S r -> greatest T r.
Proof. intros H (A & B). split; [now apply H|intros x Hx; apply B, H, Hx]. Qed.
Lemma least_ext (S T : Z -> Prop) r : (forall x, S x <-> T x) -> least S r -> least T r.
Proof. intros H (A & B). split; [now apply H|intros x Hx; apply B, H, Hx]. Qed.
Lemma greatest_unique S a b : greatest S a -> greatest S b -> a = b.
Proof. intros (A1 & A2) (B1 & B2). specialize (A2 _ B1). specialize (B2 _ A1). lia. Qed.
Lemma least_unique S a b : least S a -> least S b -> a = b.
Proof. intros (A1 & A2) (B1 & B2). specialize (A2 _ B1). specialize (B2 _ A1). lia. Qed.

Lemma top_ok (S : Z -> Prop) r : (forall x, S x -> 0 <= x < 2 ^ 62) -> top S r -> 0 <= r < 2 ^ 62.
Proof. intros H [(A & _)|(-> & _)]; [apply H, A|lia]. Qed.

Section Stats.
Variables (c : scfg) (t : tseries sentry) (last : Z) (log : list (Z * sstats)).
Hypotheses (G : good_cfg c) (R : reach_ts (sc_slots c) sentry_nil se_report t last log) (L : log_ok log).

Lemma seen_agg i w e : 0 <= i <= sc_window c -> epochs_of c i w -> In e (seen c t i) ->
  exists x, last - w < x /\ at_epoch log x <> [] /\ agg (at_epoch log x) e /\ Forall stats_ok (at_epoch log x).
Proof.
  intros Hi E H. apply (seen_spec c t last log i w G R L Hi E) in H as (x & A & B & ->). exists x. split; [exact A|]. split; [exact B|].
  pose proof (at_epoch_ok log x L). split; [apply agg_fold; assumption|assumption].
Qed.
Lemma agg_seen i w x : 0 <= i <= sc_window c -> epochs_of c i w -> last - w < x -> at_epoch log x <> [] ->
  exists e, In e (seen c t i) /\ agg (at_epoch log x) e.
Proof.
  intros Hi E A B. eexists. split; [apply (seen_spec c t last log i w G R L Hi E); exists x; split; [exact A|]; split; [exact B|reflexivity]|].
  apply agg_fold; [apply at_epoch_ok, L|exact B].
Qed.

Lemma from_tops (g : sentry -> Z) f i w r : 0 <= i <= sc_window c -> epochs_of c i w ->
  (forall l e, agg l e -> greatest (vals f l) (g e)) ->
  top (fun x => exists e, In e (seen c t i) /\ x = g e) r -> top (reported log last w f) r.
Proof.
  intros Hi E Hg [((e & He & ->) & B)|(Er & B)].
  - left. destruct (seen_agg i w e Hi E He) as (x & A1 & A2 & Ag & F). destruct (Hg _ _ Ag) as ((v & Hv & Ev) & _). split.
    + exists x, v. split; [now apply in_at_epoch|]. split; [exact A1|exact Ev].
    + intros y (x' & v' & Hv' & Hx' & ->). apply in_at_epoch in Hv'. destruct (agg_seen i w x' Hi E Hx') as (e' & He' & Ag').
      { apply nonempty_in. now exists v'. }
      specialize (B (g e') ltac:(now exists e')). destruct (Hg _ _ Ag') as (_ & M). specialize (M (f v') ltac:(now exists v')). lia.
  - right. split; [exact Er|]. intros y (x' & v' & Hv' & Hx' & ->). apply in_at_epoch in Hv'. destruct (agg_seen i w x' Hi E Hx') as (e' & He' & Ag').
    { apply nonempty_in. now exists v'. }
    apply (B (g e')). now exists e'.
Qed.
Lemma from_bottoms (g : sentry -> Z) f i w r : 0 <= i <= sc_window c -> epochs_of c i w ->
  (forall l e, agg l e -> least (vals f l) (g e)) ->
  bottom (fun x => exists e, In e (seen c t i) /\ x = g e) r -> bottom (reported log last w f) r.
Proof.
  intros Hi E Hg [((e & He & ->) & B)|(Er & B)].
  - left. destruct (seen_agg i w e Hi E He) as (x & A1 & A2 & Ag & F). destruct (Hg _ _ Ag) as ((v & Hv & Ev) & _). split.
    + exists x, v. split; [now apply in_at_epoch|]. split; [exact A1|exact Ev].
    + intros y (x' & v' & Hv' & Hx' & ->). apply in_at_epoch in Hv'. destruct (agg_seen i w x' Hi E Hx') as (e' & He' & Ag').
      { apply nonempty_in. now exists v'. }
      specialize (B (g e') ltac:(now exists e')). destruct (Hg _ _ Ag') as (_ & M). specialize (M (f v') ltac:(now exists v')). lia.
  - right. split; [exact Er|]. intros y (x' & v' & Hv' & Hx' & ->). apply in_at_epoch in Hv'. destruct (agg_seen i w x' Hi E Hx') as (e' & He' & Ag').
    { apply nonempty_in. now exists v'. }
    apply (B (g e')). now exists e'.
Qed.

Lemma agg_bounds l e : agg l e -> Forall stats_ok l ->
  0 <= ss_num (se_min e) <= ss_num (se_max e) /\ ss_num (se_max e) < 2 ^ 62 /\ se_min_free e < len_max /\ se_min_backed e < len_max.
Proof.
  intros [A1 ((v1 & H1 & E1) & M1) ((v2 & H2 & E2) & M2) ((v3 & H3 & E3) & M3) ((v4 & H4 & E4) & M4)] F. rewrite Forall_forall in F.
  specialize (M1 (ss_num v2) ltac:(now exists v2)). destruct (F _ H1) as ((? & ?) & ? & ? & ?). destruct (F _ H2) as ((? & ?) & ? & ? & ?).
  destruct (F _ H3) as (? & ? & ? & ?). destruct (F _ H4) as (? & ? & ? & ?). lia.
Qed.

Lemma peak_spec i w : 0 <= i <= sc_window c -> epochs_of c i w -> top (reported log last w ss_num) (demand_peak c t i).
Proof.
  intros Hi E. unfold demand_peak. apply (from_tops (fun e => ss_num (se_max e)) ss_num i w _ Hi E); [intros l e A; apply (ag_max _ _ A)|].
  apply (fold_top (fun e => ss_num (se_max e))). intros e He. destruct (seen_agg i w e Hi E He) as (x & _ & _ & Ag & F). pose proof (agg_bounds _ _ Ag F). lia.
Qed.

Lemma agg_epoch x e : agg (at_epoch log x) e -> greatest (in_epoch log x) (ss_num (se_max e)) /\ least (in_epoch log x) (ss_num (se_min e)).
Proof.
  intros A. split; [eapply greatest_ext; [|exact (ag_max _ _ A)]|eapply least_ext; [|exact (ag_min _ _ A)]]; intros y; symmetry; apply in_epoch_vals.
Qed.
Lemma epoch_nonempty x hi : greatest (in_epoch log x) hi \/ least (in_epoch log x) hi -> at_epoch log x <> [].
Proof. intros [((v & Hv & _) & _)|((v & Hv & _) & _)]; apply in_at_epoch in Hv; apply nonempty_in; now exists v. Qed.

Lemma fluct_spec i w : 0 <= i <= sc_window c -> epochs_of c i w ->
  top (swing log last w) (fold_left (fun m e => let d := ss_num (se_max e) - ss_num (se_min e) in if m <? d then d else m) (seen c t i) 0).
Proof.
  intros Hi E. apply (top_ext (fun x => exists e, In e (seen c t i) /\ x = ss_num (se_max e) - ss_num (se_min e))).
  - intros y. split.
    + intros (e & He & ->). destruct (seen_agg i w e Hi E He) as (x & A1 & A2 & Ag & F). destruct (agg_epoch _ _ Ag). exists x, (ss_num (se_max e)), (ss_num (se_min e)). auto.
    + intros (x & hi & lo & A1 & A2 & A3 & ->). destruct (agg_seen i w x Hi E A1) as (e & He & Ag); [apply epoch_nonempty with hi; now left|].
      exists e. split; [exact He|]. destruct (agg_epoch _ _ Ag) as (B1 & B2). now rewrite (greatest_unique _ _ _ A2 B1), (least_unique _ _ _ A3 B2).
  - apply (fold_top (fun e => ss_num (se_max e) - ss_num (se_min e))). intros e He. destruct (seen_agg i w e Hi E He) as (x & _ & _ & Ag & F). pose proof (agg_bounds _ _ Ag F). lia.
Qed.
Lemma trend_spec i w : 0 <= i <= sc_window c -> epochs_of c i w ->
  top (floor_of log last w) (fold_left (fun m e => if m <? ss_num (se_min e) then ss_num (se_min e) else m) (seen c t i) 0).
Proof.
  intros Hi E. apply (top_ext (fun x => exists e, In e (seen c t i) /\ x = ss_num (se_min e))).
  - intros y. split.
    + intros (e & He & ->). destruct (seen_agg i w e Hi E He) as (x & A1 & A2 & Ag & F). destruct (agg_epoch _ _ Ag). exists x. auto.
    + intros (x & A1 & A2). destruct (agg_seen i w x Hi E A1) as (e & He & Ag); [apply epoch_nonempty with y; now right|].
      exists e. split; [exact He|]. destruct (agg_epoch _ _ Ag) as (B1 & B2). now rewrite (least_unique _ _ _ A2 B2).
  - apply (fold_top (fun e => ss_num (se_min e))). intros e He. destruct (seen_agg i w e Hi E He) as (x & _ & _ & Ag & F). pose proof (agg_bounds _ _ Ag F). lia.
Qed.
Lemma in_epoch_ok e x : in_epoch log e x -> 0 <= x < 2 ^ 62.
Proof. intros (v & Hv & ->). destruct (L _ _ Hv) as (A & _). exact A. Qed.
Lemma swing_ok w x : swing log last w x -> 0 <= x < 2 ^ 62.
Proof.
  intros (e & hi & lo & _ & (A1 & A2) & (B1 & B2) & ->). pose proof (in_epoch_ok _ _ A1). pose proof (in_epoch_ok _ _ B1). specialize (A2 _ B1). lia.
Qed.
Lemma floor_ok w x : floor_of log last w x -> 0 <= x < 2 ^ 62.
Proof. intros (e & _ & A & _). exact (in_epoch_ok _ _ A). Qed.
Lemma backed_spec i w : 0 <= i <= sc_window c -> epochs_of c i w ->
  bottom (reported log last w ss_free) (let b := fold_left (fun m e => Z.min m (se_min_backed e)) (seen c t i) len_max in if b =? len_max then 0 else b).
Proof.
  intros Hi E. apply (from_bottoms se_min_backed ss_free i w _ Hi E); [intros l e A; apply (ag_backed _ _ A)|].
  apply (fold_bottom se_min_backed). intros e He. destruct (seen_agg i w e Hi E He) as (x & _ & _ & Ag & F). pose proof (agg_bounds _ _ Ag F). lia.
Qed.
Lemma free_spec i w : 0 <= i <= sc_window c -> epochs_of c i w ->
  bottom (reported log last w (fun v => ss_free v + ss_unmapped v)) (let b := fold_left (fun m e => Z.min m (se_min_free e)) (seen c t i) len_max in if b =? len_max then 0 else b).
Proof.
  intros Hi E. apply (from_bottoms se_min_free (fun v => ss_free v + ss_unmapped v) i w _ Hi E); [intros l e A; apply (ag_free _ _ A)|].
  apply (fold_bottom se_min_free). intros e He. destruct (seen_agg i w e Hi E He) as (x & _ & _ & Ag & F). pose proof (agg_bounds _ _ Ag F). lia.
Qed.
End Stats.
