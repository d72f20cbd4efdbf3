(** C10: the set of free address ranges. *)
From Verif Require Import Base HugeAddressMap HugeAddressMapProofs.

(** ** Specification: a set of hugepages and its maximal runs *)
Definition in_range (r : hrange) (p : Z) : Prop := fst r <= p < fst r + snd r.
Definition covers (l : list hrange) (p : Z) : Prop := exists r, In r l /\ in_range r p.
Definition disjoint (a b : hrange) : Prop := forall p, ~ (in_range a p /\ in_range b p).
(** [r] is a maximal run of the set [S]. *)
Definition maximal_run (S : Z -> Prop) (r : hrange) : Prop :=
  1 <= snd r /\ (forall p, in_range r p -> S p) /\ ~ S (fst r - 1) /\ ~ S (fst r + snd r).
Definition sum_len (l : list hrange) : Z := fold_right (fun r n => snd r + n) 0 l.

(** ** Invariant *)
Record ham_ok (m : ham) : Prop := {
  h_gaps : gaps (-1) (ranges (ham_root m));
  h_shape : shape (ham_root m);
  h_used : used_nodes m = Z.of_nat (length (ranges (ham_root m)));
  h_total : total_size m = sum_len (ranges (ham_root m));
  h_nodes : total_nodes m = used_nodes m + freelist_size m;
  h_free : 0 <= freelist_size m
}.

Lemma sum_len_app a b : sum_len (a ++ b) = sum_len a + sum_len b.
Proof. induction a as [|x a IH]; cbn [app sum_len fold_right]; [reflexivity|]. change (fold_right _ 0 (a ++ b)) with (sum_len (a ++ b)).
  change (fold_right _ 0 a) with (sum_len a). lia. Qed.
Lemma sum_len_cons x a : sum_len (x :: a) = snd x + sum_len a.
Proof. reflexivity. Qed.

Lemma covers_app a b p : covers (a ++ b) p <-> covers a p \/ covers b p.
Proof.
  unfold covers. split.
  - intros (r & H & Hp). apply in_app_or in H. destruct H; [left|right]; eauto.
  - intros [(r & H & Hp)|(r & H & Hp)]; exists r; split; auto using in_or_app.
Qed.
Lemma covers_cons x a p : covers (x :: a) p <-> in_range x p \/ covers a p.
Proof.
  unfold covers. split.
  - intros (r & [<-|H] & Hp); eauto.
  - intros [H|(r & H & Hp)]; [exists x|exists r]; cbn; auto.
Qed.
Lemma covers_nil p : covers [] p <-> False.
Proof. unfold covers. split; [intros (r & [] & _)|tauto]. Qed.

Lemma disjoint_iff a b : 1 <= snd a -> 1 <= snd b -> (disjoint a b <-> fst a + snd a <= fst b \/ fst b + snd b <= fst a).
Proof.
  intros Ha Hb. unfold disjoint, in_range. split.
  - intros H. destruct (Z.lt_ge_cases (fst a) (fst b)); [left|right].
    + destruct (Z.le_gt_cases (fst a + snd a) (fst b)); [assumption|exfalso; apply (H (fst b)); lia].
    + destruct (Z.le_gt_cases (fst b + snd b) (fst a)); [assumption|exfalso; apply (H (fst a)); lia].
  - intros H p. lia.
Qed.

Lemma gaps_split lo l s : gaps lo l -> l = upto s l ++ after s l.
Proof.
  revert lo. induction l as [|x l IH]; intros lo G; [reflexivity|]. cbn [gaps] in G. destruct G as (A & B & C).
  unfold upto, after in *. cbn [filter]. destruct (Z.leb_spec (fst x) s).
  - replace (s <? fst x) with false by lia. cbn [app]. f_equal. apply (IH _ C).
  - replace (s <? fst x) with true by lia.
    rewrite filter_none by (intros y Hy; destruct (gaps_In _ _ _ C Hy); lia).
    rewrite filter_all by (intros y Hy; destruct (gaps_In _ _ _ C Hy); lia). reflexivity.
Qed.

Lemma gaps_mid lo a x b : gaps lo (a ++ x :: b) ->
  gaps lo a /\ endof lo a < fst x /\ 1 <= snd x /\ gaps (fst x + snd x) b /\
  (forall y, In y a -> lo < fst y /\ fst y + snd y < fst x /\ fst y < fst x /\ 1 <= snd y) /\ (forall y, In y b -> fst x + snd x < fst y /\ 1 <= snd y).
Proof.
  rewrite gaps_app. cbn [gaps]. intros (A & B & C & D). repeat split; try assumption.
  all: try (destruct (gaps_In _ _ _ A H); lia). all: destruct (gaps_In _ _ _ D H); lia.
Qed.

Lemma replace_mid lo a x b v : gaps lo (a ++ x :: b) -> replace_at (fst x) v (a ++ x :: b) = a ++ v :: b.
Proof.
  intros G. apply gaps_mid in G. destruct G as (_ & _ & Hx & _ & A & B). unfold replace_at. rewrite map_app. cbn [map]. rewrite Z.eqb_refl.
  fold (replace_at (fst x) v a). fold (replace_at (fst x) v b).
  rewrite !replace_none; [reflexivity| |]; intros y Hy; [apply B in Hy|apply A in Hy]; lia.
Qed.
Lemma delete_mid lo a x b : gaps lo (a ++ x :: b) -> delete_at (fst x) (a ++ x :: b) = a ++ b.
Proof.
  intros G. apply gaps_mid in G. destruct G as (_ & _ & Hx & _ & A & B). unfold delete_at. rewrite filter_app. cbn [filter]. rewrite Z.eqb_refl.
  cbn [negb]. fold (delete_at (fst x) a). fold (delete_at (fst x) b).
  rewrite !delete_none; [reflexivity| |]; intros y Hy; [apply B in Hy|apply A in Hy]; lia.
Qed.
Lemma after_mid lo a x b : gaps lo (a ++ x :: b) -> after (fst x) (a ++ x :: b) = b.
Proof.
  intros G. apply gaps_mid in G. destruct G as (_ & _ & Hx & _ & A & B). unfold after. rewrite filter_app. cbn [filter].
  replace (fst x <? fst x) with false by lia. rewrite filter_none by (intros y Hy; apply A in Hy; lia).
  apply filter_all. intros y Hy. apply B in Hy. lia.
Qed.

(** Around the insertion point. *)
Lemma neighbours m s : ham_ok m -> exists b a, ranges (ham_root m) = b ++ a /\
  (forall x, In x b -> fst x <= s) /\ (forall y, In y a -> s < fst y) /\
  tpred (ham_root m) s = last_or b None /\
  match tpred (ham_root m) s with Some x => tnext (ham_root m) (fst x) | None => tfirst (ham_root m) end = hd_or a None.
Proof.
  intros [G _ _ _ _ _]. exists (upto s (ranges (ham_root m))), (after s (ranges (ham_root m))).
  pose proof (gaps_split _ _ s G) as E. split; [exact E|]. split; [intros x Hx; apply filter_In in Hx; lia|].
  split; [intros x Hx; apply filter_In in Hx; lia|]. unfold tpred. rewrite (tpred_spec _ (-1)) by assumption. split; [reflexivity|].
  set (b := upto s _) in *. set (a := after s _) in *. unfold last_or. destruct (rev b) as [|x b'] eqn:Eb; cbn [hd_or].
  - apply (f_equal (@rev hrange)) in Eb. rewrite rev_involutive in Eb. cbn [rev] in Eb. rewrite tfirst_spec, E, Eb. destruct a; reflexivity.
  - apply (f_equal (@rev hrange)) in Eb. rewrite rev_involutive in Eb. cbn [rev] in Eb.
    assert (E' : ranges (ham_root m) = rev b' ++ x :: a) by (rewrite E, Eb, <- app_assoc; reflexivity).
    unfold tnext. rewrite (tnext_spec _ (-1)) by (auto; rewrite E', map_app; apply in_or_app; right; left; reflexivity).
    rewrite E'. rewrite (after_mid (-1)) by (rewrite <- E'; assumption). reflexivity.
Qed.

Lemma last_or_case (b : list hrange) : (b = [] /\ last_or b None = None) \/ exists b' x, b = b' ++ [x] /\ last_or b None = Some x.
Proof.
  unfold last_or. destruct (rev b) as [|x b'] eqn:E; apply (f_equal (@rev hrange)) in E; rewrite rev_involutive in E; cbn [rev] in E; subst b.
  - left. auto.
  - right. exists (rev b'), x. auto.
Qed.

Lemma node_get_ok m : node_get m = MkHam (ham_root m) (used_nodes m + 1) (total_size m) (freelist_size (node_get m)) (total_nodes (node_get m)) /\
  total_nodes (node_get m) - freelist_size (node_get m) = total_nodes m - freelist_size m + 1 /\ (0 <= freelist_size m -> 0 <= freelist_size (node_get m)).
Proof. unfold node_get. destruct (Z.eqb_spec (freelist_size m) 0); cbn; (split; [reflexivity|]); lia. Qed.

Ltac hred := unfold ham_remove, node_put, set_root, add_size; cbn [ham_root total_size used_nodes freelist_size total_nodes fst snd].
Ltac zlen := rewrite ?app_length; cbn [length]; lia.

(** Insertion: total, exact on the contents, keeps the invariant; and refuses exactly an
    overlapping range. *)
Lemma insert_spec m r prio : ham_ok m -> 0 <= fst r -> 1 <= snd r ->
  match ham_insert m r prio with
  | Some m' => ham_ok m' /\ (forall x, In x (ranges (ham_root m)) -> disjoint x r) /\
      (forall p, covers (ranges (ham_root m')) p <-> covers (ranges (ham_root m)) p \/ in_range r p)
  | None => exists x, In x (ranges (ham_root m)) /\ ~ disjoint x r
  end.
Proof.
  intros H Hr0 Hr1. destruct (neighbours m (fst r) H) as (b & a & E & Hb & Ha & Ep & En).
  pose proof H as H0. destruct H0 as [G Sh Hu Ht Hn Hf]. rewrite E in G.
  assert (Gb : gaps (-1) b /\ gaps (endof (-1) b) a) by (apply gaps_app; assumption).
  assert (Pos : forall x, In x (b ++ a) -> -1 < fst x /\ 1 <= snd x) by (intros x Hx; destruct (gaps_In _ _ _ G Hx); lia).
  unfold ham_insert. cbn [add_size ham_root]. rewrite En, Ep.
  destruct (opt_test (last_or b None) (fun x => hr_intersects x r)) eqn:T1.
  { destruct (last_or_case b) as [(-> & El)|(b' & x & -> & El)]; rewrite El in T1; cbn [opt_test] in T1; [discriminate|].
    exists x. assert (In x (b' ++ [x])) by (apply in_or_app; right; left; reflexivity).
    split; [rewrite E; apply in_or_app; auto|]. assert (Hx : 1 <= snd x) by (apply Pos; apply in_or_app; auto).
    rewrite disjoint_iff by assumption. unfold hr_intersects, hr_contains in T1. lia. }
  destruct (opt_test (hd_or a None) (fun x => hr_intersects x r)) eqn:T2.
  { destruct a as [|y a']; cbn [hd_or opt_test] in T2; [discriminate|]. exists y.
    split; [rewrite E; apply in_or_app; right; left; reflexivity|]. assert (Hx : 1 <= snd y) by (apply Pos; apply in_or_app; right; left; reflexivity).
    rewrite disjoint_iff by assumption. unfold hr_intersects, hr_contains in T2. lia. }
  (* the range fits strictly between its neighbours *)
  assert (Be : endof (-1) b <= fst r).
  { destruct (last_or_case b) as [(-> & El)|(b' & x & -> & El)]; [cbn; lia|]. rewrite El in T1. cbn [opt_test] in T1.
    rewrite endof_app. cbn [endof]. assert (In x (b' ++ [x])) by (apply in_or_app; right; left; reflexivity). specialize (Hb x H0).
    assert (1 <= snd x) by (apply Pos; apply in_or_app; auto). unfold hr_intersects, hr_contains in T1. lia. }
  assert (Ae : forall y, In y a -> fst r + snd r <= fst y).
  { intros y Hy. destruct a as [|y0 a']; [destruct Hy|]. cbn [hd_or opt_test] in T2.
    assert (fst r + snd r <= fst y0). { specialize (Ha y0 (or_introl eq_refl)). unfold hr_intersects, hr_contains in T2. lia. }
    destruct Hy as [<-|Hy]; [assumption|]. destruct Gb as (_ & (_ & G1 & G2)). destruct (gaps_In _ _ _ G2 Hy). lia. }
  assert (Dj : forall x, In x (ranges (ham_root m)) -> disjoint x r).
  { intros x Hx. rewrite E in Hx. apply disjoint_iff; [apply Pos; assumption|assumption|]. apply in_app_or in Hx. destruct Hx as [Hx|Hx].
    - left. destruct (gaps_In _ _ _ (proj1 Gb) Hx). lia.
    - right. apply Ae. assumption. }
  destruct (opt_test (last_or b None) (fun x => hr_precedes x r)) eqn:P1.
  - destruct (last_or_case b) as [(-> & El)|(b' & x & -> & El)]; rewrite El in P1 |- *; cbn [opt_test] in P1; [discriminate|].
    unfold hr_precedes in P1. assert (Px : fst x + snd x = fst r) by lia.
    rewrite <- app_assoc in E, G. cbn [app] in E, G. destruct (gaps_mid _ _ _ _ G) as (G1 & G2 & G3 & G4 & G5 & G6).
    destruct (opt_test (hd_or a None) (fun y => hr_precedes r y)) eqn:P2.
    + destruct a as [|y a']; cbn [hd_or opt_test] in P2 |- *; [discriminate|]. unfold hr_precedes in P2. assert (Py : fst r + snd r = fst y) by lia.
      unfold merge_ranges, hr_join, hr_precedes. rewrite Py, Z.eqb_refl. cbn [obind fst snd]. rewrite Px, Z.eqb_refl. cbn [obind].
      hred.
      assert (Ey : ranges (ham_root m) = (b' ++ [x]) ++ y :: a') by (rewrite E, <- app_assoc; reflexivity).
      destruct (remove_node_spec (ham_root m) (-1) (fst y)) as (R1 & R2 & R3 & R4); [rewrite E; assumption|assumption|].
      rewrite Ey in R1. rewrite (delete_mid (-1)) in R1 by (rewrite <- app_assoc; exact G). rewrite <- app_assoc in R1. cbn [app] in R1.
      cbn [gaps] in G4. destruct G4 as (G7 & G8 & G9).
      assert (GR : gaps (-1) (b' ++ x :: a')).
      { apply gaps_app. split; [assumption|]. cbn [gaps]. split; [assumption|]. split; [assumption|]. apply (gaps_le _ _ _ G9). lia. }
      assert (RR : ranges (set_range (fst (remove_node (ham_root m) (fst y))) (fst x) (fst x, snd x + (snd r + snd y))) = b' ++ (fst x, snd x + (snd r + snd y)) :: a').
      { rewrite (set_range_ranges _ (-1)) by (rewrite R1; assumption). rewrite R1. apply (replace_mid (-1)). assumption. }
      split; [|split; [assumption|]].
      * constructor; cbn [ham_root total_size used_nodes freelist_size total_nodes]; rewrite ?RR.
        -- apply gaps_app. cbn [gaps fst snd]. split; [assumption|]. split; [assumption|]. split; [lia|]. apply (gaps_le _ _ _ G9). lia.
        -- apply set_range_shape. assumption.
        -- rewrite Hu, E. zlen.
        -- rewrite Ht, E, !sum_len_app, !sum_len_cons. cbn [snd]. lia.
        -- lia.
        -- lia.
      * cbn [ham_root]. intros p. rewrite RR, E, !covers_app, !covers_cons. unfold in_range. cbn [fst snd]. intuition lia.
    + unfold merge_ranges, hr_join, hr_precedes. rewrite Px, Z.eqb_refl. cbn [obind]. hred.
      assert (RR : ranges (set_range (ham_root m) (fst x) (fst x, snd x + snd r)) = b' ++ (fst x, snd x + snd r) :: a).
      { rewrite (set_range_ranges _ (-1)) by (rewrite E; assumption). rewrite E. apply (replace_mid (-1)). assumption. }
      split; [|split; [assumption|]].
      * constructor; cbn [ham_root total_size used_nodes freelist_size total_nodes]; rewrite ?RR.
        -- apply gaps_app. cbn [gaps fst snd]. split; [assumption|]. split; [assumption|]. split; [lia|].
           destruct a as [|y a']; [exact I|]. cbn [gaps] in G4 |- *. cbn [hd_or opt_test] in P2. unfold hr_precedes in P2.
           specialize (Ae y (or_introl eq_refl)). split; [lia|tauto].
        -- apply set_range_shape. assumption.
        -- rewrite Hu, E. zlen.
        -- rewrite Ht, E, !sum_len_app, !sum_len_cons. cbn [snd]. lia.
        -- lia.
        -- lia.
      * cbn [ham_root]. intros p. rewrite RR, E, !covers_app, !covers_cons. unfold in_range. cbn [fst snd]. intuition lia.
  - destruct (opt_test (hd_or a None) (fun y => hr_precedes r y)) eqn:P2.
    + destruct a as [|y a']; cbn [hd_or opt_test] in P2 |- *; [discriminate|]. unfold hr_precedes in P2. assert (Py : fst r + snd r = fst y) by lia.
      unfold merge_ranges, hr_join, hr_precedes. rewrite Py, Z.eqb_refl. cbn [obind]. hred.
      destruct (gaps_mid _ _ _ _ G) as (G1 & G2 & G3 & G4 & G5 & G6).
      assert (RR : ranges (set_range (ham_root m) (fst y) (fst r, snd r + snd y)) = b ++ (fst r, snd r + snd y) :: a').
      { rewrite (set_range_ranges _ (-1)) by (rewrite E; assumption). rewrite E. apply (replace_mid (-1)). assumption. }
      assert (Be' : endof (-1) b < fst r).
      { destruct (last_or_case b) as [(-> & El)|(b' & x & -> & El)]; [cbn; lia|]. rewrite El in P1. cbn [opt_test] in P1. unfold hr_precedes in P1.
        rewrite endof_app in Be |- *. cbn [endof] in *. lia. }
      split; [|split; [assumption|]].
      * constructor; cbn [ham_root total_size used_nodes freelist_size total_nodes]; rewrite ?RR.
        -- apply gaps_app. cbn [gaps fst snd]. split; [assumption|]. split; [assumption|]. split; [lia|]. apply (gaps_le _ _ _ G4). lia.
        -- apply set_range_shape. assumption.
        -- rewrite Hu, E. zlen.
        -- rewrite Ht, E, !sum_len_app, !sum_len_cons. cbn [snd]. lia.
        -- lia.
        -- lia.
      * cbn [ham_root]. intros p. rewrite RR, E, !covers_app, !covers_cons. unfold in_range. cbn [fst snd]. intuition lia.
    + destruct (node_get_ok (MkHam (ham_root m) (used_nodes m) (total_size m + snd r) (freelist_size m) (total_nodes m))) as (N1 & N2 & N3).
      cbn [ham_root total_size used_nodes freelist_size total_nodes] in N1, N2, N3. unfold add_size, set_root. rewrite N1. cbn [ham_root total_size used_nodes freelist_size total_nodes].
      destruct (insert_node_spec (ham_root m) (-1) r prio) as (R1 & R2 & _); [rewrite E; assumption|assumption|lia|].
      assert (Be' : endof (-1) b < fst r).
      { destruct (last_or_case b) as [(-> & El)|(b' & x & -> & El)]; [cbn; lia|]. rewrite El in P1. cbn [opt_test] in P1. unfold hr_precedes in P1.
        rewrite endof_app in Be |- *. cbn [endof] in *. lia. }
      assert (RR : ranges (fst (insert_node (ham_root m) r prio)) = b ++ r :: a).
      { rewrite R1, E. unfold below, above. rewrite !filter_app.
        rewrite (filter_all _ b) by (intros x Hx; destruct (gaps_In _ _ _ (proj1 Gb) Hx); lia).
        rewrite (filter_none _ b) by (intros x Hx; destruct (gaps_In _ _ _ (proj1 Gb) Hx); lia).
        rewrite (filter_none _ a) by (intros x Hx; apply Ha in Hx; lia). rewrite (filter_all _ a) by (intros x Hx; apply Ha in Hx; lia).
        rewrite app_nil_r. reflexivity. }
      split; [|split; [assumption|]].
      * constructor; cbn [ham_root total_size used_nodes freelist_size total_nodes]; rewrite ?RR.
        -- apply gaps_app. cbn [gaps fst snd]. split; [apply Gb|]. split; [assumption|]. split; [lia|].
           destruct a as [|y a']; [exact I|]. destruct Gb as (_ & (_ & G8)). cbn [gaps]. cbn [hd_or opt_test] in P2. unfold hr_precedes in P2.
           specialize (Ae y (or_introl eq_refl)). split; [lia|tauto].
        -- assumption.
        -- rewrite Hu, E. zlen.
        -- rewrite Ht, E, !sum_len_app, !sum_len_cons. lia.
        -- lia.
        -- apply N3. lia.
      * cbn [ham_root]. intros p. rewrite RR, E, !covers_app, !covers_cons. intuition lia.
Qed.

Lemma remove_spec m x : ham_ok m -> In x (ranges (ham_root m)) ->
  ham_ok (ham_remove m x) /\ (exists a b, ranges (ham_root m) = a ++ x :: b /\ ranges (ham_root (ham_remove m x)) = a ++ b) /\
  (forall p, covers (ranges (ham_root (ham_remove m x))) p <-> covers (ranges (ham_root m)) p /\ ~ in_range x p).
Proof.
  intros [G Sh Hu Ht Hn Hf] Hx. apply in_split in Hx. destruct Hx as (a & b & E). rewrite E in G.
  destruct (remove_node_spec (ham_root m) (-1) (fst x)) as (R1 & R2 & R3 & R4); [rewrite E; assumption|assumption|].
  rewrite E in R1. rewrite (delete_mid (-1)) in R1 by assumption. destruct (gaps_mid _ _ _ _ G) as (G1 & G2 & G3 & G4 & G5 & G6).
  hred. split; [|split].
  - constructor; cbn [ham_root total_size used_nodes freelist_size total_nodes]; rewrite ?R1.
    + apply gaps_app. split; [assumption|]. apply (gaps_le _ _ _ G4). lia.
    + assumption.
    + rewrite Hu, E. zlen.
    + rewrite Ht, E, !sum_len_app, !sum_len_cons. lia.
    + lia.
    + lia.
  - exists a, b. auto.
  - intros p. rewrite R1, E, !covers_app, !covers_cons. split; [|tauto]. intros H. split; [tauto|]. intros Hp. unfold in_range in Hp. destruct H as [(y & Hy & Hq)|(y & Hy & Hq)]; unfold in_range in Hq.
    + apply G5 in Hy. lia.
    + apply G6 in Hy. lia.
Qed.

(** ** Histories: insertions of free ranges and removals of stored ones, with arbitrary
    node priorities; [S] is the set of free hugepages. *)
Inductive reach_ham : ham -> (Z -> Prop) -> Prop :=
| rh_init : reach_ham ham_init (fun _ => False)
| rh_insert m S r prio m' : reach_ham m S -> 0 <= fst r -> 1 <= snd r -> ham_insert m r prio = Some m' ->
    reach_ham m' (fun p => S p \/ in_range r p)
| rh_remove m S x : reach_ham m S -> In x (ranges (ham_root m)) ->
    reach_ham (ham_remove m x) (fun p => S p /\ ~ in_range x p).

Lemma reach_ham_ok m S : reach_ham m S -> ham_ok m /\ (forall p, covers (ranges (ham_root m)) p <-> S p).
Proof.
  induction 1 as [|m S r prio m' H (IH & IC) Hr0 Hr1 E|m S x H (IH & IC) Hx].
  - split; [constructor; cbn; auto; lia|]. intros p. apply covers_nil.
  - pose proof (insert_spec m r prio IH Hr0 Hr1) as Hs. rewrite E in Hs. destruct Hs as (A & B & C). split; [assumption|]. intros p. rewrite C, IC. tauto.
  - destruct (remove_spec m x IH Hx) as (A & B & C). split; [assumption|]. intros p. rewrite C, IC. tauto.
Qed.

Lemma gaps_far lo l r y : gaps lo l -> In r l -> In y l -> y = r \/ fst y + snd y < fst r \/ fst r + snd r < fst y.
Proof.
  revert lo. induction l as [|x l IH]; intros lo G Hr Hy; [destruct Hr|]. cbn [gaps] in G. destruct G as (A & B & C).
  destruct Hr as [->|Hr], Hy as [->|Hy]; [auto| | |apply (IH _ C); assumption].
  - destruct (gaps_In _ _ _ C Hy). lia.
  - destruct (gaps_In _ _ _ C Hr). lia.
Qed.

Lemma gaps_runs lo l r : gaps lo l -> (In r l <-> maximal_run (covers l) r).
Proof.
  intros G. split.
  - intros Hr. destruct (gaps_In _ _ _ G Hr) as (A & B & _). split; [assumption|]. split; [intros p Hp; exists r; auto|].
    split; intros (y & Hy & Hp); unfold in_range in Hp; destruct (gaps_In _ _ _ G Hy) as (C & D & _);
      destruct (gaps_far _ _ _ _ G Hr Hy) as [->|Hf]; lia.
  - intros (A & B & C & D). destruct (B (fst r)) as (y & Hy & Hp); [unfold in_range; lia|]. unfold in_range in Hp.
    destruct (gaps_In _ _ _ G Hy) as (P & Q & _).
    assert (E1 : fst y = fst r). { destruct (Z.eq_dec (fst y) (fst r)); [assumption|exfalso]. apply C. exists y. unfold in_range. split; [assumption|lia]. }
    assert (E2 : snd y = snd r).
    { destruct (Z.lt_total (snd y) (snd r)) as [H|[H|H]]; [exfalso|assumption|exfalso].
      - destruct (B (fst y + snd y)) as (z & Hz & Hq); [unfold in_range; lia|]. unfold in_range in Hq.
        destruct (gaps_far _ _ _ _ G Hy Hz) as [->|Hf]; lia.
      - apply D. exists y. unfold in_range. split; [assumption|lia]. }
    destruct y, r; cbn [fst snd] in *; subst; assumption.
Qed.

Lemma gaps_NoDup lo l : gaps lo l -> NoDup l.
Proof.
  revert lo. induction l as [|x l IH]; intros lo G; [constructor|]. cbn [gaps] in G. destruct G as (A & B & C).
  constructor; [|apply (IH _ C)]. intros Hx. destruct (gaps_In _ _ _ C Hx). lia.
Qed.

Lemma maxlen_In l r : In r l -> snd r <= maxlen l.
Proof.
  induction l as [|x l IH]; intros H; [destruct H|]. rewrite maxlen_cons. destruct H as [->|H]; [lia|]. specialize (IH H). lia.
Qed.
Lemma maxlen_ex lo l : gaps lo l -> l <> [] -> exists r, In r l /\ snd r = maxlen l.
Proof.
  revert lo. induction l as [|x l IH]; intros lo G H; [congruence|]. cbn [gaps] in G. destruct G as (A & B & C). rewrite maxlen_cons.
  destruct (Z.le_gt_cases (maxlen l) (snd x)).
  - exists x. split; [left; reflexivity|lia].
  - destruct l as [|y l]; [cbn in *; lia|]. destruct (IH _ C ltac:(discriminate)) as (r & Hr & E). exists r. split; [right; assumption|lia].
Qed.

Lemma check_node_spec t : forall lo, gaps lo (ranges t) -> shape t ->
  check_node t = (true, Z.of_nat (length (ranges t)), sum_len (ranges t)).
Proof.
  induction t as [|l IHl x p lg r IHr]; intros lo G Sh; [reflexivity|]. cbn [ranges] in G.
  destruct (gaps_node _ _ _ _ G) as (Gl & Gr & A & B & C & D & E). cbn [shape] in Sh. destruct Sh as (S1 & S2 & S3 & S4 & S5).
  cbn [check_node ranges]. rewrite (IHl lo), (IHr (fst x + snd x)) by assumption. rewrite sum_len_app, sum_len_cons.
  assert (HL : 0 <= longest l) by (rewrite shape_longest by assumption; apply maxlen_nonneg).
  f_equal; [f_equal|].
  - cbn [andb]. apply andb_true_intro. split; [apply andb_true_intro; split|].
    + destruct l as [|ll lx lp llg lr]; [reflexivity|]. cbn [prio_le ranges] in S4, D.
      destruct (D lx) as (D1 & _ & _ & D4); [apply in_or_app; right; left; reflexivity|]. lia.
    + destruct r as [|rl rx rp rlg rr]; [reflexivity|]. cbn [prio_le ranges] in S5, E.
      destruct (E rx) as (E1 & E2); [apply in_or_app; right; left; reflexivity|]. lia.
    + destruct (Z.ltb_spec (snd x) (longest l)); [destruct (Z.ltb_spec (longest l) (longest r))|destruct (Z.ltb_spec (snd x) (longest r))]; lia.
  - zlen.
  - lia.
Qed.

(** The stored ranges are exactly the maximal runs of the set of free hugepages, each
    once; the counters are exact; the length of the longest run is known; the
    built-in consistency check passes. *)
Theorem address_map_exact : forall m S, reach_ham m S ->
  (forall p, S p <-> covers (ranges (ham_root m)) p) /\
  (forall r, In r (ranges (ham_root m)) <-> maximal_run S r) /\
  NoDup (ranges (ham_root m)) /\
  total_size m = sum_len (ranges (ham_root m)) /\
  used_nodes m = Z.of_nat (length (ranges (ham_root m))) /\
  (forall r, In r (ranges (ham_root m)) -> snd r <= longest (ham_root m)) /\
  (ranges (ham_root m) <> [] -> exists r, In r (ranges (ham_root m)) /\ snd r = longest (ham_root m)) /\
  ham_check m = true.
Proof.
  intros m S H. apply reach_ham_ok in H. destruct H as ([G Sh Hu Ht Hn Hf] & HC).
  split; [intros p; symmetry; apply HC|]. split.
  { intros r. rewrite (gaps_runs (-1)) by assumption. unfold maximal_run. rewrite !HC.
    split; intros (A & B & C & D); repeat split; auto; intros p Hp; apply HC; auto. }
  split; [apply (gaps_NoDup (-1)); assumption|]. split; [assumption|]. split; [assumption|].
  split; [intros r Hr; rewrite shape_longest by assumption; apply maxlen_In; assumption|].
  split; [intros Hne; rewrite shape_longest by assumption; apply (maxlen_ex (-1)); assumption|].
  unfold ham_check. rewrite (check_node_spec _ (-1)) by assumption. rewrite Hu, Ht, Hn. cbn [andb]. lia.
Qed.
Print Assumptions address_map_exact.

(** Insertion accepts exactly the ranges that are disjoint from the free set. *)
Theorem address_map_insert : forall m S r prio, reach_ham m S -> 0 <= fst r -> 1 <= snd r ->
  ((exists m', ham_insert m r prio = Some m') <-> (forall p, in_range r p -> ~ S p)).
Proof.
  intros m S r prio H Hr0 Hr1. apply reach_ham_ok in H. destruct H as (H & HC).
  pose proof (insert_spec m r prio H Hr0 Hr1) as Hs. destruct (ham_insert m r prio) as [m'|].
  - destruct Hs as (_ & D & _). split; [|eauto]. intros _ p Hp Hq. apply HC in Hq. destruct Hq as (x & Hx & Hq). apply (D x Hx p). auto.
  - destruct Hs as (x & Hx & D). split; [intros (m' & E); discriminate|]. intros HS. exfalso. apply D. intros p (Hp & Hq).
    apply (HS p Hq). apply HC. exists x. auto.
Qed.
Print Assumptions address_map_insert.

(** Look-up: the run containing the hugepage or the last one before it. *)
Theorem address_map_predecessor : forall m S p, reach_ham m S ->
  match tpred (ham_root m) p with
  | Some r => In r (ranges (ham_root m)) /\ fst r <= p /\ (forall x, In x (ranges (ham_root m)) -> fst x <= p -> fst x <= fst r) /\
      (S p <-> in_range r p)
  | None => forall q, q <= p -> ~ S q
  end.
Proof.
  intros m S p H. apply reach_ham_ok in H. destruct H as (H & HC). destruct (neighbours m p H) as (b & a & E & Hb & Ha & Ep & _).
  destruct H as [G Sh Hu Ht Hn Hf]. rewrite Ep. rewrite E in G, HC |- *. destruct (last_or_case b) as [(-> & El)|(b' & x & -> & El)]; rewrite El.
  - intros q Hq Hs. apply HC in Hs. destruct Hs as (y & Hy & Hp). cbn [app] in Hy. apply Ha in Hy. unfold in_range in Hp. lia.
  - assert (Hin : In x ((b' ++ [x]) ++ a)) by (apply in_or_app; left; apply in_or_app; right; left; reflexivity).
    split; [assumption|]. split; [apply Hb; apply in_or_app; right; left; reflexivity|]. split.
    + intros y Hy Hle. destruct (gaps_far _ _ _ _ G Hin Hy) as [->|[Hf1|Hf1]]; [lia|destruct (gaps_In _ _ _ G Hy); lia|].
      apply in_app_or in Hy. destruct Hy as [Hy|Hy]; [|apply Ha in Hy; lia].
      rewrite <- app_assoc in G. cbn [app] in G. destruct (gaps_mid _ _ _ _ G) as (_ & _ & _ & _ & G5 & _).
      apply in_app_or in Hy. destruct Hy as [Hy|[<-|[]]]; [apply G5 in Hy; lia|lia].
    + rewrite <- HC. split; [|intros Hp; exists x; auto]. intros (y & Hy & Hp). unfold in_range in *.
      apply in_app_or in Hy. destruct Hy as [Hy|Hy]; [|apply Ha in Hy; lia].
      rewrite <- app_assoc in G. cbn [app] in G. destruct (gaps_mid _ _ _ _ G) as (_ & _ & _ & _ & G5 & _).
      apply in_app_or in Hy. destruct Hy as [Hy|[<-|[]]]; [|assumption]. apply G5 in Hy.
      specialize (Hb x). assert (fst x <= p) by (apply Hb; apply in_or_app; right; left; reflexivity). lia.
Qed.
Print Assumptions address_map_predecessor.

(** A history with all four ways of inserting (new node above and below, merge with either
    or both neighbours) and a removal. *)
Example address_map_history : exists m, (exists S, reach_ham m S) /\
  ranges (ham_root m) = [(2, 3); (10, 12); (40, 1)] /\ longest (ham_root m) = 12 /\ total_size m = 16 /\ freelist_size m = 2.
Proof.
  pose (step := fun o r p => match o with Some m => ham_insert m r p | None => None end).
  pose (m6 := fold_left (fun o x => step o (fst x) (snd x)) [((10, 5), 7); ((20, 2), 3); ((40, 1), 9); ((3, 2), 8); ((30, 4), 20); ((15, 5), 0); ((2, 1), 1)] (Some ham_init)).
  assert (E : exists m, m6 = Some m /\ In (30, 4) (ranges (ham_root m)) /\ ranges (ham_root (ham_remove m (30, 4))) = [(2, 3); (10, 12); (40, 1)] /\
    longest (ham_root (ham_remove m (30, 4))) = 12 /\ total_size (ham_remove m (30, 4)) = 16 /\ freelist_size (ham_remove m (30, 4)) = 2).
  { eexists. split; [vm_compute; reflexivity|]. split; [right; right; left; reflexivity|]. vm_compute. repeat split. }
  assert (R : forall l m, Forall (fun x => 0 <= fst (fst x) /\ 1 <= snd (fst x)) l -> (exists S, reach_ham m S) ->
    forall m', fold_left (fun o x => step o (fst x) (snd x)) l (Some m) = Some m' -> exists S, reach_ham m' S).
  { induction l as [|x l IH]; intros m HF (S & HS) m'; cbn [fold_left]; [intros [= <-]; eauto|].
    inversion HF as [|? ? H1 H2]; subst. unfold step at 2. destruct (ham_insert m (fst x) (snd x)) as [m1|] eqn:Ei.
    - apply IH; [assumption|]. eexists. apply (rh_insert m S (fst x) (snd x) m1 HS); tauto.
    - intros Hn. exfalso. clear - Hn. induction l as [|y l IH]; cbn in Hn; [discriminate|auto]. }
  destruct E as (m & E1 & E2 & E3). exists (ham_remove m (30, 4)).
  unfold m6 in E1. edestruct R as (S & HS); [| |exact E1|].
  { repeat constructor; cbn; lia. }
  { eexists. constructor. }
  split; [eexists; apply (rh_remove m S (30, 4) HS E2)|exact E3].
Qed.
