(** * The set of regions (C32)

    Specification.  As for one region: [live] lists the page runs held, in whatever region, and
    [un h] says that hugepage [h] has no memory behind it.  The regions of a set are the
    hugepages [loc, loc + K) of each of its members. *)
From Coq Require Import Permutation.
From Verif Require Import Base Bitmap BitmapProofs RangeTrackerProofs RangeTrackerProofs2 RangeTrackerProps HugeRegion HugeRegionProofs HugeRegionProofs2 HugeRegionProps.

(** The run starts in the region at [loc]. *)
Definition starts_in (P K loc : Z) (x : Z * Z) : bool := (loc * P <=? fst x) && (fst x <? (loc + K) * P).
(** The live runs of one region. *)
Definition runs_in (P K loc : Z) (live : list (Z * Z)) : list (Z * Z) := filter (starts_in P K loc) live.
Definition locs (s : region_set) : list Z := map rg_loc (rs_list s).

(** How many hugepages of the regions are idle: backed, and touched by no live run. *)
Definition set_idle (P K : Z) (ls : list Z) (live : list (Z * Z)) (un : Z -> bool) : Z :=
  zsum (map (fun l => hugepages_with (fun h => negb (un h) && negb (touched P live h)) l K) ls).

(** [lo] is the least number of idle hugepages since the last release. *)
Inductive rs_reach (P K : Z) : region_set -> list (Z * Z) -> (Z -> bool) -> Z -> Prop :=
| rsr_new more_often : rs_reach P K (rs_new more_often) [] (fun _ => true) 0
(* a new region, of hugepages without memory behind them *)
| rsr_contribute s live un lo loc un' : rs_reach P K s live un lo -> (forall l, In l (locs s) -> disj (loc, K) (l, K)) ->
    un' = (fun h => un h || in_run (loc, K) h) ->
    rs_reach P K (rs_contribute s (rg_new P K loc)) live un' (Z.min lo (set_idle P K (loc :: locs s) live un'))
| rsr_get s live un lo n s' p b un' : rs_reach P K s live un lo -> 0 < n -> rs_get P K s n = Some (s', Some (p, b)) ->
    un' = (fun h => un h && negb (touches P (p, n) h)) ->
    rs_reach P K s' ((p, n) :: live) un' (Z.min lo (set_idle P K (locs s) ((p, n) :: live) un'))
| rsr_put s l1 p n l2 un lo os s' calls un' : rs_reach P K s (l1 ++ (p, n) :: l2) un lo -> rs_put P K os s p n = Some (Some (s', calls)) ->
    un' = (fun h => un h || unbacked_by os calls h) ->
    rs_reach P K s' (l1 ++ l2) un' (Z.min lo (set_idle P K (locs s) (l1 ++ l2) un'))
| rsr_release s live un lo os desired adaptive hit_limit s' c calls un' : rs_reach P K s live un lo -> 0 <= desired ->
    rs_release P K os s desired adaptive hit_limit = Some (s', c, calls) ->
    un' = (fun h => un h || unbacked_by os calls h) ->
    rs_reach P K s' live un' (set_idle P K (locs s) live un').

(** ** The order of the regions *)

Definition le_longest (a b : region) : Prop := rg_longest a <= rg_longest b.

Lemma fop_app_iff {A} (R : A -> A -> Prop) l1 l2 : ForallOrdPairs R (l1 ++ l2) <->
  ForallOrdPairs R l1 /\ ForallOrdPairs R l2 /\ forall x y, In x l1 -> In y l2 -> R x y.
Proof.
  induction l1 as [|a l1 IH]; cbn [app].
  - split; [intros H; split; [constructor|]; split; [assumption|intros x y []]|intros (_ & H & _); assumption].
  - split.
    + intros H. apply fop_cons_inv in H. destruct H as (H1 & H2). apply IH in H2. destruct H2 as (H2 & H3 & H4). split; [|split; [assumption|]].
      * apply fop_cons; [|assumption]. intros y Hy. apply H1. apply in_or_app. auto.
      * intros x y [<-|Hx] Hy; [apply H1; apply in_or_app; auto|auto].
    + intros (H1 & H2 & H3). apply fop_cons_inv in H1. destruct H1 as (H0 & H1). apply fop_cons.
      * intros y Hy. apply in_app_or in Hy. destruct Hy as [Hy|Hy]; [auto|apply H3; [left; reflexivity|assumption]].
      * apply IH. split; [assumption|]. split; [assumption|]. intros x y Hx Hy. apply H3; [right|]; assumption.
Qed.

Lemma rise_spec before r after b a : rise before r after = (b, a) -> ForallOrdPairs le_longest (rev before ++ after) ->
  rev b ++ a = rev before ++ after /\ forall x, In x b -> le_longest x r.
Proof.
  revert after b a. induction before as [|q before IH]; intros after b a E Hs; cbn [rise] in E.
  - injection E as <- <-. split; [reflexivity|intros x []].
  - destruct (better r q) eqn:Eb.
    + apply IH in E.
      * cbn [rev]. rewrite <- app_assoc. exact E.
      * cbn [rev] in Hs. rewrite <- app_assoc in Hs. exact Hs.
    + injection E as <- <-. split; [reflexivity|]. intros x Hx. unfold better in Eb. apply Z.ltb_ge in Eb. unfold le_longest in *.
      destruct Hx as [<-|Hx]; [assumption|]. apply fop_app_iff in Hs. destruct Hs as (Hs & _). cbn [rev] in Hs. apply fop_app_iff in Hs. destruct Hs as (_ & _ & Hs).
      specialize (Hs x q ltac:(apply -> in_rev; assumption) (or_introl eq_refl)). unfold le_longest in Hs. lia.
Qed.

Lemma fall_spec before r after b a : fall before r after = (b, a) -> ForallOrdPairs le_longest (rev before ++ after) -> (forall x, In x before -> le_longest x r) ->
  rev b ++ a = rev before ++ after /\ (forall x, In x b -> le_longest x r) /\ forall x, In x a -> le_longest r x.
Proof.
  revert before b a. induction after as [|q after IH]; intros before b a E Hs Hb; cbn [fall] in E.
  - injection E as <- <-. split; [reflexivity|]. split; [assumption|intros x []].
  - destruct (better q r) eqn:Eb.
    + assert (Ea : rev (q :: before) ++ after = rev before ++ q :: after) by (cbn [rev]; rewrite <- app_assoc; reflexivity).
      apply IH in E; [rewrite <- Ea; exact E|rewrite Ea; exact Hs|]. unfold better in Eb. intros x [<-|Hx]; [unfold le_longest; lia|auto].
    + injection E as <- <-. split; [reflexivity|]. split; [assumption|]. unfold better in Eb. apply Z.ltb_ge in Eb.
      apply fop_app_iff in Hs. destruct Hs as (_ & Hs & _). apply fop_cons_inv in Hs. destruct Hs as (Hs & _). intros x [<-|Hx]; [exact Eb|].
      specialize (Hs x Hx). unfold le_longest in *. lia.
Qed.

Lemma fix_list_spec before r after : ForallOrdPairs le_longest (rev before ++ after) ->
  ForallOrdPairs le_longest (fix_list before r after) /\ Permutation (r :: rev before ++ after) (fix_list before r after).
Proof.
  intros Hs. unfold fix_list. destruct (rise before r after) as (b, a) eqn:E1. destruct (rise_spec _ _ _ _ _ E1 Hs) as (A1 & A2).
  destruct (fall b r a) as (b', a') eqn:E2. rewrite <- A1 in Hs. destruct (fall_spec _ _ _ _ _ E2 Hs A2) as (B1 & B2 & B3).
  rewrite rev_append_rev. split.
  - rewrite <- B1 in Hs. apply fop_app_iff in Hs. destruct Hs as (H1 & H2 & H3). apply fop_app_iff. split; [assumption|]. split; [apply fop_cons; assumption|].
    intros x y Hx [<-|Hy]; [apply B2; apply in_rev; assumption|auto].
  - rewrite <- A1, <- B1. apply Permutation_middle.
Qed.

Lemma add_to_list_spec l r : ForallOrdPairs le_longest l ->
  ForallOrdPairs le_longest (add_to_list l r) /\ Permutation (r :: l) (add_to_list l r).
Proof.
  induction l as [|q l IH]; intros Hs; cbn [add_to_list].
  - split; [apply fop_cons; [intros y []|constructor]|reflexivity].
  - destruct (better r q) eqn:Eb.
    + split; [|reflexivity]. apply fop_cons; [|assumption]. unfold better in Eb. intros y [<-|Hy]; [unfold le_longest; lia|].
      apply fop_cons_inv in Hs. destruct Hs as (Hs & _). specialize (Hs y Hy). unfold le_longest in *. lia.
    + apply fop_cons_inv in Hs. destruct Hs as (H1 & H2). destruct (IH H2) as (I1 & I2). split.
      * apply fop_cons; [|assumption]. intros y Hy. apply (Permutation_in _ (Permutation_sym I2)) in Hy. destruct Hy as [<-|Hy]; [|auto].
        unfold better in Eb. unfold le_longest. lia.
      * rewrite <- I2. apply perm_swap.
Qed.

(** ** Invariant *)

Lemma rg_ok_ext P K loc r live un un' : rg_ok P K loc r live un -> (forall h, loc <= h < loc + K -> un h = un' h) -> rg_ok P K loc r live un'.
Proof. intros [A1 A2 A3 A4 A5] H. constructor; try assumption. intros i Hi. rewrite A4, H by lia. reflexivity. Qed.

Lemma free_backed_idle P K loc r live un : 0 < P -> 0 <= K -> rg_ok P K loc r live un ->
  rg_free_backed r = zcount (fun i => idle P live un (loc + i)) 0 (Z.to_nat K).
Proof.
  intros HP HK H. destruct (rg_ok_live P K loc r live un HP HK H) as (_ & Lv2 & _).
  rewrite (co_free _ _ _ (gk_cnt _ _ _ _ _ _ H)). apply zcount_ext. intros i Hi.
  rewrite (gk_backed _ _ _ _ _ _ H), (gk_used _ _ _ _ _ _ H), used_touched by (assumption || lia || (intros x Hx; apply Lv2; assumption)). reflexivity.
Qed.

Lemma zcount_mono f g n : forall i, (forall j, i <= j < i + Z.of_nat n -> f j = true -> g j = true) -> zcount f i n <= zcount g i n.
Proof.
  induction n as [|n IH]; intros i Hi; cbn [zcount]; [lia|]. specialize (IH (i + 1) (fun j Hj => Hi j ltac:(lia))). specialize (Hi i ltac:(lia)).
  destruct (f i); [rewrite Hi by reflexivity|destruct (g i)]; lia.
Qed.

Lemma free_backed_nonneg P K loc r live un : rg_ok P K loc r live un -> 0 <= rg_free_backed r.
Proof. intros H. rewrite (co_free _ _ _ (gk_cnt _ _ _ _ _ _ H)). apply zcount_bound. Qed.

(** The longest free run is determined by the live runs. *)
Lemma longest_unique P K loc r r' live un un' : 0 < P -> 0 <= K -> rg_ok P K loc r live un -> rg_ok P K loc r' live un' -> rg_longest r = rg_longest r'.
Proof.
  intros HP HK H H'. assert (HN : 0 <= K * P) by (apply Z.mul_nonneg_nonneg; lia).
  destruct (tracker_live_exact _ _ _ HN (gk_reach _ _ _ _ _ _ H)) as (_ & _ & _ & _ & _ & _ & A1 & A2).
  destruct (tracker_live_exact _ _ _ HN (gk_reach _ _ _ _ _ _ H')) as (_ & _ & _ & _ & _ & _ & B1 & B2).
  pose proof (rt_reach_ok _ _ _ HN (gk_reach _ _ _ _ _ _ H)) as L. pose proof (rt_reach_ok _ _ _ HN (gk_reach _ _ _ _ _ _ H')) as L'.
  destruct (ro_longest _ _ (lo_ok _ _ _ L)) as (L0 & _). destruct (ro_longest _ _ (lo_ok _ _ _ L')) as (L0' & _). unfold rg_longest.
  destruct (Z.eq_dec (rt_longest (rg_t r)) 0) as [E|E]; destruct (Z.eq_dec (rt_longest (rg_t r')) 0) as [E'|E']; [lia| | |].
  - assert (Hp' : 0 < rt_longest (rg_t r')) by lia. destruct (B1 Hp') as (i & Hi). specialize (A2 i _ Hp' Hi). lia.
  - assert (Hp : 0 < rt_longest (rg_t r)) by lia. destruct (A1 Hp) as (i & Hi). specialize (B2 i _ Hp Hi). lia.
  - assert (Hp' : 0 < rt_longest (rg_t r')) by lia. assert (Hp : 0 < rt_longest (rg_t r)) by lia.
    destruct (B1 Hp') as (i & Hi). specialize (A2 i _ Hp' Hi). destruct (A1 Hp) as (k & Hk). specialize (B2 k _ Hp Hk). lia.
Qed.

Definition apart_loc (K : Z) (a b : region) : Prop := disj (rg_loc a, K) (rg_loc b, K).

Record rs_ok (P K : Z) (s : region_set) (live : list (Z * Z)) (un : Z -> bool) : Prop := {
  sk_apart : ForallOrdPairs (apart_loc K) (rs_list s);
  sk_ok : forall r, In r (rs_list s) -> rg_ok P K (rg_loc r) r (runs_in P K (rg_loc r) live) un;
  sk_in : forall x, In x live -> exists r, In r (rs_list s) /\ starts_in P K (rg_loc r) x = true;
  sk_disj : ForallOrdPairs disj live;
  sk_sorted : ForallOrdPairs le_longest (rs_list s);
  sk_n : rs_n s = Z.of_nat (length (rs_list s));
  sk_free : rs_free_backed s = zsum (map rg_free_backed (rs_list s));
  sk_low : 0 <= rs_low s <= rs_free_backed s }.

Lemma fop_perm {A} (R : A -> A -> Prop) (Rsym : forall a b, R a b -> R b a) l l' : Permutation l l' -> ForallOrdPairs R l -> ForallOrdPairs R l'.
Proof.
  induction 1 as [|x l l' Hp IH|x y l|l1 l2 l3 H1 IH1 H2 IH2]; intros Hs; [constructor| | |auto].
  - apply fop_cons_inv in Hs. destruct Hs as (A1 & A2). apply fop_cons; [|auto]. intros z Hz. apply A1. apply (Permutation_in _ (Permutation_sym Hp)). assumption.
  - apply fop_cons_inv in Hs. destruct Hs as (A1 & A2). apply fop_cons_inv in A2. destruct A2 as (A2 & A3). apply fop_cons.
    + intros z [<-|Hz]; [apply Rsym; apply A1; left; reflexivity|apply A2; assumption].
    + apply fop_cons; [|assumption]. intros z Hz. apply A1. right. assumption.
Qed.

Lemma apart_sym K a b : apart_loc K a b -> apart_loc K b a.
Proof. unfold apart_loc. apply disj_sym. Qed.

Lemma perm_zsum (f : region -> Z) l l' : Permutation l l' -> zsum (map f l) = zsum (map f l').
Proof. induction 1; cbn [map]; rewrite ?zsum_cons; lia. Qed.

(** Replacing a region by one at the same place. *)
Lemma mid_perm (before : list region) r r' after l : Permutation (r' :: rev before ++ after) l -> rg_loc r' = rg_loc r -> forall K,
  ForallOrdPairs (apart_loc K) (rev before ++ r :: after) ->
  ForallOrdPairs (apart_loc K) l /\ (forall q, In q l <-> q = r' \/ In q (rev before ++ after)) /\
  (forall q, In q (rev before ++ after) -> apart_loc K r q).
Proof.
  intros Hp Hl K H. apply (fop_mid _ (apart_sym K)) in H. destruct H as (H1 & H2). split; [|split; [|assumption]].
  - apply (fop_perm _ (apart_sym K) _ _ Hp). apply fop_cons; [|assumption]. intros q Hq. unfold apart_loc. rewrite Hl. apply H1. assumption.
  - intros q. split.
    + intros Hq. apply (Permutation_in _ (Permutation_sym Hp)) in Hq. destruct Hq as [<-|Hq]; auto.
    + intros Hq. apply (Permutation_in _ Hp). destruct Hq as [->|Hq]; [left; reflexivity|right; assumption].
Qed.

Lemma starts_in_disj P K l l' x : 0 < P -> disj (l, K) (l', K) -> starts_in P K l x = true -> starts_in P K l' x = false.
Proof.
  intros HP D H. destruct (starts_in P K l' x) eqn:E; [|reflexivity]. exfalso. unfold starts_in, disj in *. cbn [fst snd] in *. 
  assert (A1 : l * P <= fst x) by lia. assert (A2 : fst x < (l + K) * P) by lia. assert (A3 : l' * P <= fst x) by lia. assert (A4 : fst x < (l' + K) * P) by lia. clear H E. nia.
Qed.

Lemma touches_in P K l p n h : 0 < P -> l * P <= p -> p + n <= (l + K) * P -> 0 < n -> touches P (p, n) h = true -> l <= h < l + K.
Proof.
  intros HP A B Hn H. apply touches_spec in H; [|assumption|assumption]. destruct H as (j & Hj & <-). unfold in_rng in Hj. cbn [fst snd] in Hj.
  split; [apply Z.div_le_lower_bound; lia|apply Z.div_lt_upper_bound; lia].
Qed.

Lemma sorted_mid (before : list region) r after : ForallOrdPairs le_longest (rev before ++ r :: after) -> ForallOrdPairs le_longest (rev before ++ after).
Proof.
  intros H. apply fop_app_iff in H. destruct H as (A & B & C). apply fop_cons_inv in B. destruct B as (B1 & B2). apply fop_app_iff. split; [assumption|].
  split; [assumption|]. intros x y Hx Hy. apply C; [assumption|right; assumption].
Qed.

Lemma rg_contains_starts P K r p n : rg_contains P K r p = starts_in P K (rg_loc r) (p, n).
Proof. reflexivity. Qed.

(** ** Get *)

Lemma rs_get_ok P K s live un n : 0 < P -> 0 <= K -> rs_ok P K s live un -> 0 < n ->
  exists s' res, rs_get P K s n = Some (s', res) /\
  match res with
  | None => s' = s /\ forall l p, In l (locs s) -> ~ free_at P K l (runs_in P K l live) p n
  | Some (p, b) =>
      rs_ok P K s' ((p, n) :: live) (fun h => un h && negb (touches P (p, n) h)) /\
      (exists l, In l (locs s) /\ free_at P K l (runs_in P K l live) p n /\
         (exists len, n <= len /\ maximal_at P K l (runs_in P K l live) p len /\
            forall p' len', n <= len' -> maximal_at P K l (runs_in P K l live) p' len' -> len <= len') /\
         (* the region with the shortest longest free run that fits *)
         forall l' m p0, In l' (locs s) -> (exists p', free_at P K l' (runs_in P K l' live) p' n) -> 0 < m ->
           free_at P K l (runs_in P K l live) p0 m -> exists p', free_at P K l' (runs_in P K l' live) p' m) /\
      (b = true <-> exists h, touches P (p, n) h = true /\ un h = true) /\
      Permutation (locs s) (locs s') /\ rs_low s' = Z.min (rs_low s) (rs_free_backed s')
  end.
Proof.
  intros HP HK H Hn. unfold rs_get.
  (* the longest free run in terms of the live runs *)
  assert (Hlong : forall r, In r (rs_list s) -> forall m, 0 < m -> m <= rg_longest r <-> exists p, free_at P K (rg_loc r) (runs_in P K (rg_loc r) live) p m).
  { intros r Hr m Hm. pose proof (sk_ok _ _ _ _ _ H r Hr) as Hok. assert (HN : 0 <= K * P) by (apply Z.mul_nonneg_nonneg; lia).
    destruct (tracker_live_exact _ _ _ HN (gk_reach _ _ _ _ _ _ Hok)) as (_ & _ & _ & _ & _ & _ & A1 & A2). unfold rg_longest. split.
    - intros Hle. destruct (A1 ltac:(lia)) as (i & Hi). exists (rg_loc r * P + i). apply shift_free. destruct Hi as (I1 & I2 & I3).
      split; [assumption|]. split; [lia|]. intros x Hx. specialize (I3 x Hx). unfold disj in *. cbn [fst snd] in *. lia.
    - intros (p & Hf). apply free_at_shift in Hf. apply (A2 _ _ Hm Hf). }
  assert (Gen : forall after before, rev before ++ after = rs_list s -> (forall r, In r before -> rg_longest r < n) ->
    exists s' res, rs_get_loop P K s before after n = Some (s', res) /\
    match res with
    | None => s' = s /\ forall r, In r (rs_list s) -> rg_longest r < n
    | Some (p, b) => exists before after r r' , rev before ++ r :: after = rs_list s /\ (forall q, In q before -> rg_longest q < n) /\
        rg_get P K r n = Some (r', Some (p, b)) /\ rg_free_backed r' <= rg_free_backed r /\
        let c := rs_free_backed s - (rg_free_backed r - rg_free_backed r') in
        s' = RegionSet (fix_list before r' after) (rs_n s) (rs_more_often s) c (Z.min (rs_low s) c)
    end).
  { induction after as [|r after IH]; intros before Eb Hb; cbn [rs_get_loop].
    - exists s, None. split; [reflexivity|]. split; [reflexivity|]. intros r Hr. apply Hb. rewrite <- Eb, app_nil_r in Hr. apply in_rev. assumption.
    - assert (Hr : In r (rs_list s)) by (rewrite <- Eb; apply in_or_app; right; left; reflexivity).
      pose proof (sk_ok _ _ _ _ _ H r Hr) as Hok.
      destruct (rg_get_ok P K _ r _ un n HP HK Hok Hn) as (r' & res & E & M). rewrite E. cbn [obind]. destruct res as [(p, b)|].
      + destruct M as (M1 & _ & _ & _ & _).
        assert (Hle : rg_free_backed r' <= rg_free_backed r).
        { rewrite (free_backed_idle _ _ _ _ _ _ HP HK M1), (free_backed_idle _ _ _ _ _ _ HP HK Hok). apply zcount_mono. intros i _ Hi.
          unfold idle, touched in *. cbn [existsb] in Hi. apply andb_prop in Hi. destruct Hi as (I1 & I2). rewrite negb_andb, negb_involutive in I1.
          rewrite negb_orb in I2. apply andb_prop in I2. destruct I2 as (I2 & I3). rewrite I3. apply negb_true_iff in I2. rewrite I2, orb_false_r in I1. rewrite I1. reflexivity. }
        assert (Hsum : rg_free_backed r <= rs_free_backed s).
        { rewrite (sk_free _ _ _ _ _ H). assert (Hnn : forall q, In q (rs_list s) -> 0 <= rg_free_backed q) by (intros q Hq; apply (free_backed_nonneg _ _ _ _ _ _ (sk_ok _ _ _ _ _ H q Hq))).
          clear - Hr Hnn. induction (rs_list s) as [|q l IH]; [contradiction|]. cbn [map]. rewrite zsum_cons.
          assert (0 <= zsum (map rg_free_backed l)).
          { clear - Hnn. induction l as [|z l IH]; [cbn; lia|]. cbn [map]. rewrite zsum_cons. pose proof (Hnn z (or_intror (or_introl eq_refl))).
            assert (forall q0, In q0 (q :: l) -> 0 <= rg_free_backed q0) by (intros q0 [<-|Hq]; apply Hnn; [left; reflexivity|right; right; assumption]). specialize (IH H0). lia. }
          pose proof (Hnn q (or_introl eq_refl)). destruct Hr as [->|Hr]; [lia|]. specialize (IH Hr (fun z Hz => Hnn z (or_intror Hz))). lia. }
        pose proof (free_backed_nonneg _ _ _ _ _ _ M1) as Hn0.
        replace ((0 <=? rg_free_backed r - rg_free_backed r') && (rg_free_backed r - rg_free_backed r' <=? rs_free_backed s)) with true by lia.
        eexists _, _. split; [reflexivity|]. cbv iota beta. exists before, after, r, r'. cbv zeta. split; [exact Eb|]. split; [assumption|]. split; [assumption|]. split; [assumption|reflexivity].
      + destruct M as (-> & M). apply IH.
        * cbn [rev]. rewrite <- app_assoc. exact Eb.
        * intros q [<-|Hq]; [|auto]. destruct (Z.lt_ge_cases (rg_longest r) n) as [|Hge]; [assumption|]. exfalso. apply Hlong in Hge; [|assumption|assumption].
          destruct Hge as (p & Hf). apply (M p Hf). }
  destruct (Gen (rs_list s) [] eq_refl ltac:(intros r [])) as (s' & res & E & M). exists s', res. split; [exact E|]. destruct res as [(p, b)|].
  2:{ destruct M as (M1 & M2). split; [assumption|]. intros l p Hl Hf. unfold locs in Hl. apply in_map_iff in Hl. destruct Hl as (r & <- & Hr).
    specialize (M2 r Hr). assert (n <= rg_longest r) by (apply (Hlong r Hr n Hn); eauto). lia. }
  destruct M as (before & after & r & r' & Eb & Hb & Eg & Hle & Es). cbv zeta in Es.
  assert (Hr : In r (rs_list s)) by (rewrite <- Eb; apply in_or_app; right; left; reflexivity).
  pose proof (sk_ok _ _ _ _ _ H r Hr) as Hok.
  destruct (rg_get_ok P K _ r _ un n HP HK Hok Hn) as (r1 & res1 & E1 & M1). rewrite Eg in E1. injection E1 as <- <-. cbv iota beta in M1.
  destruct M1 as (M1 & M2 & M3 & M4 & M5).
  pose proof (gk_loc _ _ _ _ _ _ M1) as Hloc. destruct M2 as (F1 & F2 & F3).
  assert (Hst : starts_in P K (rg_loc r) (p, n) = true) by (unfold starts_in; cbn [fst]; lia).
  pose proof (sorted_mid before r after ltac:(rewrite Eb; apply (sk_sorted _ _ _ _ _ H))) as Hsm.
  destruct (fix_list_spec before r' after Hsm) as (X1 & X2).
  pose proof (sk_apart _ _ _ _ _ H) as Hap. rewrite <- Eb in Hap. destruct (mid_perm before r r' after _ X2 Hloc K Hap) as (Y1 & Y2 & Y3).
  assert (Hother : forall q, In q (rev before ++ after) -> In q (rs_list s)).
  { intros q Hq. rewrite <- Eb. apply in_app_or in Hq. apply in_or_app. destruct Hq; [left|right; right]; assumption. }
  assert (Hcov : forall x, In x live -> disj (p, n) x).
  { intros x Hx. destruct (sk_in _ _ _ _ _ H x Hx) as (q & Hq & Hqs). destruct (starts_in P K (rg_loc r) x) eqn:Esx.
    - apply F3. unfold runs_in. apply filter_In. auto.
    - pose proof (sk_ok _ _ _ _ _ H q Hq) as Hqok. destruct (rg_ok_live _ _ _ _ _ _ HP HK Hqok) as (_ & Lq & _).
      specialize (Lq x ltac:(unfold runs_in; apply filter_In; auto)).
      assert (Hqd : apart_loc K r q).
      { rewrite <- Eb in Hq. apply in_app_or in Hq. destruct Hq as [Hq|[<-|Hq]]; [apply Y3; apply in_or_app; auto|congruence|apply Y3; apply in_or_app; auto]. }
      unfold apart_loc, disj in Hqd. cbn [fst snd] in Hqd. unfold disj. cbn [fst snd]. destruct Hqd as [Hqd|Hqd].
      + left. assert ((rg_loc r + K) * P <= rg_loc q * P) by (apply Z.mul_le_mono_nonneg_r; lia). lia.
      + right. assert ((rg_loc q + K) * P <= rg_loc r * P) by (apply Z.mul_le_mono_nonneg_r; lia). lia. }
  split; [|split; [|split; [exact M4|]]].
  - subst s'. constructor; cbn [rs_list rs_n rs_free_backed rs_low].
    + assumption.
    + intros q Hq. apply Y2 in Hq. destruct Hq as [->|Hq].
      * rewrite Hloc. unfold runs_in. cbn [filter]. rewrite Hst. exact M1.
      * pose proof (sk_ok _ _ _ _ _ H q (Hother q Hq)) as Hqok. specialize (Y3 q Hq).
        unfold runs_in. cbn [filter]. rewrite (starts_in_disj P K (rg_loc r) (rg_loc q) (p, n) HP Y3 Hst).
        apply (rg_ok_ext _ _ _ _ _ _ _ Hqok). intros h Hh. destruct (touches P (p, n) h) eqn:Et; [|rewrite andb_true_r; reflexivity].
        apply (touches_in P K (rg_loc r)) in Et; [|assumption..]. unfold apart_loc, disj in Y3. cbn [fst snd] in Y3. lia.
    + intros x [<-|Hx].
      * exists r'. split; [apply Y2; left; reflexivity|]. rewrite Hloc. assumption.
      * destruct (sk_in _ _ _ _ _ H x Hx) as (q & Hq & Hqs). rewrite <- Eb in Hq. apply in_app_or in Hq. destruct Hq as [Hq|[<-|Hq]].
        -- exists q. split; [apply Y2; right; apply in_or_app; auto|assumption].
        -- exists r'. split; [apply Y2; left; reflexivity|]. rewrite Hloc. assumption.
        -- exists q. split; [apply Y2; right; apply in_or_app; auto|assumption].
    + apply fop_cons; [assumption|apply (sk_disj _ _ _ _ _ H)].
    + assumption.
    + rewrite (sk_n _ _ _ _ _ H), <- Eb. f_equal. rewrite <- (Permutation_length X2). cbn [length]. rewrite !app_length. cbn [length]. lia.
    + rewrite (sk_free _ _ _ _ _ H), <- Eb, <- (perm_zsum _ _ _ X2). cbn [map]. rewrite !map_app, zsum_cons, !zsum_app. cbn [map]. rewrite zsum_cons. lia.
    + pose proof (sk_low _ _ _ _ _ H). split; [|lia]. apply Z.min_glb; [lia|].
      pose proof (sk_free _ _ _ _ _ H) as Hf. rewrite <- Eb, map_app, zsum_app in Hf. cbn [map] in Hf. rewrite zsum_cons in Hf.
      pose proof (free_backed_nonneg _ _ _ _ _ _ M1).
      assert (Hnn : forall l, (forall q, In q l -> In q (rs_list s)) -> 0 <= zsum (map rg_free_backed l)).
      { induction l as [|z l IHl]; intros Hin; [cbn; lia|]. cbn [map]. rewrite zsum_cons.
        pose proof (free_backed_nonneg _ _ _ _ _ _ (sk_ok _ _ _ _ _ H z (Hin z (or_introl eq_refl)))). specialize (IHl (fun q Hq => Hin q (or_intror Hq))). lia. }
      pose proof (Hnn (rev before) ltac:(intros q Hq; apply Hother; apply in_or_app; auto)).
      pose proof (Hnn after ltac:(intros q Hq; apply Hother; apply in_or_app; auto)). lia.
  - exists (rg_loc r). split; [apply in_map; assumption|]. split; [split; [assumption|split; assumption]|]. split; [assumption|].
    intros l' m p0 Hl' Hfit Hm Hf. unfold locs in Hl'. apply in_map_iff in Hl'. destruct Hl' as (q & <- & Hq). apply (Hlong q Hq n Hn) in Hfit.
    apply (Hlong q Hq m Hm). assert (m <= rg_longest r) by (apply (Hlong r Hr m Hm); eauto).
    rewrite <- Eb in Hq. apply in_app_or in Hq. destruct Hq as [Hq|[<-|Hq]].
    + apply in_rev in Hq. specialize (Hb q Hq). lia.
    + assumption.
    + pose proof (sk_sorted _ _ _ _ _ H) as Hs. rewrite <- Eb in Hs. apply fop_app_iff in Hs. destruct Hs as (_ & Hs & _). apply fop_cons_inv in Hs.
      destruct Hs as (Hs & _). specialize (Hs q Hq). unfold le_longest in Hs. lia.
  - split; [|subst s'; reflexivity]. subst s'. unfold locs. cbn [rs_list]. rewrite <- Eb, map_app. cbn [map]. rewrite <- Permutation_middle, <- map_app, <- Hloc.
    apply (Permutation_map rg_loc) in X2. exact X2.
Qed.

(** ** Facts about the whole set *)

Lemma unbacked_by_in os calls h : unbacked_by os calls h = true -> exists x, In x calls /\ in_rng x h.
Proof.
  unfold unbacked_by. intros H. apply existsb_exists in H. destruct H as (x & Hx & Hb). exists x. split; [assumption|].
  unfold in_run, in_rng in *. lia.
Qed.

(** On a hugepage of a region, only the runs of the region matter. *)
Lemma touched_runs_in P K s live un r h : 0 < P -> 0 <= K -> rs_ok P K s live un -> In r (rs_list s) -> rg_loc r <= h < rg_loc r + K ->
  touched P (runs_in P K (rg_loc r) live) h = touched P live h.
Proof.
  intros HP HK H Hr Hh. apply Bool.eq_iff_eq_true. unfold touched. rewrite !existsb_exists. split.
  - intros (x & Hx & Ht). unfold runs_in in Hx. apply filter_In in Hx. exists x. split; [apply Hx|assumption].
  - intros (x & Hx & Ht). exists x. split; [|assumption]. unfold runs_in. apply filter_In. split; [assumption|].
    destruct (sk_in _ _ _ _ _ H x Hx) as (q & Hq & Hqs). pose proof (sk_ok _ _ _ _ _ H q Hq) as Hqok.
    destruct (rg_ok_live _ _ _ _ _ _ HP HK Hqok) as (_ & Lq & _). specialize (Lq x ltac:(unfold runs_in; apply filter_In; auto)).
    destruct x as (p, n). cbn [fst snd] in Lq. destruct Lq as (L1 & L2 & L3).
    pose proof (touches_in P K (rg_loc q) p n h HP L1 L3 L2 Ht) as Hhq.
    destruct (in_split _ _ Hr) as (a & b & Eab). pose proof (sk_apart _ _ _ _ _ H) as Hap. rewrite Eab in Hap. apply (fop_mid _ (apart_sym K)) in Hap.
    rewrite Eab in Hq. apply in_app_or in Hq. destruct Hq as [Hq|[<-|Hq]].
    + exfalso. destruct Hap as (Hap & _). specialize (Hap q ltac:(apply in_or_app; auto)). unfold apart_loc, disj in Hap. cbn [fst snd] in Hap. lia.
    + assumption.
    + exfalso. destruct Hap as (Hap & _). specialize (Hap q ltac:(apply in_or_app; auto)). unfold apart_loc, disj in Hap. cbn [fst snd] in Hap. lia.
Qed.

Lemma set_idle_ok P K s live un : 0 < P -> 0 <= K -> rs_ok P K s live un -> rs_free_backed s = set_idle P K (locs s) live un.
Proof.
  intros HP HK H. rewrite (sk_free _ _ _ _ _ H). unfold set_idle, locs. rewrite map_map. f_equal. apply map_ext_in. intros r Hr.
  rewrite (free_backed_idle _ _ _ _ _ _ HP HK (sk_ok _ _ _ _ _ H r Hr)), hugepages_with_zcount. apply zcount_ext. intros i Hi. unfold idle.
  rewrite (touched_runs_in P K s live un r) by (assumption || lia). reflexivity.
Qed.

Lemma zsum_free_nonneg P K s live un l : rs_ok P K s live un -> (forall q, In q l -> In q (rs_list s)) -> 0 <= zsum (map rg_free_backed l).
Proof.
  intros H. induction l as [|z l IHl]; intros Hin; [cbn; lia|]. cbn [map]. rewrite zsum_cons.
  pose proof (free_backed_nonneg _ _ _ _ _ _ (sk_ok _ _ _ _ _ H z (Hin z (or_introl eq_refl)))). specialize (IHl (fun q Hq => Hin q (or_intror Hq))). lia.
Qed.

(** ** Put *)

Lemma runs_in_app P K loc l1 l2 : runs_in P K loc (l1 ++ l2) = runs_in P K loc l1 ++ runs_in P K loc l2.
Proof. apply filter_app. Qed.

Lemma rs_put_ok P K s l1 p n l2 un os : 0 < P -> 0 <= K -> rs_ok P K s (l1 ++ (p, n) :: l2) un ->
  exists s' calls, rs_put P K os s p n = Some (Some (s', calls)) /\
    rs_ok P K s' (l1 ++ l2) (fun h => un h || unbacked_by os calls h) /\
    (forall h, (exists x, In x calls /\ in_rng x h) <-> rs_more_often s = false /\ touches P (p, n) h = true /\ touched P (l1 ++ l2) h = false) /\
    ForallOrdPairs (fun a b => fst a + snd a < fst b) calls /\ (forall x, In x calls -> 0 < snd x) /\
    Permutation (locs s) (locs s') /\ rs_low s' = rs_low s /\ rs_free_backed s <= rs_free_backed s' /\ rs_more_often s' = rs_more_often s.
Proof.
  intros HP HK H. unfold rs_put.
  destruct (sk_in _ _ _ _ _ H (p, n) ltac:(apply in_mid; auto)) as (r0 & Hr0 & Hst0).
  assert (Gen : forall after before, rev before ++ after = rs_list s -> In r0 after ->
    exists before' after' r, rev before' ++ r :: after' = rs_list s /\ starts_in P K (rg_loc r) (p, n) = true /\
      rs_put_loop P K os s before after p n = rs_put_loop P K os s before' (r :: after') p n).
  { induction after as [|r after IH]; intros before Eb Hin; [contradiction|]. destruct (starts_in P K (rg_loc r) (p, n)) eqn:Es.
    - exists before, after, r. auto.
    - destruct Hin as [->|Hin]; [congruence|]. destruct (IH (r :: before)) as (b' & a' & r' & G1 & G2 & G3); [cbn [rev]; rewrite <- app_assoc; exact Eb|assumption|].
      exists b', a', r'. split; [assumption|]. split; [assumption|]. rewrite <- G3. cbn [rs_put_loop]. rewrite (rg_contains_starts P K r p n), Es. reflexivity. }
  destruct (Gen (rs_list s) [] eq_refl Hr0) as (before & after & r & Eb & Hst & Eloop). rewrite Eloop. clear Gen Eloop r0 Hr0 Hst0.
  assert (Hr : In r (rs_list s)) by (rewrite <- Eb; apply in_or_app; right; left; reflexivity).
  pose proof (sk_ok _ _ _ _ _ H r Hr) as Hok. rewrite runs_in_app in Hok. unfold runs_in at 2 in Hok. cbn [filter] in Hok. rewrite Hst in Hok. fold (runs_in P K (rg_loc r) l2) in Hok.
  destruct (rg_put_ok P K (rg_loc r) r _ p n _ un os (negb (rs_more_often s)) HP HK Hok) as (r' & calls & E & M1 & M2 & M3 & M4 & M5 & _ & M6).
  cbn [rs_put_loop]. rewrite (rg_contains_starts P K r p n), Hst, E. cbn [obind]. replace (0 <=? rg_free_backed r' - rg_free_backed r) with true by lia.
  eexists _, calls. split; [reflexivity|].
  pose proof (gk_loc _ _ _ _ _ _ M1) as Hloc. rewrite <- runs_in_app in M1, M3.
  destruct (rg_ok_live _ _ _ _ _ _ HP HK Hok) as (_ & Lr & _). specialize (Lr (p, n) ltac:(apply in_mid; auto)). cbn [fst snd] in Lr. destruct Lr as (L1 & L2 & L3).
  assert (Hcalls : forall h, (exists x, In x calls /\ in_rng x h) -> rg_loc r <= h < rg_loc r + K).
  { intros h Hh. destruct (rs_more_often s) eqn:Em; cbn [negb] in *.
    - rewrite (M2 eq_refl) in Hh. destruct Hh as (x & [] & _).
    - apply (M3 eq_refl) in Hh. destruct Hh as (Ht & _). apply (touches_in P K (rg_loc r) p n); assumption. }
  pose proof (sorted_mid before r after ltac:(rewrite Eb; apply (sk_sorted _ _ _ _ _ H))) as Hsm.
  destruct (fix_list_spec before r' after Hsm) as (X1 & X2).
  pose proof (sk_apart _ _ _ _ _ H) as Hap. rewrite <- Eb in Hap. destruct (mid_perm before r r' after _ X2 Hloc K Hap) as (Y1 & Y2 & Y3).
  assert (Hother : forall q, In q (rev before ++ after) -> In q (rs_list s)).
  { intros q Hq. rewrite <- Eb. apply in_app_or in Hq. apply in_or_app. destruct Hq; [left|right; right]; assumption. }
  assert (Hfree : rs_free_backed s + (rg_free_backed r' - rg_free_backed r) = zsum (map rg_free_backed (fix_list before r' after))).
  { rewrite (sk_free _ _ _ _ _ H), <- Eb, <- (perm_zsum _ _ _ X2). cbn [map]. rewrite !map_app, zsum_cons, !zsum_app. cbn [map]. rewrite zsum_cons. lia. }
  assert (Hs' : rs_ok P K (RegionSet (fix_list before r' after) (rs_n s) (rs_more_often s) (rs_free_backed s + (rg_free_backed r' - rg_free_backed r)) (rs_low s))
    (l1 ++ l2) (fun h => un h || unbacked_by os calls h)).
  { constructor; cbn [rs_list rs_n rs_free_backed rs_low].
    - assumption.
    - intros q Hq. apply Y2 in Hq. destruct Hq as [->|Hq].
      + rewrite Hloc. exact M1.
      + pose proof (sk_ok _ _ _ _ _ H q (Hother q Hq)) as Hqok. specialize (Y3 q Hq).
        rewrite runs_in_app in Hqok. unfold runs_in at 2 in Hqok. cbn [filter] in Hqok. rewrite (starts_in_disj P K (rg_loc r) (rg_loc q) (p, n) HP Y3 Hst) in Hqok.
        fold (runs_in P K (rg_loc q) l2) in Hqok. rewrite <- runs_in_app in Hqok.
        apply (rg_ok_ext _ _ _ _ _ _ _ Hqok). intros h Hh. destruct (unbacked_by os calls h) eqn:Eu; [|rewrite orb_false_r; reflexivity].
        apply unbacked_by_in in Eu. apply Hcalls in Eu. unfold apart_loc, disj in Y3. cbn [fst snd] in Y3. lia.
    - intros x Hx. assert (Hx' : In x (l1 ++ (p, n) :: l2)) by (apply in_mid; auto).
      destruct (sk_in _ _ _ _ _ H x Hx') as (q & Hq & Hqs). rewrite <- Eb in Hq. apply in_app_or in Hq. destruct Hq as [Hq|[<-|Hq]].
      + exists q. split; [apply Y2; right; apply in_or_app; auto|assumption].
      + exists r'. split; [apply Y2; left; reflexivity|]. rewrite Hloc. assumption.
      + exists q. split; [apply Y2; right; apply in_or_app; auto|assumption].
    - pose proof (sk_disj _ _ _ _ _ H) as D. apply (fop_mid disj disj_sym) in D. apply D.
    - assumption.
    - rewrite (sk_n _ _ _ _ _ H), <- Eb. f_equal. rewrite <- (Permutation_length X2). cbn [length]. rewrite !app_length. cbn [length]. lia.
    - assumption.
    - pose proof (sk_low _ _ _ _ _ H). lia. }
  split; [exact Hs'|]. split; [|split; [exact M4|split; [exact M5|split; [|split; [reflexivity|split; [cbn [rs_free_backed]; lia|reflexivity]]]]]].
  - intros h.
    assert (Htr : rg_loc r <= h < rg_loc r + K -> touched P (runs_in P K (rg_loc r) (l1 ++ l2)) h = touched P (l1 ++ l2) h).
    { intros Hh. rewrite <- Hloc in Hh |- *. apply (touched_runs_in P K _ _ _ r' h HP HK Hs'); [cbn [rs_list]; apply Y2; left; reflexivity|assumption]. }
    destruct (rs_more_often s) eqn:Em; cbn [negb] in *.
    + rewrite (M2 eq_refl). split; [intros (x & [] & _)|intros (? & _); discriminate].
    + rewrite (M3 eq_refl h). split.
      * intros (A & B). rewrite Htr in B by (apply (touches_in P K (rg_loc r) p n); assumption). auto.
      * intros (_ & A & B). rewrite Htr by (apply (touches_in P K (rg_loc r) p n); assumption). auto.
  - unfold locs. cbn [rs_list]. rewrite <- Eb, map_app. cbn [map]. rewrite <- Permutation_middle, <- map_app, <- Hloc.
    apply (Permutation_map rg_loc) in X2. exact X2.
Qed.

(** ** Release *)

Lemma unbacked_total_le os calls : (forall x, In x calls -> 0 < snd x) -> 0 <= unbacked_total os calls <= zsum (map snd calls).
Proof.
  unfold unbacked_total. induction calls as [|x l IH]; intros H; [cbn; lia|]. cbn [map]. rewrite !zsum_cons. specialize (IH (fun y Hy => H y (or_intror Hy))).
  pose proof (H x (or_introl eq_refl)). destruct (os (fst x) (snd x)); lia.
Qed.

Lemma unbacked_total_all os calls : (forall x, In x calls -> os (fst x) (snd x) = true) -> unbacked_total os calls = zsum (map snd calls).
Proof.
  unfold unbacked_total. induction calls as [|x l IH]; intros H; [reflexivity|]. cbn [map]. rewrite !zsum_cons, (H x (or_introl eq_refl)), IH; [reflexivity|].
  intros y Hy. apply H. right. assumption.
Qed.

Lemma unbacked_by_app os a b h : unbacked_by os (a ++ b) h = unbacked_by os a h || unbacked_by os b h.
Proof. apply existsb_app. Qed.
Lemma unbacked_total_app os a b : unbacked_total os (a ++ b) = unbacked_total os a + unbacked_total os b.
Proof. unfold unbacked_total. rewrite map_app, zsum_app. reflexivity. Qed.

Lemma ceil_sub P T c : 0 < P -> (T - c * P + P - 1) / P = (T + P - 1) / P - c.
Proof. intros HP. replace (T - c * P + P - 1) with (T + P - 1 + (- c) * P) by ring. rewrite Z.div_add by lia. lia. Qed.

Lemma ceil_pos P T : 0 < P -> 0 < T <-> 0 < (T + P - 1) / P.
Proof.
  intros HP. split; intros H.
  - apply Z.div_str_pos. lia.
  - destruct (Z.lt_ge_cases 0 T) as [|Hle]; [assumption|]. exfalso. assert ((T + P - 1) / P < 1) by (apply Z.div_lt_upper_bound; lia). lia.
Qed.

Lemma rs_release_loop_ok P K os live adaptive T : 0 < P -> 0 <= K -> 0 <= T -> forall l un c0, 0 <= c0 ->
  ForallOrdPairs (apart_loc K) l -> (forall r, In r l -> rg_ok P K (rg_loc r) r (runs_in P K (rg_loc r) live) un) ->
  exists l' calls, rs_release_loop P K os l adaptive T (c0 * P) = Some (l', (c0 + unbacked_total os calls) * P, calls) /\
    map rg_loc l' = map rg_loc l /\ map rg_longest l' = map rg_longest l /\
    (forall r, In r l' -> rg_ok P K (rg_loc r) r (runs_in P K (rg_loc r) live) (fun h => un h || unbacked_by os calls h)) /\
    zsum (map rg_free_backed l') = zsum (map rg_free_backed l) - unbacked_total os calls /\
    (forall x, In x calls -> 0 < snd x) /\ ForallOrdPairs disj calls /\
    (forall h, (exists x, In x calls /\ in_rng x h) -> exists r, In r l /\ rg_loc r <= h < rg_loc r + K /\ idle P (runs_in P K (rg_loc r) live) un h = true) /\
    unbacked_total os calls <= Z.max 0 ((T + P - 1) / P - c0) /\
    ((forall x, In x calls -> os (fst x) (snd x) = true) ->
       unbacked_total os calls = Z.min (Z.max 0 ((T + P - 1) / P - c0)) (zsum (map rg_free_backed l))).
Proof.
  intros HP HK HT. induction l as [|r l IH]; intros un c0 Hc Hap Hok.
  - exists [], []. change (unbacked_total os []) with 0. cbn [rs_release_loop map]. change (zsum []) with 0. rewrite Z.add_0_r. split; [reflexivity|]. split; [reflexivity|]. split; [reflexivity|].
    split; [intros r []|]. split; [reflexivity|]. split; [intros x []|]. split; [constructor|]. split; [intros h (x & [] & _)|]. split; [lia|]. intros _. lia.
  - apply fop_cons_inv in Hap. destruct Hap as (Hap1 & Hap2). cbn [rs_release_loop].
    assert (Hfn : 0 <= zsum (map rg_free_backed l)).
    { clear - Hok. assert (Hok' : forall q, In q l -> 0 <= rg_free_backed q) by (intros q Hq; apply (free_backed_nonneg _ _ _ _ _ _ (Hok q (or_intror Hq)))).
      clear Hok. induction l as [|z l IH]; [cbn; lia|]. cbn [map]. rewrite zsum_cons. pose proof (Hok' z (or_introl eq_refl)). specialize (IH (fun q Hq => Hok' q (or_intror Hq))). lia. }
    pose proof (Hok r (or_introl eq_refl)) as Hr. pose proof (free_backed_nonneg _ _ _ _ _ _ Hr) as Hfr.
    destruct (Z.leb_spec T (c0 * P)) as [Hle|Hgt].
    + assert (Hz : (T + P - 1) / P - c0 <= 0).
      { rewrite <- ceil_sub by assumption. destruct (Z.lt_ge_cases 0 ((T - c0 * P + P - 1) / P)) as [Hx|Hx]; [|assumption]. apply ceil_pos in Hx; lia. }
      exists (r :: l), []. change (unbacked_total os []) with 0. rewrite Z.add_0_r. split; [reflexivity|]. split; [reflexivity|]. split; [reflexivity|].
      split; [intros q Hq; apply (rg_ok_ext _ _ _ _ _ _ _ (Hok q Hq)); intros h _; cbn; rewrite orb_false_r; reflexivity|]. split; [lia|].
      split; [intros x []|]. split; [constructor|]. split; [intros h (x & [] & _)|]. split; [lia|]. intros _. cbn [map]. rewrite zsum_cons. lia.
    + assert (Hz : 0 < (T + P - 1) / P - c0) by (rewrite <- ceil_sub by assumption; apply ceil_pos; lia).
      destruct (rg_release_ok P K (rg_loc r) r _ un os (T - c0 * P) adaptive HP HK Hr ltac:(lia)) as (r' & c & calls1 & E & M1 & M2 & M3 & M4 & M5 & M6 & _ & _ & M7).
      rewrite E. cbn [obind]. pose proof (unbacked_total_le os calls1 M3) as Hu. rewrite ceil_sub in M6 by assumption.
      pose proof (gk_loc _ _ _ _ _ _ M1) as Hloc.
      assert (Hin1 : forall h, (exists x, In x calls1 /\ in_rng x h) -> rg_loc r <= h < rg_loc r + K) by (intros h Hh; apply M5; assumption).
      destruct (IH (fun h => un h || unbacked_by os calls1 h) (c0 + c) ltac:(lia) Hap2) as (l' & calls2 & E2 & N1 & N2 & N3 & N4 & N5 & N6 & N7 & N8 & N9).
      { intros q Hq. apply (rg_ok_ext _ _ _ _ _ _ _ (Hok q (or_intror Hq))). intros h Hh. destruct (unbacked_by os calls1 h) eqn:Eu; [|rewrite orb_false_r; reflexivity].
        apply unbacked_by_in in Eu. apply Hin1 in Eu. specialize (Hap1 q Hq). unfold apart_loc, disj in Hap1. cbn [fst snd] in Hap1. lia. }
      assert (Hin2 : forall h, (exists x, In x calls2 /\ in_rng x h) -> exists q, In q l /\ rg_loc q <= h < rg_loc q + K).
      { intros h Hh. destruct (N7 h Hh) as (q & Q1 & Q2 & _). eauto. }
      replace (c0 * P + c * P) with ((c0 + c) * P) by ring. rewrite E2. cbn [obind]. exists (r' :: l'), (calls1 ++ calls2).
      rewrite unbacked_total_app, <- M2. split; [f_equal; f_equal; f_equal; ring|]. cbn [map].
      split; [rewrite N1, Hloc; reflexivity|]. split; [rewrite N2, (longest_unique P K (rg_loc r) r' r _ _ _ HP HK M1 Hr); reflexivity|]. split.
      { intros q [<-|Hq].
        - rewrite Hloc. apply (rg_ok_ext _ _ _ _ _ _ _ M1). intros h Hh. rewrite unbacked_by_app. destruct (unbacked_by os calls2 h) eqn:Eu; [|rewrite orb_false_r; reflexivity].
          apply unbacked_by_in in Eu. apply Hin2 in Eu. destruct Eu as (z & Hz1 & Hz2). specialize (Hap1 z Hz1). unfold apart_loc, disj in Hap1. cbn [fst snd] in Hap1. lia.
        - apply (rg_ok_ext _ _ _ _ _ _ _ (N3 q Hq)). intros h Hh. rewrite unbacked_by_app, orb_assoc. reflexivity. }
      split; [rewrite !zsum_cons, N4; lia|]. split; [intros x Hx; apply in_app_or in Hx; destruct Hx; auto|].
      split.
      { apply fop_app_iff. split; [|split; [assumption|]].
        - clear - M4. induction calls1 as [|x calls1 IHc]; [constructor|]. apply fop_cons_inv in M4. destruct M4 as (A & B). apply fop_cons; [|auto].
          intros y Hy. specialize (A y Hy). unfold disj. lia.
        - intros x y Hx Hy. pose proof (M3 x Hx) as Px. pose proof (N5 y Hy) as Py.
          assert (Hxall : forall h, in_rng x h -> rg_loc r <= h < rg_loc r + K) by (intros h Hh; apply Hin1; eauto).
          assert (Hx1 : in_rng x (fst x)) by (unfold in_rng; lia). assert (Hx2 : in_rng x (fst x + snd x - 1)) by (unfold in_rng; lia).
          assert (Hnot : forall h, in_rng x h -> ~ in_rng y h).
          { intros h A B. apply Hxall in A. destruct (Hin2 h ltac:(eauto)) as (q & Q1 & Q2). specialize (Hap1 q Q1). unfold apart_loc, disj in Hap1. cbn [fst snd] in Hap1. lia. }
          unfold disj. unfold in_rng in Hnot. destruct (Z.le_gt_cases (fst x + snd x) (fst y)) as [|G1]; [left; assumption|].
          destruct (Z.le_gt_cases (fst y + snd y) (fst x)) as [|G2]; [right; assumption|]. exfalso. apply (Hnot (Z.max (fst x) (fst y))); lia. }
      split.
      { intros h (x & Hx & Hh). apply in_app_or in Hx. destruct Hx as [Hx|Hx].
        - destruct (M5 h ltac:(eauto)) as (A & B). exists r. split; [left; reflexivity|]. auto.
        - destruct (N7 h ltac:(eauto)) as (q & Q1 & Q2 & Q3). exists q. split; [right; assumption|]. split; [assumption|]. unfold idle in *.
          apply andb_prop in Q3. destruct Q3 as (Q3 & Q4). rewrite Q4. rewrite negb_orb in Q3. apply andb_prop in Q3. destruct Q3 as (Q3 & _). rewrite Q3. reflexivity. }
      split; [lia|]. intros Hall. rewrite zsum_cons.
      assert (Hc1 : c = zsum (map snd calls1)) by (rewrite M2; apply unbacked_total_all; intros x Hx; apply Hall; apply in_or_app; auto).
      rewrite N9 by (intros x Hx; apply Hall; apply in_or_app; auto). lia.
Qed.

Lemma fop_map {A B} (f : A -> B) (R : B -> B -> Prop) l : ForallOrdPairs (fun a b => R (f a) (f b)) l <-> ForallOrdPairs R (map f l).
Proof.
  induction l as [|x l IH]; [split; constructor|]. cbn [map]. split; intros H; apply fop_cons_inv in H; destruct H as (H1 & H2); apply fop_cons; try (apply IH; assumption).
  - intros y Hy. apply in_map_iff in Hy. destruct Hy as (z & <- & Hz). auto.
  - intros y Hy. apply H1. apply in_map. assumption.
Qed.

(** How much a release asks for. *)
Definition release_wanted (P : Z) (desired idle_now lo : Z) (adaptive hit_limit : bool) : Z :=
  if hit_limit then desired else if adaptive then lo * P else idle_now * P / 10.

Lemma rs_release_ok P K s live un os desired adaptive hit_limit : 0 < P -> 0 <= K -> rs_ok P K s live un -> 0 <= desired ->
  exists s' calls, rs_release P K os s desired adaptive hit_limit = Some (s', unbacked_total os calls * P, calls) /\
    rs_ok P K s' live (fun h => un h || unbacked_by os calls h) /\ locs s' = locs s /\
    rs_low s' = rs_free_backed s' /\ rs_more_often s' = rs_more_often s /\
    (forall x, In x calls -> 0 < snd x) /\ ForallOrdPairs disj calls /\
    (forall h, (exists x, In x calls /\ in_rng x h) -> (exists l, In l (locs s) /\ l <= h < l + K) /\ idle P live un h = true) /\
    let want := release_wanted P desired (rs_free_backed s) (rs_low s) adaptive hit_limit in
    unbacked_total os calls <= (want + P - 1) / P /\
    ((forall x, In x calls -> os (fst x) (snd x) = true) -> unbacked_total os calls = Z.min ((want + P - 1) / P) (rs_free_backed s)).
Proof.
  intros HP HK H Hd. unfold rs_release. fold (fraction_to_release (rs_free_backed s * P)).
  change (if hit_limit then desired else if adaptive then rs_low s * P else fraction_to_release (rs_free_backed s * P))
    with (release_wanted P desired (rs_free_backed s) (rs_low s) adaptive hit_limit).
  set (want := release_wanted P desired (rs_free_backed s) (rs_low s) adaptive hit_limit).
  pose proof (sk_low _ _ _ _ _ H) as Hlow.
  assert (Hw : 0 <= want).
  { subst want. unfold release_wanted. destruct hit_limit; [assumption|]. destruct adaptive; [apply Z.mul_nonneg_nonneg; lia|].
    apply Z.div_pos; [apply Z.mul_nonneg_nonneg; lia|lia]. }
  set (l0 := if adaptive then rev (rs_list s) else rs_list s).
  assert (Hperm : Permutation (rs_list s) l0) by (subst l0; destruct adaptive; [apply Permutation_rev|reflexivity]).
  assert (Hin : forall r, In r l0 <-> In r (rs_list s)) by (intros r; split; apply Permutation_in; [symmetry|]; assumption).
  destruct (rs_release_loop_ok P K os live adaptive want HP HK Hw l0 un 0 ltac:(lia)) as (l' & calls & E & N1 & N2 & N3 & N4 & N5 & N6 & N7 & N8 & N9).
  { apply (fop_perm _ (apart_sym K) _ _ Hperm). apply (sk_apart _ _ _ _ _ H). }
  { intros r Hr. apply (sk_ok _ _ _ _ _ H). apply Hin. assumption. }
  rewrite Z.mul_0_l in E. rewrite E. cbn [obind]. rewrite Z.add_0_l.
  pose proof (unbacked_total_le os calls N5) as Hu.
  replace ((unbacked_total os calls * P + P - 1) / P) with (unbacked_total os calls).
  2:{ apply (Z.div_unique _ P _ (P - 1)); lia. }
  assert (Hsum : zsum (map rg_free_backed l0) = rs_free_backed s) by (rewrite (sk_free _ _ _ _ _ H); symmetry; apply perm_zsum; assumption).
  assert (Hfn : 0 <= zsum (map rg_free_backed l')).
  { clear - N3. induction l' as [|z l IH]; [cbn; lia|]. cbn [map]. rewrite zsum_cons. pose proof (free_backed_nonneg _ _ _ _ _ _ (N3 z (or_introl eq_refl))).
    specialize (IH (fun q Hq => N3 q (or_intror Hq))). lia. }
  replace (unbacked_total os calls <=? rs_free_backed s) with true by lia.
  set (l1 := if adaptive then rev l' else l').
  assert (Hperm1 : Permutation l' l1) by (subst l1; destruct adaptive; [apply Permutation_rev|reflexivity]).
  assert (Hlocs : map rg_loc l1 = map rg_loc (rs_list s)) by (subst l1 l0; destruct adaptive; [rewrite map_rev, N1, <- map_rev, rev_involutive; reflexivity|assumption]).
  assert (Hlong : map rg_longest l1 = map rg_longest (rs_list s)) by (subst l1 l0; destruct adaptive; [rewrite map_rev, N2, <- map_rev, rev_involutive; reflexivity|assumption]).
  eexists _, calls. split; [reflexivity|]. split; [|split; [exact Hlocs|split; [reflexivity|split; [reflexivity|split; [assumption|split; [assumption|split]]]]]].
  - constructor; cbn [rs_list rs_n rs_free_backed rs_low].
    + apply (fop_map rg_loc (fun a b => disj (a, K) (b, K))). rewrite Hlocs. apply (fop_map rg_loc (fun a b => disj (a, K) (b, K))). apply (sk_apart _ _ _ _ _ H).
    + intros r Hr. apply N3. apply (Permutation_in _ (Permutation_sym Hperm1)). assumption.
    + intros x Hx. destruct (sk_in _ _ _ _ _ H x Hx) as (q & Hq & Hs). assert (Hl : In (rg_loc q) (map rg_loc l1)) by (rewrite Hlocs; apply in_map; assumption).
      apply in_map_iff in Hl. destruct Hl as (q' & E' & Hq'). exists q'. split; [assumption|]. rewrite E'. assumption.
    + apply (sk_disj _ _ _ _ _ H).
    + apply (fop_map rg_longest Z.le). rewrite Hlong. apply (fop_map rg_longest Z.le). apply (sk_sorted _ _ _ _ _ H).
    + rewrite (sk_n _ _ _ _ _ H). f_equal. rewrite <- (map_length rg_loc l1), Hlocs. symmetry. apply map_length.
    + rewrite <- (perm_zsum _ _ _ Hperm1), N4, Hsum. reflexivity.
    + lia.
  - intros h Hh. destruct (N7 h Hh) as (r & R1 & R2 & R3). apply Hin in R1. split; [exists (rg_loc r); split; [apply in_map; assumption|assumption]|].
    unfold idle in *. rewrite (touched_runs_in P K s live un r) in R3 by assumption. assumption.
  - cbv zeta. rewrite Z.sub_0_r in *. assert (0 <= (want + P - 1) / P) by (apply Z.div_pos; lia). rewrite Z.max_r in * by assumption. split; [assumption|].
    intros Hall. rewrite N9 by assumption. rewrite Hsum. reflexivity.
Qed.

(** ** Histories *)

Lemma rs_contribute_ok P K s live un loc : 0 < P -> 0 <= K -> rs_ok P K s live un -> (forall l, In l (locs s) -> disj (loc, K) (l, K)) ->
  rs_ok P K (rs_contribute s (rg_new P K loc)) live (fun h => un h || in_run (loc, K) h).
Proof.
  intros HP HK H Hd. unfold rs_contribute. destruct (add_to_list_spec (rs_list s) (rg_new P K loc) (sk_sorted _ _ _ _ _ H)) as (X1 & X2).
  assert (Hin : forall q, In q (add_to_list (rs_list s) (rg_new P K loc)) <-> q = rg_new P K loc \/ In q (rs_list s)).
  { intros q. split; intros Hq.
    - apply (Permutation_in _ (Permutation_sym X2)) in Hq. destruct Hq as [<-|Hq]; auto.
    - apply (Permutation_in _ X2). destruct Hq as [->|Hq]; [left; reflexivity|right; assumption]. }
  constructor; cbn [rs_list rs_n rs_free_backed rs_low].
  - apply (fop_perm _ (apart_sym K) _ _ X2). apply fop_cons; [|apply (sk_apart _ _ _ _ _ H)]. intros q Hq. unfold apart_loc. cbn [rg_new rg_loc]. apply Hd. apply in_map. assumption.
  - intros q Hq. apply Hin in Hq. destruct Hq as [->|Hq].
    + cbn [rg_new rg_loc]. assert (Hnil : runs_in P K loc live = []).
      { assert (Hno : forall x, In x live -> starts_in P K loc x = false).
        { intros x Hx. destruct (sk_in _ _ _ _ _ H x Hx) as (r & Hr & Hs). apply (starts_in_disj P K (rg_loc r) loc x HP); [|assumption].
          apply disj_sym. apply Hd. apply in_map. assumption. }
        unfold runs_in. clear - Hno. induction live as [|x live IH]; [reflexivity|]. cbn [filter]. rewrite (Hno x (or_introl eq_refl)). apply IH. intros y Hy. apply Hno. right. assumption. }
      rewrite Hnil. apply (rg_ok_ext P K loc _ _ (fun _ => true)); [apply rg_reach_ok; [assumption|assumption|constructor]|].
      intros h Hh. unfold in_run. cbn [fst snd]. replace ((loc <=? h) && (h <? loc + K)) with true by lia. rewrite orb_true_r. reflexivity.
    + apply (rg_ok_ext _ _ _ _ _ _ _ (sk_ok _ _ _ _ _ H q Hq)). intros h Hh. specialize (Hd (rg_loc q) ltac:(apply in_map; assumption)).
      unfold in_run. unfold disj in Hd. cbn [fst snd] in *. replace ((loc <=? h) && (h <? loc + K)) with false by lia. rewrite orb_false_r. reflexivity.
  - intros x Hx. destruct (sk_in _ _ _ _ _ H x Hx) as (r & Hr & Hs). exists r. split; [apply Hin; right; assumption|assumption].
  - apply (sk_disj _ _ _ _ _ H).
  - assumption.
  - rewrite (sk_n _ _ _ _ _ H), <- (Permutation_length X2). cbn [length]. lia.
  - rewrite <- (perm_zsum _ _ _ X2). cbn [map rg_new rg_free_backed]. rewrite zsum_cons, (sk_free _ _ _ _ _ H). lia.
  - cbn [rg_new rg_free_backed]. pose proof (sk_low _ _ _ _ _ H). lia.
Qed.

Lemma set_idle_perm P K l l' live un : Permutation l l' -> set_idle P K l live un = set_idle P K l' live un.
Proof. unfold set_idle. induction 1; cbn [map]; rewrite ?zsum_cons; lia. Qed.

Lemma rs_ok_ext P K s live un un' : rs_ok P K s live un -> (forall h, un h = un' h) -> rs_ok P K s live un'.
Proof. intros [A1 A2 A3 A4 A5 A6 A7 A8] E. constructor; try assumption. intros r Hr. apply (rg_ok_ext _ _ _ _ _ un); auto. Qed.

Lemma rs_reach_ok P K s live un lo : 0 < P -> 0 <= K -> rs_reach P K s live un lo -> rs_ok P K s live un /\ rs_low s = lo.
Proof.
  intros HP HK H. induction H as [mo|s live un lo loc un' H IH Hd ->|s live un lo n s' p b un' H IH Hn E ->|s l1 p n l2 un lo os s' calls un' H IH E ->
    |s live un lo os desired adaptive hit_limit s' c calls un' H IH Hd E ->].
  - split; [|reflexivity]. constructor; cbn [rs_new rs_list rs_n rs_free_backed rs_low length map]; try (intros ? []); try constructor; try reflexivity; lia.
  - destruct IH as (IH & <-). pose proof (rs_contribute_ok P K s live un loc HP HK IH Hd) as H'. split; [assumption|].
    pose proof (set_idle_ok _ _ _ _ _ HP HK H') as Hi.
    assert (Hp : Permutation (loc :: locs s) (locs (rs_contribute s (rg_new P K loc)))).
    { unfold locs, rs_contribute. cbn [rs_list]. apply (Permutation_map rg_loc (l := rg_new P K loc :: rs_list s)). apply add_to_list_spec. apply (sk_sorted _ _ _ _ _ IH). }
    rewrite (set_idle_perm _ _ _ _ _ _ Hp), <- Hi. pose proof (sk_low _ _ _ _ _ H') as Hl. change (rs_low (rs_contribute s (rg_new P K loc))) with (rs_low s) in *. lia.
  - destruct IH as (IH & <-). destruct (rs_get_ok P K s live un n HP HK IH Hn) as (s1 & res & E1 & M). rewrite E in E1. injection E1 as <- <-. cbv iota beta in M.
    destruct M as (M1 & _ & _ & M2 & M3). split; [assumption|]. rewrite (set_idle_perm _ _ _ _ _ _ M2), <- (set_idle_ok _ _ _ _ _ HP HK M1). assumption.
  - destruct IH as (IH & <-). destruct (rs_put_ok P K s l1 p n l2 un os HP HK IH) as (s1 & calls1 & E1 & M1 & _ & _ & _ & M2 & M3 & M4 & _). rewrite E in E1. injection E1 as <- <-.
    split; [assumption|]. rewrite (set_idle_perm _ _ _ _ _ _ M2), <- (set_idle_ok _ _ _ _ _ HP HK M1). pose proof (sk_low _ _ _ _ _ IH). lia.
  - destruct IH as (IH & <-). destruct (rs_release_ok P K s live un os desired adaptive hit_limit HP HK IH Hd) as (s1 & calls1 & E1 & M1 & M2 & M3 & _). rewrite E in E1.
    injection E1 as E1 _ E2. subst s1 calls1. split; [assumption|]. rewrite <- M2, <- (set_idle_ok _ _ _ _ _ HP HK M1). assumption.
Qed.

(** ** The theorems *)

(** The runs held are disjoint, each inside one region. *)
Theorem set_runs : forall P K s live un lo, 0 < P -> 0 <= K -> rs_reach P K s live un lo ->
  ForallOrdPairs disj live /\
  (forall x, In x live -> 0 < snd x /\ exists l, In l (locs s) /\ l * P <= fst x /\ fst x + snd x <= (l + K) * P) /\
  ForallOrdPairs (fun a b => disj (a, K) (b, K)) (locs s).
Proof.
  intros P K s live un lo HP HK H. apply rs_reach_ok in H; [|assumption..]. destruct H as (H & _). split; [apply (sk_disj _ _ _ _ _ H)|]. split.
  - intros x Hx. destruct (sk_in _ _ _ _ _ H x Hx) as (r & Hr & Hs). destruct (rg_ok_live _ _ _ _ _ _ HP HK (sk_ok _ _ _ _ _ H r Hr)) as (_ & L & _).
    specialize (L x ltac:(unfold runs_in; apply filter_In; auto)). destruct L as (L1 & L2 & L3). split; [assumption|]. exists (rg_loc r). split; [apply in_map; assumption|]. auto.
  - apply (fop_map rg_loc (fun a b => disj (a, K) (b, K))). apply (sk_apart _ _ _ _ _ H).
Qed.

Lemma fold_stats P K l : forall a b c, fold_left (fun acc r => stats_add acc (rg_stats P K r)) l (a, b, c) =
  (a + zsum (map (fun _ => K * P) l), b + zsum (map (rg_free_pages P K) l), c + zsum (map (rg_unmapped_pages P K) l)).
Proof.
  induction l as [|r l IH]; intros a b c; cbn [fold_left map]; [change (zsum []) with 0; rewrite !Z.add_0_r; reflexivity|].
  unfold stats_add at 2, rg_stats at 2. rewrite IH, !zsum_cons, !Z.add_assoc. reflexivity.
Qed.

Lemma used_split P K s live un : 0 < P -> 0 <= K -> rs_ok P K s live un -> zsum (map rg_used_pages (rs_list s)) = zsum (map snd live).
Proof.
  intros HP HK H.
  assert (E : zsum (map rg_used_pages (rs_list s)) = zsum (map (fun r => zsum (map snd (runs_in P K (rg_loc r) live))) (rs_list s))).
  { f_equal. apply map_ext_in. intros r Hr. apply (rg_ok_live _ _ _ _ _ _ HP HK (sk_ok _ _ _ _ _ H r Hr)). }
  rewrite E. clear E. pose proof (sk_in _ _ _ _ _ H) as Hin. pose proof (sk_apart _ _ _ _ _ H) as Hap. clear H.
  induction live as [|x live IH].
  - cbn [map]. clear. induction (rs_list s) as [|r l IH]; [reflexivity|]. cbn [map]. rewrite zsum_cons, IH. reflexivity.
  - cbn [map]. rewrite zsum_cons, <- IH by (intros y Hy; apply Hin; right; assumption). destruct (Hin x (or_introl eq_refl)) as (r & Hr & Hs).
    apply in_split in Hr. destruct Hr as (a & b & Eab). rewrite Eab in Hap |- *. apply (fop_mid _ (apart_sym K)) in Hap. destruct Hap as (Hap & _).
    rewrite !map_app. cbn [map]. rewrite !zsum_app, !zsum_cons. unfold runs_in at 2. cbn [filter]. rewrite Hs. cbn [map]. rewrite zsum_cons.
    assert (G : forall l, (forall q, In q l -> apart_loc K r q) -> zsum (map (fun r => zsum (map snd (runs_in P K (rg_loc r) (x :: live)))) l) = zsum (map (fun r => zsum (map snd (runs_in P K (rg_loc r) live))) l)).
    { intros l Hl. f_equal. apply map_ext_in. intros q Hq. unfold runs_in. cbn [filter]. rewrite (starts_in_disj P K (rg_loc r) (rg_loc q) x HP (Hl q Hq) Hs). reflexivity. }
    rewrite !G by (intros q Hq; apply Hap; apply in_or_app; auto). fold (runs_in P K (rg_loc r) live). lia.
Qed.

Lemma rg_ok_unbacked P K loc r live un : 0 < P -> 0 <= K -> rg_ok P K loc r live un -> forall h, loc <= h < loc + K -> un h = true -> touched P live h = false.
Proof.
  intros HP HK H h Hh Hu. destruct (rg_ok_live P K loc r live un HP HK H) as (_ & Lv2 & _). apply negb_true_iff. rewrite <- used_touched by (assumption || (intros x Hx; apply Lv2; assumption)).
  replace h with (loc + (h - loc)) by lia. rewrite <- (gk_used _ _ _ _ _ _ H) by lia. destruct (rg_used r (h - loc) =? 0) eqn:E; [reflexivity|]. exfalso.
  assert (Hb : rg_backed r (h - loc) = true) by (apply (co_backed _ _ _ (gk_cnt _ _ _ _ _ _ H)); lia). rewrite (gk_backed _ _ _ _ _ _ H) in Hb by lia.
  replace (loc + (h - loc)) with h in Hb by lia. rewrite Hu in Hb. discriminate.
Qed.

Lemma rg_ok_unmapped P K loc r live un : 0 <= K -> rg_ok P K loc r live un -> rg_unmapped_pages P K r = P * hugepages_with un loc K.
Proof.
  intros HK H. unfold rg_unmapped_pages. rewrite (co_nbacked _ _ _ (gk_cnt _ _ _ _ _ _ H)), hugepages_with_zcount.
  rewrite (zcount_ext (rg_backed r) (fun i => negb (un (loc + i)))) by (intros i Hi; apply (gk_backed _ _ _ _ _ _ H); lia).
  rewrite (zcount_not (fun i => un (loc + i))). replace (Z.of_nat (Z.to_nat K)) with K by lia. ring.
Qed.

(** A hugepage of a region is without memory only if no live run touches it.  The totals are exact: the pages of all
    regions, those without memory, the free ones (the rest, less the live runs); so are the number of regions, of idle
    hugepages, and the least number of them since the last release. *)
Theorem set_stats : forall P K s live un lo, 0 < P -> 0 <= K -> rs_reach P K s live un lo ->
  (forall l h, In l (locs s) -> l <= h < l + K -> un h = true -> touched P live h = false) /\
  (let system := Z.of_nat (length (locs s)) * (K * P) in
   let unmapped := P * zsum (map (fun l => hugepages_with un l K) (locs s)) in
   rs_stats P K s = (system, system - unmapped - zsum (map snd live), unmapped)) /\
  rs_n s = Z.of_nat (length (locs s)) /\ rs_free_backed s = set_idle P K (locs s) live un /\ rs_low s = lo /\ lo <= set_idle P K (locs s) live un.
Proof.
  intros P K s live un lo HP HK H. apply rs_reach_ok in H; [|assumption..]. destruct H as (H & Hlo).
  pose proof (set_idle_ok _ _ _ _ _ HP HK H) as Hidle. pose proof (sk_low _ _ _ _ _ H) as Hl.
  split; [|split; [|split; [|split; [exact Hidle|split; [exact Hlo|lia]]]]].
  - intros l h Hin Hh Hu. unfold locs in Hin. apply in_map_iff in Hin. destruct Hin as (r & <- & Hr). rewrite <- (touched_runs_in P K s live un r h HP HK H Hr Hh).
    apply (rg_ok_unbacked P K (rg_loc r) r _ un HP HK (sk_ok _ _ _ _ _ H r Hr) h Hh Hu).
  - cbv zeta. unfold rs_stats. rewrite fold_stats, !Z.add_0_l. unfold locs. rewrite map_length, map_map.
    assert (E1 : zsum (map (fun _ : region => K * P) (rs_list s)) = Z.of_nat (length (rs_list s)) * (K * P)).
    { clear. induction (rs_list s) as [|r l IH]; [reflexivity|]. cbn [map length]. rewrite zsum_cons, IH, Nat2Z.inj_succ. ring. }
    assert (E2 : zsum (map (rg_unmapped_pages P K) (rs_list s)) = P * zsum (map (fun r => hugepages_with un (rg_loc r) K) (rs_list s))).
    { assert (Hu : forall r, In r (rs_list s) -> rg_unmapped_pages P K r = P * hugepages_with un (rg_loc r) K).
      { intros r Hr. apply (rg_ok_unmapped P K (rg_loc r) r _ un HK (sk_ok _ _ _ _ _ H r Hr)). }
      clear - Hu. induction (rs_list s) as [|r l IH]; [cbn; lia|]. cbn [map]. rewrite !zsum_cons, IH by (intros q Hq; apply Hu; right; assumption).
      rewrite (Hu r (or_introl eq_refl)). ring. }
    assert (E3 : zsum (map (rg_free_pages P K) (rs_list s)) = zsum (map (fun _ : region => K * P) (rs_list s)) - zsum (map (rg_unmapped_pages P K) (rs_list s)) - zsum (map rg_used_pages (rs_list s))).
    { clear. induction (rs_list s) as [|r l IH]; [reflexivity|]. cbn [map]. rewrite !zsum_cons, IH. unfold rg_free_pages. ring. }
    rewrite E3, (used_split P K s live un HP HK H), E1, E2. reflexivity.
  - rewrite (sk_n _ _ _ _ _ H). unfold locs. rewrite map_length. reflexivity.
Qed.

(** Getting a run always terminates normally, and fails only if no region has a free run of that length.  The run
    is free, at the start of a shortest maximal free run that fits of its region, and its region is one of those
    that can serve the request with the shortest longest free run.  [from_released] tells exactly whether it
    touches a hugepage without memory. *)
Theorem set_get : forall P K s live un lo n, 0 < P -> 0 <= K -> rs_reach P K s live un lo -> 0 < n ->
  exists s' res, rs_get P K s n = Some (s', res) /\
  match res with
  | None => s' = s /\ forall l p, In l (locs s) -> ~ free_at P K l (runs_in P K l live) p n
  | Some (p, from_released) =>
      (forall x, In x live -> disj (p, n) x) /\
      (exists l, In l (locs s) /\ free_at P K l (runs_in P K l live) p n /\
         (exists len, n <= len /\ maximal_at P K l (runs_in P K l live) p len /\
            forall p' len', n <= len' -> maximal_at P K l (runs_in P K l live) p' len' -> len <= len') /\
         forall l' m p0, In l' (locs s) -> (exists p', free_at P K l' (runs_in P K l' live) p' n) -> 0 < m ->
           free_at P K l (runs_in P K l live) p0 m -> exists p', free_at P K l' (runs_in P K l' live) p' m) /\
      (from_released = true <-> exists h, touches P (p, n) h = true /\ un h = true) /\
      Permutation (locs s) (locs s')
  end.
Proof.
  intros P K s live un lo n HP HK H Hn. apply rs_reach_ok in H; [|assumption..]. destruct H as (H & _).
  destruct (rs_get_ok P K s live un n HP HK H Hn) as (s' & res & E & M). exists s', res. split; [exact E|]. destruct res as [(p, b)|]; [|exact M].
  destruct M as (M1 & M2 & M3 & M4 & _). split; [|split; [exact M2|split; [exact M3|exact M4]]].
  pose proof (sk_disj _ _ _ _ _ M1) as D. apply fop_cons_inv in D. apply D.
Qed.

(** Giving back a live run always succeeds.  The OS is asked exactly for the hugepages that only this run touched,
    unless regions are used more often, when it is asked for none. *)
Theorem set_put : forall P K s l1 p n l2 un lo os, 0 < P -> 0 <= K -> rs_reach P K s (l1 ++ (p, n) :: l2) un lo ->
  exists s' calls, rs_put P K os s p n = Some (Some (s', calls)) /\
    (forall h, (exists x, In x calls /\ in_rng x h) <-> rs_more_often s = false /\ touches P (p, n) h = true /\ touched P (l1 ++ l2) h = false) /\
    ForallOrdPairs (fun a b => fst a + snd a < fst b) calls /\ (forall x, In x calls -> 0 < snd x) /\
    Permutation (locs s) (locs s').
Proof.
  intros P K s l1 p n l2 un lo os HP HK H. apply rs_reach_ok in H; [|assumption..]. destruct H as (H & _).
  destruct (rs_put_ok P K s l1 p n l2 un os HP HK H) as (s' & calls & E & _ & A & B & C & D & _). exists s', calls. auto.
Qed.

(** A page that is in no region is refused, and nothing changes. *)
Theorem set_put_other : forall P K os s p n, (forall l, In l (locs s) -> ~ (l * P <= p < (l + K) * P)) -> rs_put P K os s p n = Some None.
Proof.
  intros P K os s p n H. unfold rs_put. assert (G : forall after before, (forall r, In r after -> ~ (rg_loc r * P <= p < (rg_loc r + K) * P)) -> rs_put_loop P K os s before after p n = Some None).
  { induction after as [|r after IH]; intros before Ha; cbn [rs_put_loop]; [reflexivity|]. specialize (Ha r (or_introl eq_refl)) as Hr. unfold rg_contains.
    replace ((rg_loc r * P <=? p) && (p <? (rg_loc r + K) * P)) with false by lia. apply IH. intros q Hq. apply Ha. right. assumption. }
  apply G. intros r Hr. apply H. apply in_map. assumption.
Qed.

(** Release reports exactly what the OS took, asks it only for idle hugepages of the regions, each at most once, and
    takes no more hugepages than cover the amount wanted: the pages asked for when a limit was hit, otherwise the low
    water mark (adaptive) or a tenth of the idle pages.  If the OS does not refuse, it takes exactly that many, or
    all there are. *)
Theorem set_release : forall P K s live un lo (os : Z -> Z -> bool) desired adaptive hit_limit, 0 < P -> 0 <= K -> rs_reach P K s live un lo -> 0 <= desired ->
  exists s' (calls : list (Z * Z)), let released := zsum (map (fun x => if os (fst x) (snd x) then snd x else 0) calls) in
    rs_release P K os s desired adaptive hit_limit = Some (s', released * P, calls) /\
    (forall x, In x calls -> 0 < snd x) /\ ForallOrdPairs disj calls /\
    (forall h, (exists x, In x calls /\ in_rng x h) -> (exists l, In l (locs s) /\ l <= h < l + K) /\ un h = false /\ touched P live h = false) /\
    let idle_now := set_idle P K (locs s) live un in
    let want := if hit_limit then desired else if adaptive then lo * P else idle_now * P / 10 in
    released <= (want + P - 1) / P /\
    ((forall x : Z * Z, In x calls -> os (fst x) (snd x) = true) -> released = Z.min ((want + P - 1) / P) idle_now) /\
    locs s' = locs s.
Proof.
  intros P K s live un lo os desired adaptive hit_limit HP HK H Hd. apply rs_reach_ok in H; [|assumption..]. destruct H as (H & <-).
  destruct (rs_release_ok P K s live un os desired adaptive hit_limit HP HK H Hd) as (s' & calls & E & _ & A & _ & _ & B & C & D & F & G).
  exists s', calls. cbv zeta. split; [exact E|]. split; [assumption|]. split; [assumption|]. split.
  - intros h Hh. destruct (D h Hh) as (D1 & D2). split; [assumption|]. unfold idle in D2. apply andb_prop in D2. destruct D2. split; apply negb_true_iff; assumption.
  - rewrite <- (set_idle_ok _ _ _ _ _ HP HK H). split; [exact F|]. split; [exact G|assumption].
Qed.

(** The comment at huge_region.h:193-195 says that the adaptive release is capped by the pages asked for.  It is not:
    asked for one page of four-page hugepages, it releases two hugepages. *)
Definition set_ex_os : Z -> Z -> bool := fun _ _ => true.
Definition set_ex0 : region_set := rs_contribute (rs_contribute (rs_new true) (rg_new 4 3 10)) (rg_new 4 3 20).
Definition set_ex1 : region_set := match rs_get 4 3 set_ex0 9 with Some (s, _) => s | None => set_ex0 end.
Definition set_ex2 : region_set := match rs_get 4 3 set_ex1 5 with Some (s, _) => s | None => set_ex0 end.
Definition set_ex3 : region_set := match rs_put 4 3 set_ex_os set_ex2 40 9 with Some (Some (s, _)) => s | _ => set_ex0 end.
Definition set_ex4 : region_set := match rs_release 4 3 set_ex_os set_ex3 0 true true with Some (s, _, _) => s | None => set_ex0 end.

Lemma set_ex_reach : exists un lo, rs_reach 4 3 set_ex4 [(80, 5)] un lo /\ map un [10; 11; 12; 20; 21; 22] = [false; false; false; false; false; true] /\ lo = 3.
Proof.
  eexists _, _. split; [|split].
  - eapply (rsr_release 4 3 set_ex3 _ _ _ set_ex_os 0 true true set_ex4 0 []); [|lia| |reflexivity].
    + eapply (rsr_put 4 3 set_ex2 [(80, 5)] 40 9 [] _ _ set_ex_os set_ex3 []); [| |reflexivity].
      * eapply (rsr_get 4 3 set_ex1 [(40, 9)] _ _ 5 set_ex2 80 true); [|lia| |reflexivity].
        -- eapply (rsr_get 4 3 set_ex0 [] _ _ 9 set_ex1 40 true); [|lia| |reflexivity].
           ++ unfold set_ex0. eapply rsr_contribute; [eapply rsr_contribute; [apply rsr_new|intros l []|reflexivity]| |reflexivity].
              intros l Hl. vm_compute in Hl. destruct Hl as [<-|[]]. unfold disj. cbn [fst snd]. lia.
           ++ assert (Hx : match rs_get 4 3 set_ex0 9 with Some (_, x) => x = Some (40, true) | None => False end) by (vm_compute; reflexivity).
              unfold set_ex1. destruct (rs_get 4 3 set_ex0 9) as [(r, x)|]; [subst x; reflexivity|contradiction].
        -- assert (Hx : match rs_get 4 3 set_ex1 5 with Some (_, x) => x = Some (80, true) | None => False end) by (vm_compute; reflexivity).
           unfold set_ex2. destruct (rs_get 4 3 set_ex1 5) as [(r, x)|]; [subst x; reflexivity|contradiction].
      * assert (Hx : match rs_put 4 3 set_ex_os set_ex2 40 9 with Some (Some (_, x)) => x = [] | _ => False end) by (vm_compute; reflexivity).
        unfold set_ex3. destruct (rs_put 4 3 set_ex_os set_ex2 40 9) as [[(r, x)|]|]; [subst x; reflexivity|contradiction..].
    + assert (Hx : match rs_release 4 3 set_ex_os set_ex3 0 true true with Some (_, x, y) => x = 0 /\ y = [] | _ => False end) by (vm_compute; split; reflexivity).
      unfold set_ex4. destruct (rs_release 4 3 set_ex_os set_ex3 0 true true) as [((r, x), y)|]; [destruct Hx; subst x y; reflexivity|contradiction].
  - vm_compute. reflexivity.
  - vm_compute. reflexivity.
Qed.

Theorem set_release_capped_refuted :
  ~ (forall P K s live un lo os desired s' released calls, 0 < P -> 0 <= K -> rs_reach P K s live un lo -> 0 <= desired ->
       rs_release P K os s desired true false = Some (s', released, calls) -> released < desired + P).
Proof.
  intros F. destruct set_ex_reach as (un & lo & H & _).
  assert (Hx : match rs_release 4 3 set_ex_os set_ex4 1 true false with Some (_, x, y) => x = 12 | _ => False end) by (vm_compute; reflexivity).
  destruct (rs_release 4 3 set_ex_os set_ex4 1 true false) as [((s', x), y)|] eqn:E; [|contradiction]. subst x.
  specialize (F 4 3 set_ex4 _ un lo set_ex_os 1 _ _ _ eq_refl ltac:(lia) H ltac:(lia) E). lia.
Qed.

(** The same history: what the theorems above say of it. *)
Example set_example :
  rs_stats 4 3 set_ex4 = (24, 24 - 4 - 5, 4) /\
  rs_free_backed set_ex4 = 3 /\ rs_low set_ex4 = 3 /\
  match rs_get 4 3 set_ex4 6 with Some (_, x) => x = Some (85, true) | None => False end /\
  match rs_get 4 3 set_ex4 8 with Some (_, x) => x = Some (40, false) | None => False end /\
  match rs_get 4 3 set_ex4 13 with Some (_, x) => x = None | None => False end /\
  match rs_put 4 3 set_ex_os set_ex4 4 1 with Some x => x = None | None => False end /\
  match rs_release 4 3 set_ex_os set_ex4 5 false true with Some (_, x, y) => x = 8 /\ y = [(10, 2)] | None => False end.
Proof. repeat match goal with |- _ /\ _ => split end; vm_compute; (reflexivity || (split; reflexivity)). Qed.

Print Assumptions set_runs.
Print Assumptions set_stats.
Print Assumptions set_get.
Print Assumptions set_put.
Print Assumptions set_put_other.
Print Assumptions set_release.
Print Assumptions set_release_capped_refuted.
