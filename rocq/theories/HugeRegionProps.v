(** * A region of hugepages (C32)

    Specification.  The region has [K] hugepages of [P] pages, the first one is hugepage [loc].
    A history is a sequence of gets, puts and releases in which every call to the OS may succeed
    or fail ([os]).  [live] lists the page runs (first page, number of pages) that are held, and
    [un h] says that the hugepage [h] has no memory behind it: so it is at first, until a run on it
    is handed out, and again after a successful call to unback it. *)
From Verif Require Import Base Bitmap BitmapProofs RangeTrackerProofs RangeTrackerProofs2 RangeTrackerProps HugeRegion HugeRegionProofs HugeRegionProofs2.

(** The run [x] has a page on hugepage [h]. *)
Definition touches (P : Z) (x : Z * Z) (h : Z) : bool := (fst x / P <=? h) && (h <=? (fst x + snd x - 1) / P).
Definition touched (P : Z) (live : list (Z * Z)) (h : Z) : bool := existsb (fun x => touches P x h) live.
(** How many of the hugepages from [loc] to [loc + K] satisfy [f]. *)
Definition hugepages_with (f : Z -> bool) (loc K : Z) : Z := zsum (map (fun h => if f h then 1 else 0) (zseq loc (Z.to_nat K))).
(** The run (p, n) is in the region and meets no live run. *)
Definition free_at (P K loc : Z) (live : list (Z * Z)) (p n : Z) : Prop :=
  loc * P <= p /\ p + n <= (loc + K) * P /\ forall x, In x live -> disj (p, n) x.
(** It cannot be extended on either side. *)
Definition maximal_at (P K loc : Z) (live : list (Z * Z)) (p n : Z) : Prop :=
  free_at P K loc live p n /\ ~ free_at P K loc live (p - 1) (n + 1) /\ ~ free_at P K loc live p (n + 1).

Inductive rg_reach (P K loc : Z) : region -> list (Z * Z) -> (Z -> bool) -> Prop :=
| rgr_new : rg_reach P K loc (rg_new P K loc) [] (fun _ => true)
| rgr_get r live un n r' p b : rg_reach P K loc r live un -> 0 < n -> rg_get P K r n = Some (r', Some (p, b)) ->
    rg_reach P K loc r' ((p, n) :: live) (fun h => un h && negb (touches P (p, n) h))
| rgr_put r l1 p n l2 un os release r' calls : rg_reach P K loc r (l1 ++ (p, n) :: l2) un ->
    rg_put P K os r p n release = Some (r', calls) ->
    rg_reach P K loc r' (l1 ++ l2) (fun h => un h || unbacked_by os calls h)
| rgr_release r live un os desired adaptive r' c calls : rg_reach P K loc r live un -> 0 <= desired ->
    rg_release P K os r desired adaptive = Some (r', c, calls) ->
    rg_reach P K loc r' live (fun h => un h || unbacked_by os calls h).

(** ** Pages and hugepages *)

Lemma touches_spec P x h : 0 < P -> 0 < snd x -> touches P x h = true <-> exists j, in_rng x j /\ j / P = h.
Proof.
  intros HP Hx. unfold touches, in_rng. destruct x as (p, n). cbn [fst snd] in *. split.
  - intros H. assert (H1 : p / P <= h) by lia. assert (H2 : h <= (p + n - 1) / P) by lia.
    exists (Z.max p (h * P)). pose proof (Z.div_mod p P ltac:(lia)). pose proof (Z.mod_pos_bound p P HP).
    pose proof (Z.div_mod (p + n - 1) P ltac:(lia)). pose proof (Z.mod_pos_bound (p + n - 1) P HP).
    assert (h * P <= p + n - 1) by nia. split; [lia|].
    symmetry. apply (Z.div_unique _ P h (Z.max p (h * P) - P * h)); nia.
  - intros (j & Hj & <-). assert (p / P <= j / P) by (apply Z.div_le_mono; lia).
    assert (j / P <= (p + n - 1) / P) by (apply Z.div_le_mono; lia). lia.
Qed.

Lemma touches_ov P p n h : 0 < P -> 0 < n -> touches P (p, n) h = (0 <? ov P p n h).
Proof.
  intros HP Hn. apply Bool.eq_iff_eq_true. rewrite touches_spec by assumption. rewrite Z.ltb_lt, ov_touch by assumption. reflexivity.
Qed.

Lemma count_block P (f : Z -> bool) h : 0 < P -> (zcount f (h * P) (Z.to_nat P) =? 0) = true <-> forall j, j / P = h -> f j = false.
Proof.
  intros HP. assert (Hb : forall j, j / P = h <-> h * P <= j < h * P + P).
  { intros j. split.
    - intros <-. pose proof (Z.div_mod j P ltac:(lia)). pose proof (Z.mod_pos_bound j P HP). lia.
    - intros H. symmetry. apply (Z.div_unique _ P h (j - P * h)); lia. }
  rewrite Z.eqb_eq. split.
  - intros H j Hj. apply Hb in Hj. apply (zcount_zero_inv f (Z.to_nat P) (h * P)); [assumption|lia].
  - intros H. apply zcount_none. intros j Hj. apply H. apply Hb. lia.
Qed.

Lemma used_touched P live h : 0 < P -> (forall x, In x live -> 0 < snd x) ->
  (zcount (covered live) (h * P) (Z.to_nat P) =? 0) = negb (touched P live h).
Proof.
  intros HP Hx. apply Bool.eq_iff_eq_true. rewrite count_block by assumption. rewrite negb_true_iff. unfold touched. split.
  - intros H. destruct (existsb _ live) eqn:E; [|reflexivity]. exfalso. apply existsb_exists in E. destruct E as (x & Hin & Ht).
    apply touches_spec in Ht; [|assumption|auto]. destruct Ht as (j & Hj & Ej). specialize (H j Ej).
    assert (covered live j = true) by (apply covered_spec; eauto). congruence.
  - intros H j Hj. destruct (covered live j) eqn:E; [|reflexivity]. exfalso. apply covered_spec in E. destruct E as (x & Hin & Hr).
    assert (existsb (fun x => touches P x h) live = true); [|congruence]. apply existsb_exists. exists x. split; [assumption|].
    apply touches_spec; [assumption|auto|]. eauto.
Qed.

Lemma hugepages_with_zcount f loc K : hugepages_with f loc K = zcount (fun i => f (loc + i)) 0 (Z.to_nat K).
Proof.
  unfold hugepages_with. generalize (Z.to_nat K) as k. intros k.
  assert (G : forall a, zsum (map (fun h => if f h then 1 else 0) (zseq (loc + a) k)) = zcount (fun i => f (loc + i)) a k).
  { induction k as [|k IH]; intros a; [reflexivity|]. cbn [zseq map zcount]. rewrite zsum_cons.
    replace (loc + a + 1) with (loc + (a + 1)) by lia. rewrite IH. reflexivity. }
  specialize (G 0). rewrite Z.add_0_r in G. exact G.
Qed.

(** ** The invariant *)

Definition shift (o : Z) (x : Z * Z) : Z * Z := (fst x - o, snd x).

Record rg_ok (P K loc : Z) (r : region) (live : list (Z * Z)) (un : Z -> bool) : Prop := {
  gk_loc : rg_loc r = loc;
  gk_reach : rt_reach (K * P) (rg_t r) (map (shift (loc * P)) live);
  gk_used : forall i, 0 <= i < K -> rg_used r i = zcount (covered live) ((loc + i) * P) (Z.to_nat P);
  gk_backed : forall i, 0 <= i < K -> rg_backed r i = negb (un (loc + i));
  gk_cnt : cnt_ok P K r }.

Lemma shift_free P K loc live i n : run_free (K * P) (map (shift (loc * P)) live) i n <-> free_at P K loc live (loc * P + i) n.
Proof.
  unfold run_free, free_at. replace ((loc + K) * P) with (loc * P + K * P) by ring. split; intros (A & B & C).
  - split; [lia|]. split; [lia|]. intros x Hx. specialize (C (shift (loc * P) x) (in_map _ _ _ Hx)). unfold disj, shift in *. cbn [fst snd] in *. lia.
  - split; [lia|]. split; [lia|]. intros y Hy. apply in_map_iff in Hy. destruct Hy as (x & <- & Hx). specialize (C x Hx).
    unfold disj, shift in *. cbn [fst snd] in *. lia.
Qed.

Lemma free_at_shift P K loc live p n : free_at P K loc live p n <-> run_free (K * P) (map (shift (loc * P)) live) (p - loc * P) n.
Proof. rewrite shift_free. replace (loc * P + (p - loc * P)) with p by lia. reflexivity. Qed.

Lemma shift_maximal P K loc live i n : run_maximal (K * P) (map (shift (loc * P)) live) i n <-> maximal_at P K loc live (loc * P + i) n.
Proof.
  unfold run_maximal, maximal_at. rewrite !shift_free. replace (loc * P + (i - 1)) with (loc * P + i - 1) by lia. reflexivity.
Qed.

Lemma rg_ok_live P K loc r live un : 0 < P -> 0 <= K -> rg_ok P K loc r live un ->
  ForallOrdPairs disj live /\ (forall x, In x live -> loc * P <= fst x /\ 0 < snd x /\ fst x + snd x <= (loc + K) * P) /\
  rt_nused (rg_t r) = zsum (map snd live).
Proof.
  intros HP HK H. assert (HN : 0 <= K * P) by (apply Z.mul_nonneg_nonneg; lia).
  destruct (tracker_live_exact _ _ _ HN (gk_reach _ _ _ _ _ _ H)) as (A & B & C & _).
  split; [|split].
  - clear - A. induction live as [|x live IH]; [constructor|]. cbn [map] in A. apply fop_cons_inv in A. destruct A as (A1 & A2).
    apply fop_cons; [|apply IH; assumption]. intros y Hy. specialize (A1 _ (in_map _ _ _ Hy)).
    unfold disj, shift in *. cbn [fst snd] in A1. lia.
  - intros x Hx. specialize (B _ (in_map _ _ _ Hx)). unfold shift in B. cbn [fst snd] in B. replace ((loc + K) * P) with (loc * P + K * P) by ring. lia.
  - rewrite C, map_map. reflexivity.
Qed.

Lemma covered_disj p n live j : (forall x, In x live -> disj (p, n) x) -> in_run (p, n) j = true -> covered live j = false.
Proof.
  intros D H. destruct (covered live j) eqn:E; [|reflexivity]. apply covered_spec in E. destruct E as (x & Hx & Hin).
  specialize (D x Hx). unfold in_run, disj, in_rng in *. cbn [fst snd] in *. lia.
Qed.

Lemma rg_get_ok P K loc r live un n : 0 < P -> 0 <= K -> rg_ok P K loc r live un -> 0 < n ->
  exists r' res, rg_get P K r n = Some (r', res) /\
  match res with
  | None => r' = r /\ forall p, ~ free_at P K loc live p n
  | Some (p, b) =>
      rg_ok P K loc r' ((p, n) :: live) (fun h => un h && negb (touches P (p, n) h)) /\
      free_at P K loc live p n /\
      (exists len, n <= len /\ maximal_at P K loc live p len /\
         forall p' len', n <= len' -> maximal_at P K loc live p' len' -> len <= len') /\
      (b = true <-> exists h, touches P (p, n) h = true /\ un h = true) /\
      rg_total_unbacked r' = rg_total_unbacked r
  end.
Proof.
  intros HP HK H Hn. assert (HN : 0 <= K * P) by (apply Z.mul_nonneg_nonneg; lia).
  destruct (rg_ok_live P K loc r live un HP HK H) as (Lv1 & Lv2 & Lv3).
  destruct H as [HL HR HU HB HC].
  destruct (tracker_live_exact _ _ _ HN HR) as (_ & _ & _ & _ & _ & _ & T1 & T2).
  destruct (tracker_get_iff_fits _ _ _ n HN HR Hn) as (F1 & F2).
  unfold rg_get. destruct (Z.ltb_spec (rt_longest (rg_t r)) n) as [Hlt|Hge].
  { exists r, None. split; [reflexivity|]. split; [reflexivity|]. intros p Hf. apply free_at_shift in Hf. specialize (T2 _ _ Hn Hf). lia. }
  assert (Hex : exists i, run_free (K * P) (map (shift (loc * P)) live) i n).
  { destruct (T1 ltac:(lia)) as (i & A & B & C). exists i. split; [assumption|]. split; [lia|]. intros x Hx. specialize (C x Hx).
    unfold disj in *. cbn [fst snd] in *. lia. }
  apply F1 in Hex. destruct Hex as (t & i & Ef). destruct (F2 t i Ef) as (R' & Hfree & len & L1 & L2 & L3). rewrite Ef. cbn [obind].
  rewrite HL. set (p := loc * P + i).
  assert (Hfa : free_at P K loc live p n) by (apply shift_free; assumption).
  destruct Hfa as (Fa & Fb & Fc).
  assert (Hcov : forall h, zcount (covered ((p, n) :: live)) (h * P) (Z.to_nat P) = zcount (covered live) (h * P) (Z.to_nat P) + ov P p n h).
  { intros h. rewrite <- zcount_run_ov by assumption. rewrite Z.add_comm.
    rewrite <- zcount_or by (intros j _ Hj; apply (covered_disj p n live j Fc Hj)). apply zcount_ext. intros j _. reflexivity. }
  assert (Cr : cnt_ok P K (rg_with_t r t)) by (destruct HC; constructor; assumption).
  destruct (inc_loop_spec P K HP (Z.to_nat n) (rg_with_t r t) p n false Cr) as (r' & b & E & I1 & I2 & I3 & I4 & I5 & I6 & I7).
  { lia. }
  { intros _. cbn [rg_with_t rg_loc]. rewrite HL. lia. }
  { intros k Hk. cbn [rg_with_t rg_loc rg_used]. rewrite HU, HL by assumption. rewrite <- Hcov.
    pose proof (zcount_bound (covered ((p, n) :: live)) (Z.to_nat P) ((loc + k) * P)). lia. }
  cbn [rg_with_t rg_loc rg_used rg_backed rg_t rg_total_unbacked] in *. rewrite HL in *.
  rewrite E. cbn [obind]. exists r', (Some (p, b)). split; [reflexivity|]. split; [|split; [|split; [|split; [|assumption]]]].
  - constructor.
    + congruence.
    + rewrite I1. cbn [map]. unfold shift at 1. cbn [fst snd]. replace (p - loc * P) with i by (subst p; lia). assumption.
    + intros k Hk. rewrite I5, HU, Hcov by assumption. reflexivity.
    + intros k Hk. rewrite I6, HB by assumption. rewrite touches_ov by assumption. destruct (un (loc + k)), (0 <? ov P p n (loc + k)); reflexivity.
    + assumption.
  - repeat split; assumption.
  - exists len. split; [assumption|]. split; [apply shift_maximal; assumption|]. intros p' len' Hl Hm. apply (L3 (p' - loc * P)); [assumption|].
    apply shift_maximal. replace (loc * P + (p' - loc * P)) with p' by lia. assumption.
  - rewrite I7. split.
    + intros [Hf|(k & Hk & Ho & Hb)]; [discriminate|]. exists (loc + k). rewrite touches_ov by assumption. split; [lia|].
      rewrite HB in Hb by assumption. apply negb_false_iff in Hb. assumption.
    + intros (h & Ht & Hu). right. exists (h - loc). rewrite touches_ov in Ht by assumption.
      assert (Hh : 0 <= h - loc < K).
      { apply Z.ltb_lt in Ht. apply ov_touch in Ht; [|assumption]. destruct Ht as (j & Hj & <-).
        pose proof (Z.div_mod j P ltac:(lia)). pose proof (Z.mod_pos_bound j P HP). clear - HP Fa Fb Hj H H0. nia. }
      split; [assumption|]. replace (loc + (h - loc)) with h by lia. split; [lia|]. rewrite HB by assumption.
      replace (loc + (h - loc)) with h by lia. rewrite Hu. reflexivity.
Qed.

Lemma unbacked_in os calls h : unbacked_by os calls h = true -> exists c, In c calls /\ in_rng c h.
Proof.
  unfold unbacked_by. rewrite existsb_exists. intros (c & Hc & H). exists c. split; [assumption|]. unfold in_run, in_rng in *. lia.
Qed.

(** UnbackHugepages on hugepages that no live run touches. *)
Lemma unback_ok P K loc r live un os should : 0 < P -> 0 <= K -> rg_ok P K loc r live un ->
  (forall k, should k = true -> 0 <= k < K /\ un (loc + k) = false /\ touched P live (loc + k) = false) ->
  exists r' c calls, unback_hugepages P K os r should = Some (r', c, calls) /\
    rg_ok P K loc r' live (fun h => un h || unbacked_by os calls h) /\
    c = unbacked_total os calls /\ rg_total_unbacked r' = rg_total_unbacked r + c /\
    (forall h, (exists x, In x calls /\ in_rng x h) <-> should (h - loc) = true) /\
    (forall x, In x calls -> 0 < snd x) /\
    ForallOrdPairs (fun a b => fst a + snd a < fst b) calls /\
    zsum (map snd calls) = zcount should 0 (Z.to_nat K) /\ rg_free_backed r' = rg_free_backed r - c.
Proof.
  intros HP HK H Hs. destruct (rg_ok_live P K loc r live un HP HK H) as (Lv1 & Lv2 & Lv3). destruct H as [HL HR HU HB HC].
  destruct (unback_loop_spec P K os should HP (Z.to_nat K) r 0 (map (shift (loc * P)) live) ltac:(lia) ltac:(lia) HR HC)
    as (r' & c & calls & E & G1 & G2 & G3 & G4 & G5 & G6 & G7 & G8 & G9 & G10 & G11 & G12).
  { intros k Hk Hsk. destruct (Hs k Hsk) as (Q1 & Q2 & Q3). split; [lia|]. rewrite HB, Q2 by assumption. split; [reflexivity|].
    assert (Hu : (zcount (covered live) ((loc + k) * P) (Z.to_nat P) =? 0) = true).
    { rewrite used_touched by (assumption || (intros x Hx; apply Lv2; assumption)). rewrite Q3. reflexivity. }
    split; [rewrite HU by assumption; apply Z.eqb_eq; assumption|].
    intros y Hy. apply in_map_iff in Hy. destruct Hy as (x & <- & Hx). unfold shift, disj. cbn [fst snd].
    destruct (Z.le_gt_cases (k * P + P) (fst x - loc * P)); [left; assumption|].
    destruct (Z.le_gt_cases (fst x - loc * P + snd x) (k * P)); [right; assumption|]. exfalso.
    destruct (Lv2 x Hx) as (X1 & X2 & X3).
    assert (touched P live (loc + k) = true); [|congruence]. unfold touched. apply existsb_exists. exists x. split; [assumption|].
    apply touches_spec; [assumption|assumption|]. exists (Z.max (fst x) ((loc + k) * P)). unfold in_rng.
    replace ((loc + k) * P) with (loc * P + k * P) by ring. split; [lia|].
    symmetry. apply (Z.div_unique _ P (loc + k) (Z.max (fst x) (loc * P + k * P) - P * (loc + k))); [|lia].
    left. replace (P * (loc + k)) with (loc * P + k * P) by ring. lia. }
  rewrite HL in *. exists r', c, calls. split; [exact E|]. split; [|split; [assumption|split; [assumption|split; [|split; [|split; [assumption|split; [|assumption]]]]]]].
  - constructor.
    + congruence.
    + assumption.
    + intros i Hi. rewrite G4, HU by assumption. reflexivity.
    + intros i Hi. rewrite G5, HB by assumption. rewrite negb_orb. reflexivity.
    + assumption.
  - intros h. split.
    + intros (x & Hx & Hin). apply (G8 x Hx). assumption.
    + intros Hh. destruct (Hs _ Hh) as (Q1 & _). destruct (G9 (h - loc) ltac:(lia) Hh) as (x & Hx & Hin). exists x. split; [assumption|].
      replace h with (loc + (h - loc)) by lia. assumption.
  - intros x Hx. apply (G8 x Hx).
  - rewrite G11. f_equal. lia.
Qed.

Lemma zcount_partition f g n : forall i, zcount (fun j => f j && g j) i n + zcount (fun j => f j && negb (g j)) i n = zcount f i n.
Proof. induction n as [|n IH]; intros i; cbn [zcount]; [reflexivity|]. specialize (IH (i + 1)). destruct (f i), (g i); cbn [andb negb]; lia. Qed.

Lemma rg_put_ok P K loc r l1 p n l2 un os release : 0 < P -> 0 <= K -> rg_ok P K loc r (l1 ++ (p, n) :: l2) un ->
  exists r' calls, rg_put P K os r p n release = Some (r', calls) /\
    rg_ok P K loc r' (l1 ++ l2) (fun h => un h || unbacked_by os calls h) /\
    (release = false -> calls = []) /\
    (release = true -> forall h, (exists x, In x calls /\ in_rng x h) <-> touches P (p, n) h = true /\ touched P (l1 ++ l2) h = false) /\
    ForallOrdPairs (fun a b => fst a + snd a < fst b) calls /\ (forall x, In x calls -> 0 < snd x) /\
    rg_total_unbacked r' = rg_total_unbacked r + unbacked_total os calls /\
    rg_free_backed r <= rg_free_backed r'.
Proof.
  intros HP HK H. assert (HN : 0 <= K * P) by (apply Z.mul_nonneg_nonneg; lia).
  destruct (rg_ok_live P K loc r _ un HP HK H) as (Lv1 & Lv2 & Lv3). destruct H as [HL HR HU HB HC].
  assert (Hx : In (p, n) (l1 ++ (p, n) :: l2)) by (apply in_mid; auto). destruct (Lv2 _ Hx) as (X1 & X2 & X3). cbn [fst snd] in *.
  assert (HD : forall x, In x (l1 ++ l2) -> disj (p, n) x) by (apply (fop_mid disj disj_sym) in Lv1; apply Lv1).
  rewrite map_app in HR. cbn [map] in HR. unfold shift at 2 in HR. cbn [fst snd] in HR.
  destruct (tracker_put_succeeds _ _ _ _ _ _ HN HR) as (t & Eu & HR'). unfold rg_put. rewrite HL, Eu. cbn [obind].
  assert (Hcov : forall h, zcount (covered (l1 ++ (p, n) :: l2)) (h * P) (Z.to_nat P) = zcount (covered (l1 ++ l2)) (h * P) (Z.to_nat P) + ov P p n h).
  { intros h. rewrite <- zcount_run_ov by assumption. rewrite Z.add_comm.
    rewrite <- zcount_or by (intros j _ Hj; apply (covered_disj p n _ j HD Hj)). apply zcount_ext. intros j _. apply covered_mid. }
  assert (Cr : cnt_ok P K (rg_with_t r t)) by (destruct HC; constructor; assumption).
  destruct (dec_loop_spec P K HP (Z.to_nat n) (rg_with_t r t) p n (fun _ => false) Cr) as (r1 & should & E & I1 & I2 & I3 & I4 & I5 & I6 & I7).
  { lia. }
  { intros _. cbn [rg_with_t rg_loc]. rewrite HL. lia. }
  { intros k Hk. cbn [rg_with_t rg_loc rg_used]. rewrite HU, HL, Hcov by assumption.
    pose proof (zcount_bound (covered (l1 ++ l2)) (Z.to_nat P) ((loc + k) * P)). lia. }
  cbn [rg_with_t rg_loc rg_used rg_backed rg_t rg_total_unbacked] in *. rewrite HL in *. rewrite E. cbn [obind].
  assert (H1 : rg_ok P K loc r1 (l1 ++ l2) un).
  { constructor; [congruence|rewrite I1, map_app; assumption| | |assumption].
    - intros k Hk. rewrite I5, HU, Hcov by assumption. lia.
    - intros k Hk. rewrite I6, HB by assumption. reflexivity. }
  assert (Hfb : rg_free_backed r1 = rg_free_backed r + zcount (fun i => rg_backed r i && negb (rg_used r i =? 0) && (rg_used r1 i =? 0)) 0 (Z.to_nat K)).
  { rewrite (co_free _ _ _ HC), (co_free _ _ _ I4).
    rewrite <- (zcount_partition (fun i => rg_backed r1 i && (rg_used r1 i =? 0)) (fun i => rg_used r i =? 0)). f_equal.
    - apply zcount_ext. intros i Hi. rewrite I6, I5 by lia. pose proof (ov_nonneg P p n (loc + i)).
      assert (0 <= rg_used r i - ov P p n (loc + i)) by (rewrite <- I5 by lia; apply (co_used _ _ _ I4); lia).
      destruct (Z.eqb_spec (rg_used r i) 0); [replace (rg_used r i - ov P p n (loc + i) =? 0) with true by lia|]; rewrite ?andb_true_r, ?andb_false_r; reflexivity.
    - apply zcount_ext. intros i Hi. rewrite I6 by lia. destruct (rg_backed r i), (rg_used r i =? 0), (rg_used r1 i =? 0); reflexivity. }
  destruct release.
  2:{ exists r1, []. split; [reflexivity|]. split; [|split; [reflexivity|split; [discriminate|split; [constructor|split; [intros x []|split; [cbn; lia|]]]]]].
    2:{ rewrite Hfb. pose proof (zcount_bound (fun i => rg_backed r i && negb (rg_used r i =? 0) && (rg_used r1 i =? 0)) (Z.to_nat K) 0). lia. }
    destruct H1 as [A1 A2 A3 A4 A5]; constructor; try assumption. intros i Hi. rewrite A4 by assumption. cbn. rewrite orb_false_r. reflexivity. }
  assert (Hpos : forall x, In x (l1 ++ l2) -> 0 < snd x) by (intros x Hi; apply Lv2; apply in_mid; auto).
  assert (Hsh : forall k, should k = true <-> 0 <= k < K /\ touches P (p, n) (loc + k) = true /\ touched P (l1 ++ l2) (loc + k) = false).
  { intros k. rewrite I7. cbn [orb]. rewrite touches_ov by assumption. destruct ((0 <=? k) && (k <? K)) eqn:Er; cbn [andb]; [|split; [discriminate|lia]].
    rewrite (gk_used _ _ _ _ _ _ H1 k ltac:(lia)). rewrite used_touched by assumption. rewrite andb_true_iff, negb_true_iff. split; [intros (? & ?)|intros (_ & ? & ?)]; repeat split; try assumption; lia. }
  destruct (unback_ok P K loc r1 (l1 ++ l2) un os should HP HK H1) as (r' & c & calls & E' & J1 & J2 & J3 & J4 & J5 & J6 & J7 & J8).
  { intros k Hk. apply Hsh in Hk. destruct Hk as (K1 & K2 & K3). split; [assumption|]. split; [|assumption].
    rewrite touches_ov in K2 by assumption.
    assert (Hne : rg_used r k <> 0).
    { rewrite HU, Hcov by assumption. pose proof (zcount_bound (covered (l1 ++ l2)) (Z.to_nat P) ((loc + k) * P)). lia. }
    pose proof (co_backed _ _ _ HC k K1 Hne) as Hb. rewrite HB in Hb by assumption. apply negb_true_iff in Hb. assumption. }
  rewrite E'. cbn [obind]. exists r', calls. split; [reflexivity|]. split; [assumption|]. split; [discriminate|]. split; [|split; [assumption|split; [assumption|split; [lia|]]]].
  2:{ rewrite J8, Hfb. assert (Hle : c <= zsum (map snd calls)).
    { rewrite J2. clear - J5. unfold unbacked_total. induction calls as [|x calls IH]; [cbn; lia|]. cbn [map]. rewrite !zsum_cons.
      specialize (IH (fun y Hy => J5 y (or_intror Hy))). specialize (J5 x (or_introl eq_refl)). destruct (os (fst x) (snd x)); lia. }
    assert (Hc : zcount should 0 (Z.to_nat K) = zcount (fun i => rg_backed r i && negb (rg_used r i =? 0) && (rg_used r1 i =? 0)) 0 (Z.to_nat K)); [|lia].
    apply zcount_ext. intros i Hi. rewrite I7. cbn [orb]. replace ((0 <=? i) && (i <? K)) with true by lia. cbn [andb].
    pose proof (ov_nonneg P p n (loc + i)). specialize (I5 i ltac:(lia)).
    destruct (Z.eqb_spec (rg_used r i) 0) as [E0|E0].
    - assert (0 <= rg_used r1 i) by (apply (co_used _ _ _ I4); lia). replace (0 <? ov P p n (loc + i)) with false by lia. rewrite andb_false_r. reflexivity.
    - rewrite (co_backed _ _ _ HC i ltac:(lia) E0). cbn [negb andb]. destruct (Z.eqb_spec (rg_used r1 i) 0); [|rewrite andb_false_r; reflexivity].
      replace (0 <? ov P p n (loc + i)) with true by lia. reflexivity. }
  intros _ h. rewrite J4, Hsh. replace (loc + (h - loc)) with h by lia. split; [intros (_ & ? & ?); auto|]. intros (K2 & K3). split; [|auto].
  apply touches_spec in K2; [|assumption|assumption]. destruct K2 as (j & Hj & <-). unfold in_rng in Hj. cbn [fst snd] in Hj.
  pose proof (Z.div_mod j P ltac:(lia)). pose proof (Z.mod_pos_bound j P HP). clear - HP X1 X3 Hj H H0. nia.
Qed.

(** ** Release *)

(** The hugepages that can be released. *)
Definition idle (P : Z) (live : list (Z * Z)) (un : Z -> bool) (h : Z) : bool := negb (un h) && negb (touched P live h).

Lemma zsum_zcount f : forall n i, zsum (map (fun k => b2z (f k)) (zseq i n)) = zcount f i n.
Proof. induction n as [|n IH]; intros i; [reflexivity|]. cbn [zseq map zcount]. rewrite zsum_cons, IH. reflexivity. Qed.

Lemma zsum_rev (f : Z -> Z) l : zsum (map f (rev l)) = zsum (map f l).
Proof. induction l as [|x l IH]; [reflexivity|]. cbn [rev map]. rewrite map_app, zsum_app, IH. cbn [map]. rewrite !zsum_cons. cbn [zsum]. lia. Qed.

Lemma zsum_firstn_mem f l n : NoDup l ->
  zsum (map (fun i => b2z (existsb (Z.eqb i) (firstn n l) && f i)) l) = zsum (map (fun i => b2z (f i)) (firstn n l)).
Proof.
  revert n. induction l as [|x l IH]; intros [|n] Hnd; [reflexivity..| |].
  - cbn [firstn existsb andb map]. rewrite zsum_cons. assert (G : forall (l : list Z), zsum (map (fun _ => b2z false) l) = 0).
    { induction l0 as [|z l0 IHz]; [reflexivity|]. cbn [map]. rewrite zsum_cons, IHz. reflexivity. }
    rewrite G. reflexivity.
  - inversion Hnd as [|? ? Hni Hnd']; subst. cbn [firstn map existsb]. rewrite !zsum_cons, Z.eqb_refl. cbn [orb andb]. f_equal.
    rewrite <- IH by assumption. f_equal. apply map_ext_in. intros y Hy. destruct (Z.eqb_spec y x) as [->|]; [contradiction|reflexivity].
Qed.

Lemma ceil_div_unique P T q : 0 < P -> (q - 1) * P < T <= q * P -> (T + P - 1) / P = q.
Proof. intros HP H. symmetry. apply (Z.div_unique _ P q (T + P - 1 - P * q)); lia. Qed.

Lemma rg_release_ok P K loc r live un os desired adaptive : 0 < P -> 0 <= K -> rg_ok P K loc r live un -> 0 <= desired ->
  exists r' c calls, rg_release P K os r desired adaptive = Some (r', c, calls) /\
    rg_ok P K loc r' live (fun h => un h || unbacked_by os calls h) /\
    c = unbacked_total os calls /\
    (forall x, In x calls -> 0 < snd x) /\ ForallOrdPairs (fun a b => fst a + snd a < fst b) calls /\
    (forall h, (exists x, In x calls /\ in_rng x h) -> loc <= h < loc + K /\ idle P live un h = true) /\
    zsum (map snd calls) = Z.min ((desired + P - 1) / P) (rg_free_backed r) /\
    (forall h h', (exists x, In x calls /\ in_rng x h) -> loc <= h' < loc + K -> idle P live un h' = true -> ~ (exists x, In x calls /\ in_rng x h') ->
       if adaptive then h' < h else h < h') /\
    rg_total_unbacked r' = rg_total_unbacked r + c /\ rg_free_backed r' = rg_free_backed r - c.
Proof.
  intros HP HK H Hd. destruct (rg_ok_live P K loc r live un HP HK H) as (Lv1 & Lv2 & Lv3).
  assert (Hpos : forall x, In x live -> 0 < snd x) by (intros x Hx; apply Lv2; assumption).
  assert (Hcand : forall i, 0 <= i < K -> rg_backed r i && (rg_used r i =? 0) = idle P live un (loc + i)).
  { intros i Hi. rewrite (gk_backed _ _ _ _ _ _ H), (gk_used _ _ _ _ _ _ H), used_touched by assumption. reflexivity. }
  assert (Hfb : rg_free_backed r = zcount (fun i => rg_backed r i && (rg_used r i =? 0)) 0 (Z.to_nat K)) by apply (gk_cnt _ _ _ _ _ _ H).
  pose proof (zcount_bound (fun i => rg_backed r i && (rg_used r i =? 0)) (Z.to_nat K) 0) as Hfb0. rewrite <- Hfb in Hfb0.
  unfold rg_release. destruct (Z.eqb_spec desired 0) as [->|Hd0].
  { exists r, 0, []. split; [reflexivity|]. split.
    - destruct H as [A1 A2 A3 A4 A5]; constructor; try assumption. intros i Hi. rewrite A4 by assumption. cbn. rewrite orb_false_r. reflexivity.
    - split; [reflexivity|]. split; [intros x []|]. split; [constructor|]. split; [intros h (x & [] & _)|]. split.
      + cbn [map zsum]. rewrite Z.div_small by lia. symmetry. apply Z.min_l. lia.
      + split; [intros h h' (x & [] & _)|split; lia]. }
  set (order := if adaptive then rev (zseq 0 (Z.to_nat K)) else zseq 0 (Z.to_nat K)).
  assert (Hor : forall i, In i order <-> 0 <= i < K).
  { intros i. subst order. destruct adaptive; [rewrite <- in_rev|]; rewrite zseq_In; lia. }
  assert (Hnd : NoDup order) by (subst order; destruct adaptive; [apply NoDup_rev|]; apply zseq_NoDup).
  set (T := Z.min desired (rg_free_backed r * P)).
  destruct (release_scan_spec P r T HP order 0 (fun _ => false) Hnd ltac:(auto)) as (m & S1 & S2). cbv zeta in S2. destruct S2 as (S2 & S3 & S4).
  set (should := release_scan P r order T 0 (fun _ => false)) in *. clearbody should. cbn [orb] in S1.
  assert (Hin : forall i, existsb (Z.eqb i) (firstn m order) = true <-> In i (firstn m order)).
  { intros i. rewrite existsb_exists. split; [intros (y & Hy & Ey); apply Z.eqb_eq in Ey; subst; assumption|intros Hi; exists i; split; [assumption|apply Z.eqb_refl]]. }
  assert (Hfo : forall i, In i (firstn m order) -> 0 <= i < K).
  { intros i Hi. apply Hor. rewrite <- (firstn_skipn m order). apply in_or_app. left. assumption. }
  destruct (unback_ok P K loc r live un os should HP HK H) as (r' & c & calls & E' & J1 & J2 & J3 & J4 & J5 & J6 & J7 & J8).
  { intros k Hk. rewrite S1, <- andb_assoc, andb_true_iff in Hk. destruct Hk as (K1 & K2). apply Hin in K1. apply Hfo in K1. split; [assumption|].
    rewrite Hcand in K2 by assumption. unfold idle in K2. apply andb_prop in K2. destruct K2 as (K2 & K3). split; apply negb_true_iff; assumption. }
  rewrite E'. exists r', c, calls. split; [reflexivity|]. split; [assumption|]. split; [assumption|]. split; [assumption|]. split; [assumption|].
  assert (Hiff : forall h, (exists x, In x calls /\ in_rng x h) <-> In (h - loc) (firstn m order) /\ idle P live un h = true).
  { intros h. rewrite J4, S1, <- andb_assoc, andb_true_iff, Hin. split; intros (A & B); (split; [assumption|]).
    - rewrite Hcand in B by (apply Hfo; assumption). replace (loc + (h - loc)) with h in B by lia. assumption.
    - rewrite Hcand by (apply Hfo; assumption). replace (loc + (h - loc)) with h by lia. assumption. }
  split; [|split; [|split; [|split; assumption]]].
  - intros h Hh. apply Hiff in Hh. destruct Hh as (A & B). apply Hfo in A. split; [lia|assumption].
  - rewrite J7. rewrite <- zsum_zcount.
    set (f := fun i => rg_backed r i && (rg_used r i =? 0)) in *.
    assert (Ho : forall g : Z -> Z, zsum (map g (zseq 0 (Z.to_nat K))) = zsum (map g order)).
    { intros g. subst order. destruct adaptive; [rewrite zsum_rev|]; reflexivity. }
    rewrite Ho. rewrite (map_ext _ (fun i => b2z (existsb (Z.eqb i) (firstn m order) && f i))).
    2:{ intros i. rewrite S1. unfold f. rewrite andb_assoc. reflexivity. }
    rewrite zsum_firstn_mem by assumption.
    assert (Htot : zsum (map (fun i => b2z (f i)) order) = rg_free_backed r) by (rewrite <- Ho, zsum_zcount; symmetry; assumption).
    change (fun i => b2z (rg_backed r i && (rg_used r i =? 0))) with (fun i => b2z (f i)) in S3, S4.
    set (hits := fun m => zsum (map (fun i => b2z (f i)) (firstn m order))).
    change (zsum (map (fun i => b2z (f i)) (firstn m order))) with (hits m) in *.
    assert (S3' : forall q, (0 < q < m)%nat -> (0 + hits q) * P < T) by exact S3. clear S3.
    assert (Hstep : forall q, (q < m)%nat -> exists y, hits (S q) = hits q + b2z y).
    { intros q Hq. destruct (nth_error order q) as [y|] eqn:En; [|apply nth_error_None in En; lia]. exists (f y). unfold hits.
      assert (G : forall (l : list Z) k, nth_error l k = Some y -> firstn (S k) l = firstn k l ++ [y]).
      { induction l as [|z l IH]; intros [|k] Hk; try discriminate; [injection Hk as ->; reflexivity|]. cbn [firstn app]. f_equal. apply IH. assumption. }
      rewrite (G order q En), map_app, zsum_app. cbn [map]. rewrite zsum_cons. cbn [zsum]. lia. }
    assert (Hnn : 0 <= hits m <= rg_free_backed r).
    { unfold hits. rewrite <- Htot. pose proof (f_equal (fun l => zsum (map (fun i => b2z (f i)) l)) (firstn_skipn m order)) as Hq. cbv beta in Hq. rewrite map_app, zsum_app in Hq.
      assert (G : forall l : list Z, 0 <= zsum (map (fun i => b2z (f i)) l)).
      { induction l as [|z l IH]; [cbn; lia|]. cbn [map]. rewrite zsum_cons. unfold b2z at 1. destruct (f z); lia. }
      pose proof (G (firstn m order)). pose proof (G (skipn m order)). lia. }
    assert (HT : T <= hits m * P).
    { destruct S4 as [S4|S4]; [rewrite Z.add_0_l in S4; assumption|]. assert (hits m = rg_free_backed r) as ->; [|subst T; lia].
      unfold hits. rewrite S4, firstn_all. assumption. }
    assert (HM : (T + P - 1) / P = Z.min ((desired + P - 1) / P) (rg_free_backed r)).
    { subst T. destruct (Z.le_gt_cases desired (rg_free_backed r * P)) as [Hle|Hgt].
      - rewrite Z.min_l by assumption. assert ((desired + P - 1) / P < rg_free_backed r + 1); [|lia].
        apply Z.div_lt_upper_bound; [assumption|]. lia.
      - rewrite Z.min_r by lia. rewrite (ceil_div_unique P _ (rg_free_backed r)) by lia.
        assert (rg_free_backed r <= (desired + P - 1) / P); [|lia]. apply Z.div_le_lower_bound; lia. }
    rewrite <- HM. symmetry. apply ceil_div_unique; [assumption|]. split; [|assumption].
    destruct m as [|m].
    { cbn [firstn map zsum hits] in *. assert (T = 0) as ->; [|lia]. subst T. 
      change (hits 0%nat) with 0 in *. lia. }
    destruct (Hstep m ltac:(lia)) as (y & Hy). destruct m as [|m].
    + change (hits 0%nat) with 0 in Hy. destruct y; cbn [b2z] in Hy.
      * rewrite Hy in *. assert (0 < T); [|lia]. subst T. apply Z.min_glb_lt; [lia|]. apply Z.mul_pos_pos; lia.
      * rewrite Hy. assert (0 <= T); [|lia]. subst T. apply Z.min_glb; [lia|]. apply Z.mul_nonneg_nonneg; lia.
    + specialize (S3' (S m) ltac:(lia)). destruct y; cbn [b2z] in Hy; [rewrite Hy; replace (hits (S m) + 1 - 1) with (0 + hits (S m)) by lia; assumption|].
      replace (hits (S (S m))) with (hits (S m)) in * by lia. lia.
  - intros h h' Hh Hh' Hc Hn. apply Hiff in Hh. destruct Hh as (A & B).
    assert (A' : ~ In (h' - loc) (firstn m order)) by (intros Hi; apply Hn; apply Hiff; split; assumption).
    assert (Ho : exists s, order = firstn m order ++ s /\ In (h' - loc) s).
    { exists (skipn m order). split; [symmetry; apply firstn_skipn|]. assert (Hi : In (h' - loc) order) by (apply Hor; lia).
      rewrite <- (firstn_skipn m order) in Hi. apply in_app_or in Hi. tauto. }
    destruct Ho as (s & Ho & Hs). apply in_split in A. destruct A as (a1 & a2 & Ea). apply in_split in Hs. destruct Hs as (b1 & b2 & Eb).
    assert (Eo : order = a1 ++ (h - loc) :: (a2 ++ b1) ++ (h' - loc) :: b2).
    { rewrite Ho, Ea, Eb. rewrite <- !app_assoc. reflexivity. }
    clear - Eo. assert (G : forall n i a x b y d, zseq i n = a ++ x :: b ++ y :: d -> x < y).
    { induction n as [|n IH]; intros i a x b y d E; [destruct a; discriminate|]. cbn [zseq] in E. destruct a as [|z a]; cbn [app] in E.
      - injection E as <- E. assert (Hy : In y (zseq (i + 1) n)) by (rewrite E; apply in_or_app; right; left; reflexivity). apply zseq_In in Hy. lia.
      - injection E as _ E. eapply IH. exact E. }
    subst order. destruct adaptive.
    + apply (f_equal (@rev Z)) in Eo. rewrite rev_involutive in Eo. rewrite rev_app_distr in Eo. cbn [rev] in Eo. rewrite rev_app_distr in Eo. cbn [rev] in Eo.
      rewrite <- !app_assoc in Eo. cbn [app] in Eo. apply G in Eo. lia.
    + apply G in Eo. lia.
Qed.

Lemma rg_reach_ok P K loc r live un : 0 < P -> 0 <= K -> rg_reach P K loc r live un -> rg_ok P K loc r live un.
Proof.
  intros HP HK H. induction H as [|r live un n r' p b H IH Hn E|r l1 p n l2 un os release r' calls H IH E|r live un os desired adaptive r' c calls H IH Hd E].
  - constructor; cbn [rg_new rg_loc rg_t rg_used rg_backed].
    + reflexivity.
    + constructor.
    + intros i Hi. symmetry. apply zcount_none. reflexivity.
    + reflexivity.
    + constructor; cbn [rg_new rg_used rg_backed rg_nbacked rg_free_backed]; try (intros; lia);
        symmetry; apply zcount_none; reflexivity.
  - destruct (rg_get_ok P K loc r live un n HP HK IH Hn) as (r1 & res & E1 & M). rewrite E in E1. injection E1 as <- <-. apply M.
  - destruct (rg_put_ok P K loc r l1 p n l2 un os release HP HK IH) as (r1 & calls1 & E1 & M & _). rewrite E in E1. injection E1 as <- <-. assumption.
  - destruct (rg_release_ok P K loc r live un os desired adaptive HP HK IH Hd) as (r1 & c1 & calls1 & E1 & M & _). rewrite E in E1. injection E1 as <- <- <-. assumption.
Qed.

(** ** AddSpanStats *)

Lemma truncate_spec P K backed b : 0 < P -> forall fuel i p n acc, 0 <= n -> 0 <= i ->
  (0 < n -> i * P <= p < (i + 1) * P) -> p + n <= K * P -> K - i < Z.of_nat fuel ->
  exists m, truncate_loop fuel P K backed b i p n acc = Some (acc + m) /\ 0 <= m <= n /\
    (forall q, p <= q < p + m -> backed (q / P) = b) /\ (m < n -> backed ((p + m) / P) = negb b) /\
    (0 < n -> backed i = b -> 0 < m).
Proof.
  intros HP.
  assert (Hdiv : forall i p, i * P <= p < (i + 1) * P -> p / P = i).
  { intros i p H. symmetry. apply (Z.div_unique _ P i (p - P * i)); lia. }
  induction fuel as [|fuel IH]; intros i p n acc Hn Hi Hp Hend Hf; cbn [truncate_loop].
  - destruct (Z.ltb_spec 0 n) as [H0|H0].
    + exfalso. specialize (Hp H0). assert (K <= i) by lia. nia.
    + exists 0. rewrite Z.add_0_r. split; [reflexivity|]. repeat split; intros; lia.
  - destruct (Z.ltb_spec 0 n) as [H0|H0].
    2:{ exists 0. rewrite Z.add_0_r. split; [reflexivity|]. repeat split; intros; lia. }
    specialize (Hp H0). assert (HiK : i < K) by nia. replace (i <? K) with true by lia.
    destruct (Bool.eqb (backed i) b) eqn:Eb.
    2:{ exists 0. rewrite Z.add_0_r. split; [reflexivity|]. split; [lia|]. split; [intros; lia|]. split; [|intros; exfalso; rewrite H1 in Eb; rewrite eqb_reflx in Eb; discriminate].
      intros _. rewrite Z.add_0_r, (Hdiv i p Hp). destruct (backed i), b; (reflexivity || discriminate). }
    apply eqb_prop in Eb. set (here := Z.min n ((i + 1) * P - p)). assert (Hh : 0 < here <= n /\ here <= (i + 1) * P - p /\ (here < n -> p + here = (i + 1) * P)) by lia.
    clearbody here.
    destruct (IH (i + 1) (p + here) (n - here) (acc + here) ltac:(lia) ltac:(lia)) as (m & E & M1 & M2 & M3 & M4).
    { intros H1. destruct Hh as (_ & _ & Hh). rewrite Hh by lia. replace ((i + 1 + 1) * P) with ((i + 1) * P + P) by ring. lia. }
    { lia. } { lia. }
    exists (here + m). split; [rewrite E; f_equal; lia|]. split; [lia|]. split; [|split; [|intros; lia]].
    + intros q Hq. destruct (Z.lt_ge_cases q (p + here)); [|apply M2; lia]. rewrite (Hdiv i q) by lia. assumption.
    + intros Hm. replace (p + (here + m)) with (p + here + m) by lia. apply M3. lia.
Qed.

Lemma rg_runs_spec P K free backed : 0 < P -> 0 <= K -> wf (K * P) free -> forall fuel index, 0 <= index -> K * P - index < Z.of_nat fuel -> (0 < fuel)%nat ->
  (0 < index < K * P -> bit free index = false -> bit free (index - 1) = true \/ backed ((index - 1) / P) <> backed (index / P)) ->
  exists l, rg_runs_loop fuel P K free backed index = Some l /\
    (forall i n b, In (i, n, b) l -> index <= i /\ 0 < n /\ i + n <= K * P /\
       (forall j, i <= j < i + n -> bit free j = false /\ negb (backed (j / P)) = b) /\
       (0 < i -> bit free (i - 1) = true \/ negb (backed ((i - 1) / P)) <> b) /\
       (i + n < K * P -> bit free (i + n) = true \/ negb (backed ((i + n) / P)) <> b)) /\
    ForallOrdPairs (fun a b => fst (fst a) + snd (fst a) <= fst (fst b)) l /\
    (forall j, index <= j < K * P -> bit free j = false -> exists r, In r l /\ in_rng (fst r) j) /\
    (forall b, zsum (map (fun r => if Bool.eqb (snd r) b then snd (fst r) else 0) l) =
       zcount (fun j => negb (bit free j) && Bool.eqb (negb (backed (j / P))) b) index (Z.to_nat (K * P - index))).
Proof.
  intros HP HK Wf. induction fuel as [|fuel IH]; intros index Hi Hf H0 Hprev; [lia|]. clear H0. cbn [rg_runs_loop].
  destruct (next_free_range_spec (K * P) free index Wf Hi) as [(E & Hall)|(i & n & E & A1 & A2 & A3 & A4 & A5 & A6)]; rewrite E; cbn [obind].
  { exists []. split; [reflexivity|]. split; [intros ? ? ? []|]. split; [constructor|].
    split; [intros j Hj B; rewrite Hall in B by assumption; discriminate|]. intros b. cbn. symmetry. apply zcount_none.
    intros j Hj. rewrite Hall by lia. reflexivity. }
  assert (Hip : i / P * P <= i < (i / P + 1) * P).
  { pose proof (Z.div_mod i P ltac:(lia)). pose proof (Z.mod_pos_bound i P HP). lia. }
  destruct (truncate_spec P K backed (backed (i / P)) HP (Z.to_nat (K + 1)) (i / P) i n 0 ltac:(lia)) as (m & Et & M1 & M2 & M3 & M4).
  { apply Z.div_pos; lia. } { intros _. assumption. } { assumption. } { pose proof (Z.div_pos i P ltac:(lia) HP). lia. }
  rewrite Et, Z.add_0_l. cbn [obind]. specialize (M4 ltac:(clear - A2; lia) eq_refl). clear Et Hip.
  assert (Hend : i + m < K * P -> bit free (i + m) = true \/ backed ((i + m) / P) <> backed (i / P)).
  { intros Hlt. destruct (Z.eq_dec m n) as [->|]; [left; apply A6; assumption|right]. rewrite M3 by (clear - M1 n0; lia). destruct (backed (i / P)); discriminate. }
  assert (Hz : 0 <= i + m /\ K * P - (i + m) < Z.of_nat fuel /\ (0 < fuel)%nat) by (clear - A1 A2 A3 M1 M4 Hf Hi; lia).
  destruct Hz as (Hz1 & Hz2 & Hz3).
  destruct (IH (i + m) Hz1 Hz2 Hz3) as (l & E' & B1 & B2 & B3 & B4).
  { intros Hlt Hbit. destruct (Hend ltac:(clear - Hlt; lia)) as [H1|H1]; [rewrite Hbit in H1; discriminate|]. right. rewrite (M2 (i + m - 1)) by (clear - M4; lia). congruence. }
  rewrite E'. cbn [obind].
  exists ((i, m, negb (backed (i / P))) :: l). split; [reflexivity|]. split.
  { intros i' n' b' [Heq|Hin].
    - injection Heq as <- <- <-. split; [clear - A1; lia|]. split; [exact M4|]. split; [clear - A3 M1; lia|]. split; [|split].
      + intros j Hj. split; [apply A5; clear - M1 Hj; lia|rewrite M2 by (clear - Hj; lia); reflexivity].
      + intros Hpos. destruct (Z.eq_dec i index) as [->|]; [|left; apply A4; clear - A1 Hpos n0; lia].
        assert (Hz4 : 0 < index < K * P /\ index <= index < index + n) by (clear - Hpos A2 A3; lia). destruct Hz4 as (Hz4 & Hz5).
        destruct (Hprev Hz4 (A5 index Hz5)) as [H1|H1]; [left; assumption|right].
        destruct (backed ((index - 1) / P)), (backed (index / P)); cbn; congruence.
      + intros Hlt. destruct (Hend Hlt) as [H1|H1]; [left; assumption|right]. destruct (backed ((i + m) / P)), (backed (i / P)); cbn; congruence.
    - destruct (B1 i' n' b' Hin) as (Hz4 & Hz5 & Hz6 & Hz7). split; [clear - Hz4 A1 M4; lia|]. split; [exact Hz5|]. split; [exact Hz6|exact Hz7]. }
  split.
  { apply FOP_cons; [|assumption]. apply Forall_forall. intros ((i', n'), b') Hin. destruct (B1 i' n' b' Hin) as (Hz4 & _). cbn [fst snd]. clear - Hz4. lia. }
  split.
  { intros j Hj B. destruct (Z.lt_ge_cases j i) as [Hji|Hji]; [rewrite A4 in B by (clear - Hj Hji; lia); discriminate|]. destruct (Z.lt_ge_cases j (i + m)) as [Hjm|Hjm].
    - exists (i, m, negb (backed (i / P))). split; [left; reflexivity|]. unfold in_rng. cbn [fst snd]. clear - Hji Hjm. lia.
    - destruct (B3 j ltac:(clear - Hj Hjm; lia) B) as (r & Hr & Hat). exists r. split; [right|]; assumption. }
  intros b. cbn [map fst snd]. rewrite zsum_cons, B4.
  rewrite (zcount_split _ index (K * P - index) i m) by (clear - A1 A2 A3 M1 M4; lia).
  rewrite (zcount_none _ (Z.to_nat (i - index)) index) by (intros j Hj; rewrite A4 by (clear - Hj A1; lia); reflexivity).
  replace (index + (K * P - index) - (i + m)) with (K * P - (i + m)) by (clear; lia).
  assert (Hmid : zcount (fun j => negb (bit free j) && Bool.eqb (negb (backed (j / P))) b) i (Z.to_nat m) = if Bool.eqb (negb (backed (i / P))) b then m else 0).
  { rewrite (zcount_ext _ (fun _ => Bool.eqb (negb (backed (i / P))) b)) by (intros j Hj; rewrite A5, M2 by (clear - Hj M1 M4; lia); reflexivity).
    destruct (Bool.eqb (negb (backed (i / P))) b); [rewrite zcount_all by reflexivity; clear - M4; lia|apply zcount_none; reflexivity]. }
  rewrite Hmid. clear. lia.
Qed.

Lemma zcount_blocks P f : 0 < P -> forall K, zcount (fun j => f (j / P)) 0 (Z.to_nat (Z.of_nat K * P)) = P * zcount f 0 K.
Proof.
  intros HP. induction K as [|K IH]; [change (zcount (fun j => f (j / P)) 0 (Z.to_nat (0 * P)) = P * 0); rewrite Z.mul_0_l, Z.mul_0_r; reflexivity|].
  assert (H0 : 0 <= Z.of_nat K * P) by (apply Z.mul_nonneg_nonneg; lia).
  replace (Z.to_nat (Z.of_nat (S K) * P)) with (Z.to_nat (Z.of_nat K * P) + Z.to_nat P)%nat by (replace (Z.of_nat (S K) * P) with (Z.of_nat K * P + P) by lia; lia).
  rewrite zcount_app, IH. replace (S K) with (K + 1)%nat by lia. rewrite (zcount_app f K 1). cbn [zcount].
  rewrite (zcount_ext (fun j => f (j / P)) (fun _ => f (0 + Z.of_nat K)) (Z.to_nat P)).
  - destruct (f (0 + Z.of_nat K)).
    + rewrite (zcount_all (fun _ => true)) by reflexivity. lia.
    + rewrite (zcount_none (fun _ => false)) by reflexivity. lia.
  - intros j Hj. f_equal. symmetry. apply (Z.div_unique _ P (0 + Z.of_nat K) (j - P * (0 + Z.of_nat K))); lia.
Qed.

Lemma zcount_not f n : forall i, zcount (fun j => negb (f j)) i n = Z.of_nat n - zcount f i n.
Proof. induction n as [|n IH]; intros i; cbn [zcount]; [lia|]. rewrite IH. destruct (f i); cbn [negb]; lia. Qed.

(** ** The theorems *)

(** The runs held are disjoint and inside the region, and their total is reported exactly. *)
Theorem region_runs : forall P K loc r live un, 0 < P -> 0 <= K -> rg_reach P K loc r live un ->
  ForallOrdPairs disj live /\
  (forall x, In x live -> loc * P <= fst x /\ 0 < snd x /\ fst x + snd x <= (loc + K) * P) /\
  rg_used_pages r = zsum (map snd live).
Proof. intros P K loc r live un HP HK H. apply (rg_ok_live P K loc r live un HP HK). apply rg_reach_ok; assumption. Qed.

(** A hugepage has no memory behind it only if no live run touches it, and the counts of backed, unbacked and
    idle (backed, without a live run) hugepages are exact. *)
Theorem region_backing : forall P K loc r live un, 0 < P -> 0 <= K -> rg_reach P K loc r live un ->
  (forall h, loc <= h < loc + K -> un h = true -> touched P live h = false) /\
  rg_backed_count K r = hugepages_with (fun h => negb (un h)) loc K /\
  rg_unmapped_pages P K r = P * hugepages_with un loc K /\
  rg_free_backed r = hugepages_with (fun h => negb (un h) && negb (touched P live h)) loc K /\
  rg_free_pages P K r + rg_unmapped_pages P K r + rg_used_pages r = K * P /\
  rg_free_pages P K r = P * hugepages_with (fun h => negb (un h)) loc K - zsum (map snd live) /\ 0 <= rg_free_pages P K r.
Proof.
  intros P K loc r live un HP HK H. apply rg_reach_ok in H; [|assumption..].
  destruct (rg_ok_live P K loc r live un HP HK H) as (Lv1 & Lv2 & Lv3). destruct H as [HL HR HU HB HC].
  assert (Hpos : forall x, In x live -> 0 < snd x) by (intros x Hx; apply Lv2; assumption).
  assert (HT : forall i, 0 <= i < K -> (rg_used r i =? 0) = negb (touched P live (loc + i))) by (intros i Hi; rewrite HU by assumption; apply used_touched; assumption).
  rewrite !hugepages_with_zcount.
  assert (HNb : rg_nbacked r = zcount (fun i => negb (un (loc + i))) 0 (Z.to_nat K)).
  { rewrite (co_nbacked _ _ _ HC). apply zcount_ext. intros i Hi. apply HB. lia. }
  assert (HUn : rg_unmapped_pages P K r = P * zcount (fun i => un (loc + i)) 0 (Z.to_nat K)).
  { unfold rg_unmapped_pages. rewrite HNb, zcount_not. replace (Z.of_nat (Z.to_nat K)) with K by lia. ring. }
  split; [|split; [|split; [exact HUn|split; [|split; [|split]]]]].
  - intros h Hh Hu. assert (Hn : negb (touched P live (loc + (h - loc))) = true).
    { rewrite <- HT by lia. destruct (rg_used r (h - loc) =? 0) eqn:E; [reflexivity|]. exfalso.
      assert (Hb : rg_backed r (h - loc) = true) by (apply (co_backed _ _ _ HC); lia). rewrite HB in Hb by lia.
      replace (loc + (h - loc)) with h in Hb by lia. rewrite Hu in Hb. discriminate. }
    replace (loc + (h - loc)) with h in Hn by lia. apply negb_true_iff. assumption.
  - unfold rg_backed_count. apply zcount_ext. intros i Hi. apply HB. lia.
  - rewrite (co_free _ _ _ HC). apply zcount_ext. intros i Hi. rewrite HB, HT by lia. reflexivity.
  - unfold rg_free_pages. lia.
  - unfold rg_free_pages. rewrite HUn. unfold rg_used_pages. rewrite Lv3, zcount_not. replace (Z.of_nat (Z.to_nat K)) with K by lia. ring.
  - assert (Hle : rt_nused (rg_t r) <= P * zcount (rg_backed r) 0 (Z.to_nat K)).
    { assert (HN : 0 <= K * P) by (apply Z.mul_nonneg_nonneg; lia). pose proof (rt_reach_ok _ _ _ HN HR) as Hl.
      rewrite (ro_used _ _ (lo_ok _ _ _ Hl)). rewrite <- (zcount_blocks P (rg_backed r) HP (Z.to_nat K)). replace (Z.of_nat (Z.to_nat K)) with K by lia.
      assert (G : forall f g n i, (forall j, i <= j < i + Z.of_nat n -> f j = true -> g j = true) -> zcount f i n <= zcount g i n).
      { induction n as [|n IH]; intros i Hi; cbn [zcount]; [lia|]. specialize (IH (i + 1) (fun j Hj => Hi j ltac:(lia))). specialize (Hi i ltac:(lia)).
        destruct (f i); [rewrite Hi by reflexivity|destruct (g i)]; lia. }
      apply G. intros j Hj Hbit. apply (lo_bits _ _ _ Hl) in Hbit. destruct Hbit as [(_ & y & Hy & Hin)|(? & _)]; [|lia].
      apply in_map_iff in Hy. destruct Hy as (x & <- & Hx). unfold in_rng, shift in Hin. cbn [fst snd] in Hin.
      assert (Hj' : 0 <= j / P < K) by (split; [apply Z.div_pos; lia|apply Z.div_lt_upper_bound; lia]).
      apply (co_backed _ _ _ HC); [assumption|]. apply Z.eqb_neq. rewrite HT by assumption. apply negb_false_iff.
      unfold touched. apply existsb_exists. exists x. split; [assumption|]. apply touches_spec; [assumption|auto|].
      exists (loc * P + j). split; [unfold in_rng; lia|]. rewrite Z.add_comm, Z.div_add by lia. lia. }
    unfold rg_free_pages, rg_unmapped_pages, rg_used_pages. rewrite (co_nbacked _ _ _ HC). lia.
Qed.

(** A get fails only when no free run of that length exists.  It returns the start of a shortest
    maximal free run that fits, and says that memory has to be faulted in exactly when the run touches an unbacked
    hugepage. *)
Theorem region_get : forall P K loc r live un n, 0 < P -> 0 <= K -> rg_reach P K loc r live un -> 0 < n ->
  exists r' res, rg_get P K r n = Some (r', res) /\
  match res with
  | None => r' = r /\ forall p, ~ free_at P K loc live p n
  | Some (p, from_released) =>
      free_at P K loc live p n /\
      (from_released = true <-> exists h, touches P (p, n) h = true /\ un h = true) /\
      exists len, n <= len /\ maximal_at P K loc live p len /\
        forall p' len', n <= len' -> maximal_at P K loc live p' len' -> len <= len'
  end.
Proof.
  intros P K loc r live un n HP HK H Hn. apply rg_reach_ok in H; [|assumption..].
  destruct (rg_get_ok P K loc r live un n HP HK H Hn) as (r' & res & E & M). exists r', res. split; [exact E|].
  destruct res as [(p, b)|]; [|assumption]. destruct M as (_ & A & B & C & _). auto.
Qed.

(** Giving a run back always succeeds.  With [release], the OS is asked exactly for the hugepages that only this
    run touched, in maximal runs; otherwise for none. *)
Theorem region_put : forall P K loc r l1 p n l2 un os release, 0 < P -> 0 <= K -> rg_reach P K loc r (l1 ++ (p, n) :: l2) un ->
  exists r' calls, rg_put P K os r p n release = Some (r', calls) /\
    (forall h, (exists x, In x calls /\ in_rng x h) <-> release = true /\ touches P (p, n) h = true /\ touched P (l1 ++ l2) h = false) /\
    (forall x, In x calls -> 0 < snd x) /\ ForallOrdPairs (fun a b => fst a + snd a < fst b) calls.
Proof.
  intros P K loc r l1 p n l2 un os release HP HK H. apply rg_reach_ok in H; [|assumption..].
  destruct (rg_put_ok P K loc r l1 p n l2 un os release HP HK H) as (r' & calls & E & _ & A & B & C & D & _ & _). exists r', calls. split; [exact E|].
  split; [|split; assumption]. intros h. destruct release.
  - rewrite (B eq_refl h). tauto.
  - rewrite (A eq_refl). split; [intros (x & [] & _)|intros (? & _); discriminate].
Qed.

(** Release asks the OS for as many idle hugepages as cover the request, no more, and for none that a live run touches;
    the adaptive variant takes the highest ones, the other the lowest.  It reports what the OS took. *)
Theorem region_release : forall P K loc r live un os desired adaptive, 0 < P -> 0 <= K -> rg_reach P K loc r live un -> 0 <= desired ->
  exists r' c calls, rg_release P K os r desired adaptive = Some (r', c, calls) /\
    c = zsum (map (fun x => if os (fst x) (snd x) then snd x else 0) calls) /\
    (forall x, In x calls -> 0 < snd x) /\ ForallOrdPairs (fun a b => fst a + snd a < fst b) calls /\
    (forall h, (exists x, In x calls /\ in_rng x h) -> loc <= h < loc + K /\ un h = false /\ touched P live h = false) /\
    zsum (map snd calls) = Z.min ((desired + P - 1) / P) (hugepages_with (fun h => negb (un h) && negb (touched P live h)) loc K) /\
    (forall h h', (exists x, In x calls /\ in_rng x h) -> loc <= h' < loc + K -> un h' = false -> touched P live h' = false ->
       ~ (exists x, In x calls /\ in_rng x h') -> if adaptive then h' < h else h < h').
Proof.
  intros P K loc r live un os desired adaptive HP HK H Hd. destruct (region_backing P K loc r live un HP HK H) as (_ & _ & _ & F & _).
  apply rg_reach_ok in H; [|assumption..].
  destruct (rg_release_ok P K loc r live un os desired adaptive HP HK H Hd) as (r' & c & calls & E & _ & A & B & C & D & G & I & _).
  exists r', c, calls. split; [exact E|]. split; [exact A|]. split; [assumption|]. split; [assumption|]. split; [|split].
  - intros h Hh. destruct (D h Hh) as (D1 & D2). split; [assumption|]. unfold idle in D2. apply andb_prop in D2. destruct D2 as (D2 & D3).
    split; apply negb_true_iff; assumption.
  - rewrite G, F. reflexivity.
  - intros h h' Hh Hh' Hu Ht Hn. apply I; try assumption. unfold idle. rewrite Hu, Ht. reflexivity.
Qed.

(** The span statistics list every page that is in no live run exactly once, in maximal runs of backed or of unbacked
    pages, and their sums agree with the totals (which the code checks). *)
Theorem region_span_stats : forall P K loc r live un, 0 < P -> 0 <= K -> rg_reach P K loc r live un ->
  exists l : list (Z * Z * bool), rg_span_runs P K r = Some l /\
    ForallOrdPairs disj (map fst l) /\
    (forall x b, In (x, b) l -> 0 < snd x /\
       forall j, in_rng x j -> 0 <= j < K * P /\ covered live (loc * P + j) = false /\ un (loc + j / P) = b) /\
    (forall j, 0 <= j < K * P -> covered live (loc * P + j) = false -> exists x, In x l /\ in_rng (fst x) j) /\
    (forall i n b, In ((i, n), b) l ->
       (0 < i -> covered live (loc * P + (i - 1)) = true \/ un (loc + (i - 1) / P) <> b) /\
       (i + n < K * P -> covered live (loc * P + (i + n)) = true \/ un (loc + (i + n) / P) <> b)).
Proof.
  intros P K loc r live un HP HK H. apply rg_reach_ok in H; [|assumption..]. assert (HN : 0 <= K * P) by (apply Z.mul_nonneg_nonneg; lia).
  destruct (rg_ok_live P K loc r live un HP HK H) as (Lv1 & Lv2 & Lv3). destruct H as [HL HR HU HB HC].
  pose proof (rt_reach_ok _ _ _ HN HR) as Hl. pose proof (ro_wf _ _ (lo_ok _ _ _ Hl)) as Wf.
  assert (Hbit : forall j, 0 <= j < K * P -> bit (rt_bits (rg_t r)) j = covered live (loc * P + j)).
  { intros j Hj. apply Bool.eq_iff_eq_true. rewrite covered_spec. split.
    - intros B. apply (lo_bits _ _ _ Hl) in B. destruct B as [(_ & y & Hy & Hin)|(? & _)]; [|lia]. apply in_map_iff in Hy. destruct Hy as (x & <- & Hx).
      exists x. split; [assumption|]. unfold in_rng, shift in *. cbn [fst snd] in Hin. lia.
    - intros (x & Hx & Hin). apply (live_bit_set _ _ _ (shift (loc * P) x) j Hl); [apply in_map; assumption|]. unfold in_rng, shift in *. cbn [fst snd]. lia. }
  assert (Hblk : forall j, 0 <= j < K * P -> 0 <= j / P < K) by (intros j Hj; split; [apply Z.div_pos; lia|apply Z.div_lt_upper_bound; lia]).
  destruct (rg_runs_spec P K (rt_bits (rg_t r)) (rg_backed r) HP HK Wf (range_fuel (K * P)) 0) as (l & E & B1 & B2 & B3 & B4);
    [lia|unfold range_fuel; lia|unfold range_fuel; lia|lia|].
  unfold rg_span_runs. rewrite E. cbn [obind].
  (* the sums *)
  assert (Hun : forall j, 0 <= j < K * P -> rg_backed r (j / P) = false -> bit (rt_bits (rg_t r)) j = false).
  { intros j Hj Hb. destruct (bit (rt_bits (rg_t r)) j) eqn:Eb; [|reflexivity]. exfalso. rewrite Hbit in Eb by assumption.
    apply covered_spec in Eb. destruct Eb as (x & Hx & Hin). pose proof (Hblk j Hj) as Hjp.
    assert (Hne : rg_used r (j / P) <> 0).
    { rewrite HU by assumption. apply Z.eqb_neq. rewrite used_touched by (assumption || (intros y Hy; apply Lv2; assumption)). apply negb_false_iff.
      unfold touched. apply existsb_exists. exists x. split; [assumption|]. apply touches_spec; [assumption|apply Lv2; assumption|].
      exists (loc * P + j). split; [assumption|]. rewrite Z.add_comm, Z.div_add by lia. lia. }
    pose proof (co_backed _ _ _ HC _ Hjp Hne). congruence. }
  assert (Htrue : zsum (map (fun x => if Bool.eqb (snd x) true then snd (fst x) else 0) l) = rg_unmapped_pages P K r).
  { rewrite B4. replace (K * P - 0) with (K * P) by lia.
    rewrite (zcount_ext _ (fun j => negb (rg_backed r (j / P)))).
    - rewrite <- (Z2Nat.id K HK) at 1. rewrite (zcount_blocks P (fun i => negb (rg_backed r i)) HP). rewrite zcount_not. unfold rg_unmapped_pages.
      rewrite (co_nbacked _ _ _ HC). replace (Z.of_nat (Z.to_nat K)) with K by lia. ring.
    - intros j Hj. destruct (rg_backed r (j / P)) eqn:Eb; cbn [negb Bool.eqb]; [apply andb_false_r|]. rewrite Hun by (assumption || lia). reflexivity. }
  assert (Hfalse : zsum (map (fun x => if Bool.eqb (snd x) false then snd (fst x) else 0) l) = rg_free_pages P K r).
  { rewrite B4 in Htrue. rewrite B4. replace (K * P - 0) with (K * P) in * by lia.
    pose proof (zcount_partition (fun j => negb (bit (rt_bits (rg_t r)) j)) (fun j => Bool.eqb (negb (rg_backed r (j / P))) true) (Z.to_nat (K * P)) 0) as HP1. cbv beta in HP1.
    rewrite (zcount_not (bit (rt_bits (rg_t r)))) in HP1. rewrite <- (ro_used _ _ (lo_ok _ _ _ Hl)) in HP1.
    rewrite (zcount_ext _ (fun j => negb (bit (rt_bits (rg_t r)) j) && negb (Bool.eqb (negb (rg_backed r (j / P))) true))).
    - unfold rg_free_pages, rg_used_pages. lia.
    - intros j Hj. destruct (rg_backed r (j / P)); reflexivity. }
  rewrite Htrue, Hfalse, !Z.eqb_refl. cbn [andb]. exists l. split; [reflexivity|]. split.
  { clear - B2. induction B2 as [|a l Ha Hl' IHl]; [constructor|]. cbn [map]. constructor; [|assumption].
    rewrite Forall_forall in *. intros x Hx. apply in_map_iff in Hx. destruct Hx as (y & <- & Hy). specialize (Ha y Hy). left. exact Ha. }
  assert (Hnb : forall j, 0 <= j < K * P -> negb (rg_backed r (j / P)) = un (loc + j / P)).
  { intros j Hj. rewrite HB by (apply Hblk; assumption). apply negb_involutive. }
  split; [|split].
  - intros (i, n) b Hin. destruct (B1 i n b Hin) as (P1 & P2 & P3 & P4 & _). split; [exact P2|]. intros j Hj. unfold in_rng in Hj. cbn [fst snd] in Hj.
    destruct (P4 j Hj) as (Q1 & Q2). rewrite Hbit in Q1 by lia. rewrite Hnb in Q2 by lia. split; [lia|]. auto.
  - intros j Hj Hc. apply B3; [assumption|]. rewrite Hbit by assumption. assumption.
  - intros i n b Hin. destruct (B1 i n b Hin) as (P1 & P2 & P3 & _ & P5 & P6). split.
    + intros Hi. specialize (P5 Hi). rewrite Hbit, Hnb in P5 by lia. assumption.
    + intros Hi. specialize (P6 Hi). rewrite Hbit, Hnb in P6 by lia. assumption.
Qed.

(** A region of three hugepages of four pages: two runs are taken, the first is given back and
    its first hugepage unbacked (the second is still in use), then a run of five pages is taken
    and given back without release, which leaves an idle hugepage. *)
Definition region_ex_os : Z -> Z -> bool := fun _ _ => true.
Definition region_ex1 : region := match rg_get 4 3 (rg_new 4 3 10) 5 with Some (r, _) => r | None => rg_new 4 3 10 end.
Definition region_ex2 : region := match rg_get 4 3 region_ex1 2 with Some (r, _) => r | None => rg_new 4 3 10 end.
Definition region_ex3 : region := match rg_put 4 3 region_ex_os region_ex2 40 5 true with Some (r, _) => r | None => rg_new 4 3 10 end.
Definition region_ex5 : region := match rg_get 4 3 region_ex3 5 with Some (r, _) => r | None => rg_new 4 3 10 end.
Definition region_ex6 : region := match rg_put 4 3 region_ex_os region_ex5 40 5 false with Some (r, _) => r | None => rg_new 4 3 10 end.

Example region_example :
  (exists un, rg_reach 4 3 10 region_ex6 [(45, 2)] un /\ map un [10; 11; 12] = [false; false; true]) /\
  map snd [(1, rg_used_pages region_ex6); (2, rg_unmapped_pages 4 3 region_ex6); (3, rg_free_backed region_ex6)] = [2; 4; 1] /\
  rg_span_runs 4 3 region_ex6 = Some [((0, 5), false); ((7, 1), false); ((8, 4), true)] /\
  match rg_get 4 3 region_ex6 6 with Some (r, x) => x = None | None => False end /\
  match rg_get 4 3 region_ex6 4 with Some (r, x) => x = Some (40, false) | None => False end /\
  match rg_release 4 3 region_ex_os region_ex6 1 true with Some (_, c, calls) => (c, calls) = (1, [(10, 1)]) | None => False end.
Proof.
  split.
  - eexists. split.
    + eapply (rgr_put 4 3 10 region_ex5 [] 40 5 [(45, 2)] _ region_ex_os false region_ex6 []).
      * eapply (rgr_get 4 3 10 region_ex3 [(45, 2)] _ 5 region_ex5 40 true).
        -- eapply (rgr_put 4 3 10 region_ex2 [(45, 2)] 40 5 [] _ region_ex_os true region_ex3 [(10, 1)]).
           ++ eapply (rgr_get 4 3 10 region_ex1 [(40, 5)] _ 2 region_ex2 45 false).
              ** eapply (rgr_get 4 3 10 (rg_new 4 3 10) [] _ 5 region_ex1 40 true); [constructor|lia|].
                 unfold region_ex1. destruct (rg_get 4 3 (rg_new 4 3 10) 5) as [(r, x)|] eqn:E.
                 { assert (Hx : match rg_get 4 3 (rg_new 4 3 10) 5 with Some (_, x) => x = Some (40, true) | None => False end) by (vm_compute; reflexivity).
                   rewrite E in Hx. subst x. reflexivity. }
                 { assert (Hx : match rg_get 4 3 (rg_new 4 3 10) 5 with Some _ => True | None => False end) by (vm_compute; exact I). rewrite E in Hx. contradiction. }
              ** lia.
              ** assert (Hx : match rg_get 4 3 region_ex1 2 with Some (_, x) => x = Some (45, false) | None => False end) by (vm_compute; reflexivity).
                 unfold region_ex2. destruct (rg_get 4 3 region_ex1 2) as [(r, x)|]; [subst x; reflexivity|contradiction].
           ++ assert (Hx : match rg_put 4 3 region_ex_os region_ex2 40 5 true with Some (_, x) => x = [(10, 1)] | None => False end) by (vm_compute; reflexivity).
              unfold region_ex3. destruct (rg_put 4 3 region_ex_os region_ex2 40 5 true) as [(r, x)|]; [subst x; reflexivity|contradiction].
        -- lia.
        -- assert (Hx : match rg_get 4 3 region_ex3 5 with Some (_, x) => x = Some (40, true) | None => False end) by (vm_compute; reflexivity).
           unfold region_ex5. destruct (rg_get 4 3 region_ex3 5) as [(r, x)|]; [subst x; reflexivity|contradiction].
      * assert (Hx : match rg_put 4 3 region_ex_os region_ex5 40 5 false with Some (_, x) => x = [] | None => False end) by (vm_compute; reflexivity).
        unfold region_ex6. destruct (rg_put 4 3 region_ex_os region_ex5 40 5 false) as [(r, x)|]; [subst x; reflexivity|contradiction].
    + vm_compute. reflexivity.
  - repeat match goal with |- _ /\ _ => split end; vm_compute; reflexivity.
Qed.

Print Assumptions region_runs.
Print Assumptions region_backing.
Print Assumptions region_get.
Print Assumptions region_put.
Print Assumptions region_release.
Print Assumptions region_span_stats.
