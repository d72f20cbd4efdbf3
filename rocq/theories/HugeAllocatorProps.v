(** C11: the hugepage address-space allocator. *)
From Verif Require Import Base HugeAddressMap HugeAddressMapProofs HugeAddressMapProps HugeAllocator.

(** ** Find *)
Lemma ha_find_spec t n best : shape t -> 1 <= n ->
  match ha_find t n best with
  | Some x => (In x (ranges t) /\ n <= snd x) \/ best = Some x
  | None => best = None /\ longest t < n
  end.
Proof.
  revert best. induction t as [|l IHl x p lg r IHr]; intros best Sh Hn.
  { cbn. destruct best; auto. split; [reflexivity|lia]. }
  cbn [shape] in Sh. destruct Sh as (S1 & S2 & S3 & S4 & S5). cbn [ha_find longest ranges].
  destruct (Z.ltb_spec lg n); [destruct best; auto|].
  set (best' := if n <=? snd x then _ else best).
  assert (HB : match best' with Some y => (y = x /\ n <= snd x) \/ best = Some y | None => best = None /\ snd x < n end).
  { unfold best'. destruct (Z.leb_spec n (snd x)); [|destruct best; auto]. destruct best as [b|]; [destruct (snd x <? snd b)|]; auto. }
  clearbody best'. specialize (IHl best' S1 Hn). specialize (IHr best' S2 Hn).
  assert (Hx : In x (ranges l ++ x :: ranges r)) by (apply in_or_app; right; left; reflexivity).
  assert (L : (n <= longest l \/ n <= snd x) -> match ha_find l n best' with
    | Some x0 => In x0 (ranges l ++ x :: ranges r) /\ n <= snd x0 \/ best = Some x0
    | None => best = None /\ lg < n end).
  { intros Hl. destruct (ha_find l n best') as [y|].
    - destruct IHl as [(A & B)| ->]; [left; split; [apply in_or_app; auto|assumption]|]. destruct HB as [(-> & HB)|HB]; auto.
    - destruct IHl as (-> & B). destruct HB. lia. }
  assert (R : (n <= longest r \/ n <= snd x) -> match ha_find r n best' with
    | Some x0 => In x0 (ranges l ++ x :: ranges r) /\ n <= snd x0 \/ best = Some x0
    | None => best = None /\ lg < n end).
  { intros Hr. destruct (ha_find r n best') as [y|].
    - destruct IHr as [(A & B)| ->]; [left; split; [apply in_or_app; right; right; assumption|assumption]|]. destruct HB as [(-> & HB)|HB]; auto.
    - destruct IHr as (-> & B). destruct HB. lia. }
  clear IHl IHr HB. destruct l as [|ll lx lp llg lr].
  - apply R. cbn [longest] in *. lia.
  - destruct r as [|rl rx rp rlg rr]; cbn [longest] in L, R, S3.
    + destruct (Z.ltb_spec llg n); [apply R; lia|apply L; lia].
    + destruct (Z.ltb_spec llg n); [apply R; lia|]. destruct (Z.ltb_spec rlg n); [apply L; lia|].
      destruct (snd lx =? snd rx); [destruct (llg <=? rlg)|destruct (snd lx <? snd rx)]; (apply R; lia) || (apply L; lia).
Qed.

(** ** Invariant: the free set is [F]. *)
Definition ha_ok (h : hugealloc) (F : Z -> Prop) : Prop :=
  ham_ok (ha_free h) /\ (forall p, F p <-> covers (ranges (ham_root (ha_free h))) p) /\ ha_system h - ha_in_use h = total_size (ha_free h).

Lemma ha_release_spec h F r prio : ha_ok h F -> 0 <= fst r -> 1 <= snd r -> (forall p, in_range r p -> ~ F p) ->
  exists h', ha_release h r prio = Some h' /\ ha_system h' = ha_system h /\ ha_ok h' (fun p => F p \/ in_range r p).
Proof.
  intros (A & B & C) H0 H1 HF. unfold ha_release. pose proof (insert_spec (ha_free h) r prio A H0 H1) as Hs.
  destruct (ham_insert (ha_free h) r prio) as [m|] eqn:E.
  - destruct Hs as (Ok & Dj & Cv). cbn [obind]. eexists. split; [reflexivity|]. split; [reflexivity|]. split; [exact Ok|]. split.
    + intros p. cbn [ha_free]. rewrite Cv, <- B. tauto.
    + cbn [ha_free ha_system ha_in_use].
      assert (total_size m = total_size (ha_free h) + snd r); [|lia].
      clear - E. unfold ham_insert in E. destruct (opt_test _ _) in E; [discriminate|]. destruct (opt_test _ _) in E; [discriminate|].
      assert (Hm : forall m0 b r a m', merge_ranges m0 b r a = Some m' -> total_size m' = total_size m0).
      { clear. intros m0 b r a m'. unfold merge_ranges. destruct b as [b|], a as [a|]; try discriminate.
        - destruct (hr_join r a) as [x|]; [|discriminate]. cbn [obind]. destruct (hr_join b x) as [y|]; [|discriminate]. cbn [obind].
          intros [= <-]. hred. lia.
        - destruct (hr_join b r) as [y|]; [|discriminate]. cbn [obind]. intros [= <-]. reflexivity.
        - destruct (hr_join r a) as [y|]; [|discriminate]. cbn [obind]. intros [= <-]. reflexivity. }
      repeat match type of E with context [if ?b then _ else _] => destruct b; [|] end; try (apply Hm in E; rewrite E; reflexivity).
      injection E as <-. unfold node_get. destruct (_ =? 0); reflexivity.
  - exfalso. destruct Hs as (x & Hx & Dj). apply Dj. intros p (Hp & Hq). apply (HF p Hq). apply B. exists x. auto.
Qed.

Lemma ham_ok_range m x : ham_ok m -> In x (ranges (ham_root m)) -> 0 <= fst x /\ 1 <= snd x.
Proof. intros H Hx. destruct (gaps_In _ _ _ (h_gaps m H) Hx). lia. Qed.

Lemma ha_take_spec h F x n prio : ha_ok h F -> 1 <= n -> In x (ranges (ham_root (ha_free h))) -> n <= snd x ->
  exists h', ha_take h x n prio = Some ((fst x, n), h') /\ ha_system h' = ha_system h /\
    ha_ok h' (fun p => F p /\ ~ in_range (fst x, n) p) /\ (forall p, in_range (fst x, n) p -> F p).
Proof.
  intros (A & B & C) Hn Hx Hl. destruct (remove_spec _ _ A Hx) as (R1 & (a & b & R2 & R3) & R4). pose proof (ham_ok_range _ _ A Hx) as (X0 & X1).
  assert (HxF : forall p, in_range x p -> F p) by (intros p Hp; apply B; exists x; auto).
  assert (HT : total_size (ham_remove (ha_free h) x) = total_size (ha_free h) - snd x).
  { hred. lia. }
  unfold ha_take. cbn [ha_free ha_system ha_in_use]. destruct (Z.ltb_spec n (snd x)) as [Hlt|Hge].
  - destruct (ha_release_spec (MkHA (ham_remove (ha_free h) x) (ha_system h) (ha_in_use h + n + (snd x - n))) (fun p => F p /\ ~ in_range x p) (fst x + n, snd x - n) prio)
      as (h' & E & E1 & E2 & E3 & E4).
    + split; [exact R1|]. split; [intros p; cbn [ha_free]; rewrite R4, <- B; tauto|]. cbn [ha_system ha_in_use ha_free]. lia.
    + cbn. lia.
    + cbn. lia.
    + unfold in_range. cbn [fst snd]. intros p Hp (_ & Hq). lia.
    + cbn [snd]. rewrite E. cbn [obind]. eexists. split; [reflexivity|]. split; [exact E1|].
      split; [|intros p Hp; apply HxF; unfold in_range in *; cbn [fst snd] in *; lia].
      split; [exact E2|]. split; [|exact E4]. intros p. rewrite <- E3. specialize (HxF p). unfold in_range in *. cbn [fst snd]. 
      split; [intros (P & Q)|intros [(P & Q)|Q]].
      * destruct (Z_lt_ge_dec p (fst x + snd x)); [destruct (Z_lt_ge_dec p (fst x))|]; [left|right|left]; repeat split; auto; lia.
      * split; [assumption|lia].
      * split; [apply HxF; lia|lia].
  - assert (n = snd x) by lia. subst n. destruct x as [xs xn]. cbn [fst snd] in *. eexists. split; [reflexivity|]. cbn [ha_system]. split; [reflexivity|]. split; [|assumption].
    split; [exact R1|]. split; [intros p; cbn [ha_free]; rewrite R4, <- B; tauto|]. cbn [ha_system ha_in_use ha_free]. lia.
Qed.

Lemma ha_find_none h F n : ha_ok h F -> 1 <= n -> ha_find (ham_root (ha_free h)) n None = None ->
  forall r, maximal_run F r -> snd r < n.
Proof.
  intros (A & B & C) Hn E r Hr. pose proof (ha_find_spec (ham_root (ha_free h)) n None (h_shape _ A) Hn) as Hs. rewrite E in Hs. destruct Hs as (_ & Hs).
  assert (Hin : In r (ranges (ham_root (ha_free h)))).
  { apply (gaps_runs (-1)); [apply A|]. destruct Hr as (R1 & R2 & R3 & R4). rewrite B in R3, R4. repeat split; auto. intros p Hp. apply B. auto. }
  rewrite shape_longest in Hs by apply A. pose proof (maxlen_In _ _ Hin). lia.
Qed.

Lemma ha_get_spec h F n os p1 p2 : ha_ok h F -> 1 <= n -> 
  (forall r, os = Some r -> 0 <= fst r /\ n <= snd r /\ forall p, in_range r p -> ~ F p) ->
  exists res asked h', ha_get h n os p1 p2 = Some (res, asked, h') /\
    (asked = true <-> forall r, maximal_run F r -> snd r < n) /\
    let F1 := fun p => F p \/ (asked = true /\ hl_overflows n = false /\ exists g, os = Some g /\ in_range g p) in
    ha_system h' = ha_system h + (if asked && negb (hl_overflows n) then match os with Some g => snd g | None => 0 end else 0) /\
    match res with
    | Some r => snd r = n /\ 0 <= fst r /\ (forall p, in_range r p -> F1 p) /\ ha_ok h' (fun p => F1 p /\ ~ in_range r p)
    | None => asked = true /\ (os = None \/ hl_overflows n = true) /\ h' = h
    end.
Proof.
  intros Hok Hn Hos. unfold ha_get. replace (n <=? 0) with false by lia.
  pose proof Hok as (A & B & C). pose proof (ha_find_spec (ham_root (ha_free h)) n None (h_shape _ A) Hn) as Hs.
  destruct (ha_find (ham_root (ha_free h)) n None) as [x|] eqn:Ef.
  - destruct Hs as [(Hx & Hl)|?]; [|discriminate]. destruct (ha_take_spec h F x n p2 Hok Hn Hx Hl) as (h' & E & E1 & E2 & E3).
    rewrite E. cbn [obind]. exists (Some (fst x, n)), false, h'. split; [reflexivity|]. split.
    { split; [discriminate|]. intros Hm. exfalso. 
      assert (Hr : maximal_run F x). { apply (gaps_runs (-1)) in Hx; [|apply A]. destruct Hx as (R1 & R2 & R3 & R4). rewrite <- B in R3, R4. repeat split; auto. intros p Hp. apply B. auto. }
      specialize (Hm x Hr). lia. }
    cbn zeta. cbn [andb]. split; [lia|]. split; [reflexivity|]. pose proof (ham_ok_range _ _ A Hx). split; [cbn; lia|]. split; [auto|].
    destruct E2 as (K1 & K2 & K3). split; [exact K1|]. split; [|exact K3]. intros p. rewrite <- K2. intuition discriminate.
  - pose proof (ha_find_none h F n Hok Hn Ef) as Hnone. unfold ha_allocate_range. destruct (hl_overflows n) eqn:Eo.
    { exists None, true, h. split; [reflexivity|]. split; [tauto|]. cbn zeta. cbn [andb negb]. split; [lia|]. auto. }
    destruct os as [g|].
    2: { exists None, true, h. split; [reflexivity|]. split; [tauto|]. cbn zeta. cbn [andb negb]. split; [lia|]. auto. }
    destruct (Hos g eq_refl) as (G0 & G1 & G2). cbn [ha_free ha_system ha_in_use].
    destruct (ha_release_spec (MkHA (ha_free h) (ha_system h + snd g) (ha_in_use h + snd g)) F g p1) as (h1 & E & E1 & E2); [|assumption|lia|assumption|].
    { split; [exact A|]. split; [exact B|]. cbn. lia. }
    rewrite E. cbn [obind]. pose proof E2 as (A1 & B1 & C1).
    pose proof (ha_find_spec (ham_root (ha_free h1)) n None (h_shape _ A1) Hn) as Hs1.
    destruct (ha_find (ham_root (ha_free h1)) n None) as [x|] eqn:Ef1.
    2: { exfalso. destruct Hs1 as (_ & Hs1). rewrite shape_longest in Hs1 by apply A1.
         (* the new range is inside some run *)
         destruct (proj1 (B1 (fst g))) as (y & Hy & Hp); [right; unfold in_range; lia|]. unfold in_range in Hp.
         assert (Hend : fst g + snd g <= fst y + snd y).
         { destruct (Z.le_gt_cases (fst g + snd g) (fst y + snd y)); [assumption|exfalso].
           destruct (proj1 (B1 (fst y + snd y))) as (z & Hz & Hq); [right; unfold in_range; lia|]. unfold in_range in Hq.
           destruct (gaps_far _ _ _ _ (h_gaps _ A1) Hy Hz) as [->|Hf]; lia. }
         pose proof (maxlen_In _ _ Hy). lia. }
    destruct Hs1 as [(Hx & Hl)|?]; [|discriminate].
    destruct (ha_take_spec h1 _ x n p2 E2 Hn Hx Hl) as (h' & T & T1 & T2 & T3). cbn [obind]. rewrite T. cbn [obind].
    exists (Some (fst x, n)), true, h'. split; [reflexivity|]. split; [tauto|]. cbn zeta. cbn [andb negb].
    split; [rewrite T1, E1; reflexivity|]. split; [reflexivity|]. pose proof (ham_ok_range _ _ A1 Hx). split; [cbn; lia|].
    split.
    { intros p Hp. destruct (T3 p Hp) as [?|Hg]; [auto|]. right. split; [reflexivity|]. split; [reflexivity|]. exists g. auto. }
    destruct T2 as (K1 & K2 & K3). split; [exact K1|]. split; [|exact K3]. intros p. rewrite <- K2.
    assert (Q : (true = true /\ false = false /\ (exists g0, Some g = Some g0 /\ in_range g0 p)) <-> in_range g p).
    { split; [intros (_ & _ & (g0 & [= <-] & Hg)); assumption|]. intros Hg. eauto. }
    tauto.
Qed.

(** ** Histories.  [U]: the hugepages handed out and not yet released; [G]: the ranges
    granted by the system, which grants only what it has not granted before. *)
Definition os_ok (G : list hrange) (n : Z) (os : option hrange) : Prop :=
  forall g, os = Some g -> 1 <= fst g /\ n <= snd g /\ forall p, in_range g p -> ~ covers G p.

Inductive reach_ha : hugealloc -> (Z -> Prop) -> list hrange -> Prop :=
| ra_init : reach_ha ha_init (fun _ => False) []
| ra_get h U G n os p1 p2 r asked h' : reach_ha h U G -> 1 <= n -> os_ok G n os ->
    ha_get h n os p1 p2 = Some (Some r, asked, h') ->
    reach_ha h' (fun p => U p \/ in_range r p) (if asked then match os with Some g => g :: G | None => G end else G)
| ra_fail h U G n os p1 p2 asked h' : reach_ha h U G -> 1 <= n -> os_ok G n os ->
    ha_get h n os p1 p2 = Some (None, asked, h') -> reach_ha h' U G
| ra_release h U G r p h' : reach_ha h U G -> 1 <= snd r -> (forall q, in_range r q -> U q) ->
    ha_release h r p = Some h' -> reach_ha h' (fun q => U q /\ ~ in_range r q) G.

Definition free_set (h : hugealloc) (p : Z) : Prop := covers (ranges (ham_root (ha_free h))) p.

Lemma reach_ha_ok h U G : reach_ha h U G -> ha_ok h (free_set h) /\ (forall p, free_set h p -> ~ U p) /\
  (forall p, covers G p <-> free_set h p \/ U p) /\ ha_system h = sum_len G /\ (forall p, covers G p -> 1 <= p).
Proof.
  assert (Hself : forall h F, ha_ok h F -> ha_ok h (free_set h) /\ forall p, F p <-> free_set h p).
  { intros h0 F (A & B & C). split; [|exact B]. split; [exact A|]. split; [intros p; reflexivity|exact C]. }
  induction 1 as [|h U G n os p1 p2 r asked h' H IH Hn Hos E|h U G n os p1 p2 asked h' H IH Hn Hos E|h U G r p h' H IH Hr Hu E].
  - split; [|split; [|split; [|split]]].
    + split; [constructor; cbn; auto; lia|]. split; [intros p; reflexivity|reflexivity].
    + intros p Hp. unfold free_set in Hp. cbn in Hp. destruct Hp as (x & [] & _).
    + intros p. unfold free_set. cbn. rewrite covers_nil. tauto.
    + reflexivity.
    + intros p Hp. apply covers_nil in Hp. contradiction.
  - destruct IH as (I1 & I2 & I3 & I4 & I5).
    destruct (ha_get_spec h (free_set h) n os p1 p2 I1 Hn) as (res & asked' & h2 & E2 & _ & K).
    { intros g Hg. destruct (Hos g Hg) as (O1 & O2 & O3). split; [lia|]. split; [assumption|]. intros p Hp Hf. apply (O3 p Hp). apply I3. auto. }
    rewrite E in E2. injection E2 as <- <- <-. cbn zeta in K. destruct K as (K1 & K2 & K3 & K4 & K5).
    apply Hself in K5. destruct K5 as (K6 & K7).
    set (G' := if asked then _ else G) in *.
    assert (HG : forall p, covers G' p <-> covers G p \/ (asked = true /\ hl_overflows n = false /\ exists g, os = Some g /\ in_range g p)).
    { intros p. unfold G'. clear K4 K6 K7. destruct asked; [|intuition discriminate]. destruct os as [g|]; [|intuition; [destruct H3 as (g & Hg & _); discriminate]].
      rewrite covers_cons. 
      assert (hl_overflows n = false).
      { unfold ha_get in E. replace (n <=? 0) with false in E by lia. destruct (ha_find _ _ _) as [x|]; [destruct (ha_take _ _ _ _) as [[? ?]|]; discriminate|].
        unfold ha_allocate_range in E. destruct (hl_overflows n); [discriminate|reflexivity]. }
      split; [intros [Hp|Hp]; [right; split; [reflexivity|split; [assumption|exists g; auto]]|left; assumption]|]. intros [Hp|(_ & _ & (g0 & [= <-] & Hp))]; auto. }
    split; [exact K6|]. split; [|split; [|split]].
    + intros p Hp [HU|Hr]; apply K7 in Hp; destruct Hp as (Hp & Hnr); [|contradiction].
      destruct Hp as [Hp|(_ & _ & (g & Hg & Hp))]; [apply (I2 p Hp HU)|]. destruct (Hos g Hg) as (_ & _ & O3). apply (O3 p Hp). apply I3. auto.
    + intros p. rewrite HG, <- K7, I3. 
      assert (Dec : in_range r p \/ ~ in_range r p) by (unfold in_range; lia). specialize (K4 p). cbn beta in K4. tauto.
    + rewrite K1, I4. unfold G'. destruct asked; [|cbn [andb]; lia].
      assert (hl_overflows n = false).
      { unfold ha_get in E. replace (n <=? 0) with false in E by lia. destruct (ha_find _ _ _) as [x|]; [destruct (ha_take _ _ _ _) as [[? ?]|]; discriminate|].
        unfold ha_allocate_range in E. destruct (hl_overflows n); [discriminate|reflexivity]. }
      rewrite H0. cbn [andb negb]. destruct os; [rewrite sum_len_cons; lia|lia].
    + intros p Hp. apply HG in Hp. destruct Hp as [Hp|(_ & _ & (g & Hg & Hp))]; [apply I5; assumption|]. destruct (Hos g Hg). unfold in_range in Hp. lia.
  - destruct IH as (I1 & I2 & I3 & I4 & I5).
    destruct (ha_get_spec h (free_set h) n os p1 p2 I1 Hn) as (res & asked' & h2 & E2 & _ & K).
    { intros g Hg. destruct (Hos g Hg) as (O1 & O2 & O3). split; [lia|]. split; [assumption|]. intros p Hp Hf. apply (O3 p Hp). apply I3. auto. }
    rewrite E in E2. injection E2 as <- <- <-. cbn zeta in K. destruct K as (_ & _ & _ & ->). auto.
  - destruct IH as (I1 & I2 & I3 & I4 & I5).
    destruct (ha_release_spec h (free_set h) r p I1) as (h2 & E2 & S2 & K); [|assumption| |].
    { assert (1 <= fst r); [|lia]. apply I5. apply I3. right. apply Hu. unfold in_range. lia. }
    { intros q Hq Hf. apply (I2 q Hf). apply Hu. assumption. }
    rewrite E in E2. injection E2 as <-. apply Hself in K. destruct K as (K1 & K2). split; [exact K1|]. split; [|split; [|split]].
    + intros q Hq (HU & Hnr). apply K2 in Hq. destruct Hq as [Hq|Hq]; [apply (I2 q); assumption|contradiction].
    + intros q. rewrite I3, <- K2. assert (Dec : in_range r q \/ ~ in_range r q) by (unfold in_range; lia). specialize (Hu q). tauto.
    + rewrite S2. assumption.
    + assumption.
Qed.

(** Everything the system granted is either handed out or free, never both; the free
    set is stored as its maximal runs; the reported sizes are exact. *)
Theorem huge_allocator_exact : forall h U G, reach_ha h U G ->
  (forall p, free_set h p -> ~ U p) /\
  (forall p, covers G p <-> free_set h p \/ U p) /\
  (forall r, In r (ranges (ham_root (ha_free h))) <-> maximal_run (free_set h) r) /\
  ha_system h = sum_len G /\
  ha_size h = sum_len (ranges (ham_root (ha_free h))) /\
  (forall p, ha_contains h p = true <-> free_set h p).
Proof.
  intros h U G H. apply reach_ha_ok in H. destruct H as ((A & _ & C) & I2 & I3 & I4 & I5).
  split; [assumption|]. split; [assumption|]. split; [intros r; apply (gaps_runs (-1)); apply A|]. split; [assumption|].
  split; [unfold ha_size; rewrite C; apply A|]. intros p. unfold ha_contains. destruct (neighbours (ha_free h) p A) as (b & a & E & Hb & Ha & Ep & _).
  rewrite Ep. unfold free_set. pose proof (h_gaps _ A) as G0. rewrite E in G0 |- *. destruct (last_or_case b) as [(-> & El)|(b' & x & -> & El)]; rewrite El.
  - split; [discriminate|]. intros (y & Hy & Hp). cbn [app] in Hy. apply Ha in Hy. unfold in_range in Hp. lia.
  - assert (Hin : In x ((b' ++ [x]) ++ a)) by (apply in_or_app; left; apply in_or_app; right; left; reflexivity).
    unfold hr_contains. split.
    + intros Hc. exists x. unfold in_range. split; [assumption|lia].
    + intros (y & Hy & Hp). unfold in_range in Hp. apply in_app_or in Hy. destruct Hy as [Hy|Hy]; [|apply Ha in Hy; lia].
      rewrite <- app_assoc in G0. cbn [app] in G0. destruct (gaps_mid _ _ _ _ G0) as (_ & _ & _ & _ & G5 & _).
      apply in_app_or in Hy. destruct Hy as [Hy|[<-|[]]]; [|lia]. apply G5 in Hy.
      assert (fst x <= p) by (apply Hb; apply in_or_app; right; left; reflexivity). lia.
Qed.
Print Assumptions huge_allocator_exact.

(** A request never fails a check; it returns exactly the requested length out of free or
    newly granted address space that is not handed out; the system is asked if and only
    if no free run is long enough; it fails only if the system then refuses (or the
    length is not representable). *)
Theorem huge_allocator_get : forall h U G n os p1 p2, reach_ha h U G -> 1 <= n -> os_ok G n os ->
  exists res asked h', ha_get h n os p1 p2 = Some (res, asked, h') /\
    (asked = true <-> forall r, maximal_run (free_set h) r -> snd r < n) /\
    match res with
    | Some r => snd r = n /\ 1 <= fst r /\
        (forall p, in_range r p -> ~ U p /\ (free_set h p \/ (asked = true /\ exists g, os = Some g /\ in_range g p)))
    | None => asked = true /\ (os = None \/ 2 ^ 43 <= n) /\ h' = h
    end.
Proof.
  intros h U G n os p1 p2 H Hn Hos. apply reach_ha_ok in H. destruct H as (I1 & I2 & I3 & I4 & I5).
  destruct (ha_get_spec h (free_set h) n os p1 p2 I1 Hn) as (res & asked & h' & E & K0 & K).
  { intros g Hg. destruct (Hos g Hg) as (O1 & O2 & O3). split; [lia|]. split; [assumption|]. intros p Hp Hf. apply (O3 p Hp). apply I3. auto. }
  exists res, asked, h'. split; [assumption|]. split; [assumption|]. cbn zeta in K. destruct K as (K1 & K). destruct res as [r|].
  - destruct K as (K2 & K3 & K4 & K5). split; [assumption|].
    assert (Hx : forall p, in_range r p -> 1 <= p /\ ~ U p /\ (free_set h p \/ (asked = true /\ exists g, os = Some g /\ in_range g p))).
    { intros p Hp. destruct (K4 p Hp) as [Hf|(Ha & _ & (g & Hg & Hp'))].
      - split; [apply I5; apply I3; auto|]. split; [apply I2; assumption|auto].
      - destruct (Hos g Hg) as (O1 & O2 & O3). split; [unfold in_range in Hp'; lia|]. split; [|eauto]. intros HU. apply (O3 p Hp'). apply I3. auto. }
    split; [apply Hx; unfold in_range; lia|]. intros p Hp. apply Hx. assumption.
  - destruct K as (K2 & K3 & K4). split; [assumption|]. split; [|assumption]. destruct K3 as [K3|K3]; [auto|]. right. unfold hl_overflows in K3.
    change (2 ^ 64 / 2 ^ 21) with 8796093022208 in K3. change (2 ^ 43) with 8796093022208. lia.
Qed.
Print Assumptions huge_allocator_get.

(** Releasing handed-out hugepages never fails. *)
Theorem huge_allocator_release : forall h U G r prio, reach_ha h U G -> 1 <= snd r -> (forall q, in_range r q -> U q) ->
  exists h', ha_release h r prio = Some h' /\ (forall p, free_set h' p <-> free_set h p \/ in_range r p) /\ ha_size h' = ha_size h + snd r.
Proof.
  intros h U G r prio H Hr Hu. apply reach_ha_ok in H. destruct H as (I1 & I2 & I3 & I4 & I5).
  destruct (ha_release_spec h (free_set h) r prio I1) as (h2 & E2 & S2 & K); [|assumption| |].
  { assert (1 <= fst r); [|lia]. apply I5. apply I3. right. apply Hu. unfold in_range. lia. }
  { intros q Hq Hf. apply (I2 q Hf). apply Hu. assumption. }
  exists h2. split; [assumption|]. destruct K as (K1 & K2 & K3). split; [intros p; symmetry; apply K2|].
  unfold ha_release in E2. destruct (ham_insert _ _ _); [|discriminate]. cbn [obind] in E2. injection E2 as <-. unfold ha_size. cbn. lia.
Qed.
Print Assumptions huge_allocator_release.

(** Three requests against a system that grants 8 and then 4 hugepages, one release that
    splits a handed-out range: the second request is served without the system. *)
Example huge_allocator_history : exists h U G, reach_ha h U G /\ G = [(30, 4); (10, 8)] /\
  ranges (ham_root (ha_free h)) = [(11, 1); (15, 3); (33, 1)] /\ ha_size h = 5.
Proof.
  assert (R0 : reach_ha ha_init (fun _ => False) []) by constructor.
  assert (O1 : os_ok [] 3 (Some (10, 8))). { intros g [= <-]. cbn. split; [lia|]. split; [lia|]. intros p _ Hc. apply covers_nil in Hc. assumption. }
  eassert (R1 := ra_get _ _ _ 3 (Some (10, 8)) 5 6 _ _ _ R0 ltac:(lia) O1 ltac:(vm_compute; reflexivity)). cbn iota in R1.
  assert (O2 : os_ok [(10, 8)] 2 None) by (intros g; discriminate).
  eassert (R2 := ra_get _ _ _ 2 None 5 6 _ _ _ R1 ltac:(lia) O2 ltac:(vm_compute; reflexivity)). cbn iota in R2.
  assert (Hrel : forall q, in_range (11, 1) q -> (False \/ in_range (10, 3) q) \/ in_range (13, 2) q) by (unfold in_range; cbn; lia).
  eassert (R3 := ra_release _ _ _ (11, 1) 7 _ R2 ltac:(cbn; lia) Hrel ltac:(vm_compute; reflexivity)).
  assert (O4 : os_ok [(10, 8)] 4 (Some (30, 4))).
  { intros g [= <-]. cbn. split; [lia|]. split; [lia|]. intros p Hp Hc. rewrite covers_cons, covers_nil in Hc. unfold in_range in *. cbn [fst snd] in *. lia. }
  eassert (R4 := ra_get _ _ _ 4 (Some (30, 4)) 5 6 _ _ _ R3 ltac:(lia) O4 ltac:(vm_compute; reflexivity)). cbn iota in R4.
  assert (Hrel2 : forall q, in_range (33, 1) q -> ((((False \/ in_range (10, 3) q) \/ in_range (13, 2) q) /\ ~ in_range (11, 1) q) \/ in_range (30, 4) q)) by (unfold in_range; cbn; lia).
  eassert (R5 := ra_release _ _ _ (33, 1) 7 _ R4 ltac:(cbn; lia) Hrel2 ltac:(vm_compute; reflexivity)).
  do 3 eexists. split; [exact R5|]. split; [reflexivity|]. split; reflexivity.
Qed.
