(** Property C28: sampling accounts for every byte. *)
From Coq Require Import Znumtheory.
From Verif Require Import Base Sampler.

(** ** Specification *)

(** One allocation: its size, which path it takes and what the world contributes. *)
Inductive alloc := ASmall (k : Z) (miss : bool) (e : senv) | ALarge (k : Z) (e : senv).
Definition size_of (a : alloc) : Z := match a with ASmall k _ _ => k | ALarge k _ => k end.
Definition env_of (a : alloc) : senv := match a with ASmall _ _ e => e | ALarge _ e => e end.

Definition do_alloc (s : sampler) (a : alloc) : Z * list (Z * Z) * sampler :=
  match a with ASmall k miss e => record_small s k miss e | ALarge k e => record s k e end.

(** Histories: the weights returned and the draws (interval, gap) made, newest first. *)
Fixpoint go (s : sampler) (l : list alloc) (ws : list Z) (ds : list (Z * Z)) : list Z * list (Z * Z) * sampler :=
  match l with
  | [] => (ws, ds, s)
  | a :: l => let '(w, d, s) := do_alloc s a in go s l (w :: ws) (d ++ ds)
  end.

(** Allocations smaller than 2^62 bytes; intervals between 1 and 2^62; any
    non-negative geometric variable an [ssize_t] can hold. *)
Definition env_ok (e : senv) : Prop :=
  1 <= e_int1 e <= 2 ^ 62 /\ 1 <= e_int2 e <= 2 ^ 62 /\ 1 <= e_int3 e /\
  0 <= e_geo1 e <= ssize_max /\ 0 <= e_geo2 e <= ssize_max.
Definition alloc_ok (a : alloc) : Prop := 0 <= size_of a < 2 ^ 62 /\ env_ok (env_of a).

(** Bytes allocated, each allocation counted as size + 1. *)
Definition counted (l : list alloc) : Z := zsum (map (fun a => size_of a + 1) l).

(** ** Facts about signed arithmetic *)
Lemma s64_small x : - 2 ^ 63 <= x < 2 ^ 63 -> s64 x = x.
Proof. intros. unfold s64. rewrite Z.mod_small; lia. Qed.
Lemma wrap64_small x : 0 <= x < 2 ^ 64 -> wrap64 x = x.
Proof. intros. unfold wrap64, two64. apply Z.mod_small. lia. Qed.

Lemma pick_range int geo : 1 <= int -> 0 <= geo <= ssize_max -> 0 <= pick int geo < ssize_max.
Proof.
  unfold pick, ssize_max, k_interval_offset. intros. replace (int <=? 0) with false by lia. destruct (int =? 1); [lia|].
  rewrite s64_small by lia. lia.
Qed.

(** A sampler between two allocations. *)
Definition ready (s : sampler) : Prop := s_init s = true /\ 0 <= s_bytes s < ssize_max /\ 1 <= s_interval s <= 2 ^ 62.

Lemma do_alloc_ready s a : ready s -> alloc_ok a ->
  do_alloc s a =
    if s_bytes s <? size_of a + 1
    then (s_interval s + size_of a - s_bytes s, [(e_int2 (env_of a), pick (e_int2 (env_of a)) (e_geo2 (env_of a)))],
          Sampler (e_int2 (env_of a)) true (pick (e_int2 (env_of a)) (e_geo2 (env_of a))))
    else (0, [], Sampler (s_interval s) true (s_bytes s - (size_of a + 1))).
Proof.
  intros (R1 & R2 & R3) (A1 & A2). unfold ssize_max in *.
  assert (Ek : wrap64 (size_of a + 1) = size_of a + 1) by (apply wrap64_small; lia).
  assert (Eb : wrap64 (s_bytes s) = s_bytes s) by (apply wrap64_small; lia).
  assert (Es : s64 (s_bytes s - (size_of a + 1)) = s_bytes s - (size_of a + 1)) by (apply s64_small; lia).
  assert (Ef : try_fast s (size_of a) = (negb (s_bytes s <? size_of a + 1), Sampler (s_interval s) true (s_bytes s - (size_of a + 1)))).
  { unfold try_fast. rewrite Ek, Eb, Es, R1. reflexivity. }
  assert (Esl : s_bytes s < size_of a + 1 ->
    record_slow (Sampler (s_interval s) true (s_bytes s - (size_of a + 1))) (size_of a) (env_of a) =
     (s_interval s + size_of a - s_bytes s, [(e_int2 (env_of a), pick (e_int2 (env_of a)) (e_geo2 (env_of a)))],
          Sampler (e_int2 (env_of a)) true (pick (e_int2 (env_of a)) (e_geo2 (env_of a))))).
  { intros Hlt. unfold record_slow. cbn [s_init s_interval s_bytes]. unfold k_interval_offset.
    destruct A2 as (_ & _ & A3 & _). replace (e_int3 (env_of a) <=? 0) with false by lia.
    rewrite (s64_small (s_bytes s - (size_of a + 1) + 1)) by lia.
    rewrite s64_small by lia. rewrite Z.eqb_refl. rewrite wrap64_small by lia.
    replace (s_interval s - (s_bytes s - (size_of a + 1) + 1)) with (s_interval s + size_of a - s_bytes s) by lia. reflexivity. }
  destruct a as [k miss e|k e]; cbn [do_alloc size_of env_of] in *.
  - unfold record_small. rewrite Ef. rewrite negb_involutive. unfold recorded_fast. cbn [s_bytes].
    destruct (Z.ltb_spec (s_bytes s) (k + 1)) as [H|H]; cbn [orb].
    + replace (s_bytes s - (k + 1) <? 0) with true by lia. apply Esl. assumption.
    + destruct miss; [|reflexivity]. replace (s_bytes s - (k + 1) <? 0) with false by lia. reflexivity.
  - unfold record. rewrite Ef. destruct (Z.ltb_spec (s_bytes s) (k + 1)) as [H|H]; cbn [negb]; [apply Esl; assumption|reflexivity].
Qed.

(** The first allocation of a thread. *)
Lemma do_alloc_first a : alloc_ok a ->
  do_alloc sampler0 a =
    let T := e_int1 (env_of a) in
    let gap := pick T (e_geo1 (env_of a)) in
    if gap <? size_of a + 1
    then (T + size_of a - gap,
          [(e_int2 (env_of a), pick (e_int2 (env_of a)) (e_geo2 (env_of a))); (T, gap)],
          Sampler (e_int2 (env_of a)) true (pick (e_int2 (env_of a)) (e_geo2 (env_of a))))
    else (0, [(T, gap)], Sampler T true (gap - (size_of a + 1))).
Proof.
  intros (A1 & A2). cbv zeta. pose proof A2 as (I1 & I2 & I3 & G1 & G2). unfold ssize_max in *.
  pose proof (pick_range (e_int1 (env_of a)) (e_geo1 (env_of a)) ltac:(lia) G1) as P. unfold ssize_max in P.
  assert (Ek : wrap64 (size_of a + 1) = size_of a + 1) by (apply wrap64_small; lia).
  assert (Ef : try_fast sampler0 (size_of a) = (false, Sampler 0 false (- (size_of a + 1)))).
  { unfold try_fast, sampler0. cbn [s_bytes s_interval s_init]. rewrite Ek. change (wrap64 0) with 0.
    replace (0 <? size_of a + 1) with true by lia. cbn [negb]. rewrite s64_small by lia. f_equal. }
  set (gap := pick (e_int1 (env_of a)) (e_geo1 (env_of a))) in *.
  assert (Esl : record_slow (Sampler 0 false (- (size_of a + 1))) (size_of a) (env_of a) =
    if gap <? size_of a + 1
    then (e_int1 (env_of a) + size_of a - gap,
          [(e_int2 (env_of a), pick (e_int2 (env_of a)) (e_geo2 (env_of a))); (e_int1 (env_of a), gap)],
          Sampler (e_int2 (env_of a)) true (pick (e_int2 (env_of a)) (e_geo2 (env_of a))))
    else (0, [(e_int1 (env_of a), gap)], Sampler (e_int1 (env_of a)) true (gap - (size_of a + 1)))).
  { unfold record_slow. cbn [s_init]. fold gap. rewrite Ek, (s64_small (gap - (size_of a + 1))) by lia.
    destruct (Z.ltb_spec gap (size_of a + 1)) as [H|H].
    - replace (0 <=? gap - (size_of a + 1)) with false by lia. cbn [s_init s_interval s_bytes]. unfold k_interval_offset.
      replace (e_int3 (env_of a) <=? 0) with false by lia.
      rewrite (s64_small (gap - (size_of a + 1) + 1)) by lia.
      rewrite s64_small by lia. rewrite Z.eqb_refl. rewrite wrap64_small by lia.
      replace (e_int1 (env_of a) - (gap - (size_of a + 1) + 1)) with (e_int1 (env_of a) + size_of a - gap) by lia. reflexivity.
    - replace (0 <=? gap - (size_of a + 1)) with true by lia. reflexivity. }
  destruct a as [k miss e|k e]; cbn [do_alloc size_of env_of] in *.
  - unfold record_small. rewrite Ef. cbn [negb orb]. unfold recorded_fast. cbn [s_bytes].
    replace (- (k + 1) <? 0) with true by lia. exact Esl.
  - unfold record. rewrite Ef. exact Esl.
Qed.

(** ** Histories *)

(** Sum of (interval - (gap + 1)) over the draws. *)
Definition drift (ds : list (Z * Z)) : Z := zsum (map (fun d => fst d - (snd d + 1)) ds).

Lemma go_ready l : forall s ws ds, ready s -> Forall alloc_ok l ->
  forall T g ds0, ds = (T, g) :: ds0 -> T = s_interval s -> s_bytes s <= g ->
  let '(ws', ds', s') := go s l ws ds in
  ready s' /\ exists T' g' ds1, ds' = (T', g') :: ds1 /\ T' = s_interval s' /\ s_bytes s' <= g' /\
    zsum ws' + (g' - s_bytes s') - drift ds1 = zsum ws + (g - s_bytes s) - drift ds0 + counted l.
Proof.
  induction l as [|a l IH]; intros s ws ds R F T g ds0 -> ET Hg.
  - cbn. split; [assumption|]. exists T, g, ds0. split; [reflexivity|]. split; [assumption|]. split; [assumption|]. lia.
  - inversion F as [|? ? Fa Fl]; subst. cbn [go]. rewrite (do_alloc_ready s a R Fa).
    pose proof R as (R1 & R2 & R3). pose proof Fa as (A1 & I1 & I2 & I3 & G1 & G2).
    destruct (Z.ltb_spec (s_bytes s) (size_of a + 1)) as [H|H].
    + pose proof (pick_range (e_int2 (env_of a)) (e_geo2 (env_of a)) ltac:(lia) G2) as P.
      specialize (IH (Sampler (e_int2 (env_of a)) true (pick (e_int2 (env_of a)) (e_geo2 (env_of a)))) (s_interval s + size_of a - s_bytes s :: ws)
        ([(e_int2 (env_of a), pick (e_int2 (env_of a)) (e_geo2 (env_of a)))] ++ (s_interval s, g) :: ds0)
        ltac:(split; [reflexivity|split; [exact P|cbn; lia]]) Fl _ _ _ eq_refl eq_refl (Z.le_refl _)).
      destruct (go _ _ _ _) as ((ws' & ds') & s'). destruct IH as (R' & T' & g' & ds1 & E1 & E2 & E4 & E3). split; [assumption|].
      exists T', g', ds1. split; [assumption|]. split; [assumption|]. split; [assumption|].
      rewrite E3. unfold drift, counted. cbn [map zsum fst snd s_bytes]. lia.
    + specialize (IH (Sampler (s_interval s) true (s_bytes s - (size_of a + 1))) (0 :: ws) ([] ++ (s_interval s, g) :: ds0)
        ltac:(split; [reflexivity|split; [cbn; unfold ssize_max in *; lia|exact R3]]) Fl _ _ _ eq_refl eq_refl ltac:(cbn; lia)).
      destruct (go _ _ _ _) as ((ws' & ds') & s'). destruct IH as (R' & T' & g' & ds1 & E1 & E2 & E4 & E3). split; [assumption|].
      exists T', g', ds1. split; [assumption|]. split; [assumption|]. split; [assumption|].
      rewrite E3. unfold counted. cbn [map zsum s_bytes]. lia.
Qed.

Lemma first_ready a : alloc_ok a -> let '(w, d, s) := do_alloc sampler0 a in
  ready s /\ exists T g ds0, d = (T, g) :: ds0 /\ T = s_interval s /\ s_bytes s <= g /\ w + (g - s_bytes s) - drift ds0 = size_of a + 1.
Proof.
  intros Fa. rewrite (do_alloc_first a Fa). cbv zeta. pose proof Fa as (A1 & I1 & I2 & I3 & G1 & G2).
  pose proof (pick_range _ _ (proj1 I1) G1) as P1. pose proof (pick_range _ _ (proj1 I2) G2) as P2.
  destruct (Z.ltb_spec (pick (e_int1 (env_of a)) (e_geo1 (env_of a))) (size_of a + 1)) as [H|H].
  - split; [split; [reflexivity|split; [exact P2|cbn; lia]]|]. do 3 eexists. split; [reflexivity|]. split; [reflexivity|].
    split; [cbn; lia|]. unfold drift. cbn. lia.
  - split; [split; [reflexivity|split; [cbn; lia|cbn; lia]]|]. do 3 eexists. split; [reflexivity|]. split; [reflexivity|].
    split; [cbn; lia|]. unfold drift. cbn. lia.
Qed.

(** For every history of a thread: the newest draw is [(T, gap)], and
      sum of the weights + bytes counted since the newest draw
    equals
      all bytes counted + sum over the completed draws of (interval - (gap + 1)),
    where the bytes counted since the newest draw are [gap - countdown].  As the
    gap + 1 is drawn with mean equal to the interval, the right-hand sum has mean 0:
    the weights estimate the bytes allocated without bias, and this is exact. *)
Theorem sampler_accounts : forall a l ws ds s,
  Forall alloc_ok (a :: l) -> go sampler0 (a :: l) [] [] = (ws, ds, s) ->
  exists T gap done, ds = (T, gap) :: done /\ s_interval s = T /\ 0 <= s_bytes s <= gap /\
    zsum ws + (gap - s_bytes s) = counted (a :: l) + drift done.
Proof.
  intros a l ws ds s F E. inversion F as [|? ? Fa Fl]; subst. cbn [go] in E. pose proof (first_ready a Fa) as H.
  destruct (do_alloc sampler0 a) as ((w & d) & s1). destruct H as (R1 & T & g & ds0 & -> & ET & Hg & Ea).
  pose proof (go_ready l s1 [w] (((T, g) :: ds0) ++ []) R1 Fl T g (ds0 ++ []) eq_refl ET Hg) as K. rewrite E in K.
  destruct K as (R2 & T' & g' & ds1 & -> & -> & Hg' & Es). exists (s_interval s), g', ds1. split; [reflexivity|]. split; [reflexivity|].
  rewrite app_nil_r in Es. cbn [zsum] in Es. destruct R2 as (_ & R2 & _). split; [lia|].
  unfold counted in *. cbn [map zsum]. lia.
Qed.
Print Assumptions sampler_accounts.

Lemma go_ready_state a l ws ds s : Forall alloc_ok (a :: l) -> go sampler0 (a :: l) [] [] = (ws, ds, s) -> ready s.
Proof.
  intros F E. inversion F as [|? ? Fa Fl]; subst. cbn [go] in E. pose proof (first_ready a Fa) as H.
  destruct (do_alloc sampler0 a) as ((w & d) & s1). destruct H as (R1 & T & g & ds0 & -> & ET & Hg & Ea).
  pose proof (go_ready l s1 [w] (((T, g) :: ds0) ++ []) R1 Fl T g (ds0 ++ []) eq_refl ET Hg) as K. rewrite E in K. apply K.
Qed.

(** After any history the next allocation is sampled exactly when the bytes counted
    since the last draw, this allocation included, exceed the gap drawn; its weight is
    then the interval in force at that draw plus the overshoot, and it is positive.
    Both allocation paths agree, whether or not the CPU cache is empty. *)
Theorem sampler_decision : forall a l ws s T gap done b,
  Forall alloc_ok (a :: l) -> go sampler0 (a :: l) [] [] = (ws, (T, gap) :: done, s) ->
  alloc_ok b ->
  let since := gap - s_bytes s in
  let w := fst (fst (do_alloc s b)) in
  (w <> 0 <-> since + (size_of b + 1) > gap) /\
  (w <> 0 -> w = T + (since + (size_of b + 1) - (gap + 1)) /\ T <= w) /\
  (w = 0 -> forall s', s' = snd (do_alloc s b) -> gap - s_bytes s' = since + (size_of b + 1)).
Proof.
  intros a l ws s T gap done b F E Fb. cbv zeta. pose proof (go_ready_state _ _ _ _ _ F E) as R.
  destruct (sampler_accounts _ _ _ _ _ F E) as (T' & g' & d' & Ed & ET & Hb & _). inversion Ed; subst T' g' d'.
  pose proof R as (R1 & R2 & R3). pose proof Fb as (A1 & _). rewrite (do_alloc_ready s b R Fb).
  destruct (Z.ltb_spec (s_bytes s) (size_of b + 1)) as [H|H]; cbn [fst snd].
  - split; [split; lia|]. split; [lia|]. lia.
  - split; [split; lia|]. split; [lia|]. intros _ s' ->. cbn. lia.
Qed.
Print Assumptions sampler_decision.

(** WillRecordAllocation answers whether the next allocation of that size would be
    sampled; it never misses one, even before the first allocation of the thread. *)
Theorem sampler_prediction : forall b,
  alloc_ok b ->
  (forall a l ws ds s, Forall alloc_ok (a :: l) -> go sampler0 (a :: l) [] [] = (ws, ds, s) ->
     (will_record s (size_of b) = true <-> fst (fst (do_alloc s b)) <> 0)) /\
  (will_record sampler0 (size_of b) = false -> fst (fst (do_alloc sampler0 b)) = 0).
Proof.
  intros b Fb. pose proof Fb as (A1 & _). split.
  - intros a l ws ds s F E. pose proof (go_ready_state _ _ _ _ _ F E) as R. pose proof R as (R1 & R2 & R3).
    rewrite (do_alloc_ready s b R Fb). unfold will_record, ssize_max in *. rewrite !wrap64_small by lia.
    destruct (Z.ltb_spec (s_bytes s) (size_of b + 1)) as [H|H]; cbn [fst snd]; split; intros; try lia; congruence.
  - unfold will_record, sampler0. cbn [s_bytes]. rewrite !wrap64_small by lia. intros. lia.
Qed.
Print Assumptions sampler_prediction.

(** With the interval at 1 throughout, every allocation is sampled, and its weight is
    exactly the bytes it counts for. *)
Definition every (a : alloc) : Prop := alloc_ok a /\ e_int1 (env_of a) = 1 /\ e_int2 (env_of a) = 1.

Theorem sampler_interval_one : forall l ws ds s,
  Forall every l -> go sampler0 l [] [] = (ws, ds, s) -> rev ws = map (fun a => size_of a + 1) l.
Proof.
  assert (K : forall l s ws0 ds0 ws ds s', ready s -> s_interval s = 1 -> s_bytes s = 0 -> Forall every l ->
    go s l ws0 ds0 = (ws, ds, s') -> rev ws = rev ws0 ++ map (fun a => size_of a + 1) l).
  { induction l as [|a l IH]; intros s ws0 ds0 ws ds s' R H1 H0 F E; cbn [go] in E.
    - inversion E; subst. now rewrite app_nil_r.
    - inversion F as [|? ? (Fa & Fi & Fj) Fl]; subst. rewrite (do_alloc_ready s a R Fa) in E. pose proof Fa as (A1 & _).
      replace (s_bytes s <? size_of a + 1) with true in E by lia. rewrite Fj in E.
      apply IH in E; [|split; [reflexivity|split; [cbn; unfold ssize_max; lia|cbn; lia]]|reflexivity|reflexivity|exact Fl].
      rewrite E. cbn [rev map]. rewrite <- app_assoc. cbn [app]. do 2 f_equal. lia. }
  intros l ws ds s F E. destruct l as [|a l]; cbn [go] in E.
  - inversion E. reflexivity.
  - inversion F as [|? ? (Fa & Fi & Fj) Fl]; subst. rewrite (do_alloc_first a Fa) in E. pose proof Fa as (A1 & _). cbv zeta in E.
    rewrite Fi, Fj in E. change (pick 1 (e_geo1 (env_of a))) with 0 in E. change (pick 1 (e_geo2 (env_of a))) with 0 in E.
    replace (0 <? size_of a + 1) with true in E by lia.
    apply K in E; [|split; [reflexivity|split; [cbn; unfold ssize_max; lia|cbn; lia]]|reflexivity|reflexivity|exact Fl].
    rewrite E. cbn [rev app map]. f_equal. lia.
Qed.
Print Assumptions sampler_interval_one.

(** When sampling is off (interval <= 0) at the time of the decision nothing is
    sampled, in any state, for any size, on either path. *)
Theorem sampler_off : forall s a, e_int3 (env_of a) <= 0 -> fst (fst (do_alloc s a)) = 0.
Proof.
  assert (K : forall s k e, e_int3 e <= 0 -> fst (fst (record_slow s k e)) = 0).
  { intros s k e H. unfold record_slow. replace (e_int3 e <=? 0) with true by lia. destruct (s_init s); [reflexivity|].
    destruct (0 <=? _); reflexivity. }
  intros s [k miss e|k e] H; cbn [do_alloc env_of] in *.
  - unfold record_small. destruct (try_fast s k) as (ok & s1). destruct (negb ok || miss); [|reflexivity].
    unfold recorded_fast. destruct (s_bytes s1 <? 0); [apply K; assumption|reflexivity].
  - unfold record. destruct (try_fast s k) as (ok & s1). destruct ok; [reflexivity|apply K; assumption].
Qed.
Print Assumptions sampler_off.

(** Finding: size + 1 wraps for the largest size, so that request counts for nothing
    and is not sampled even when the interval is 1, in any state. *)
Theorem sampler_max_size_refuted : forall s e, - 2 ^ 63 <= s_bytes s < 2 ^ 63 ->
  fst (fst (record s (2 ^ 64 - 1) e)) = 0 /\ s_bytes (snd (record s (2 ^ 64 - 1) e)) = s_bytes s.
Proof.
  intros s e H. unfold record, try_fast. change (wrap64 (2 ^ 64 - 1 + 1)) with 0.
  assert (Hw : 0 <= wrap64 (s_bytes s)) by (unfold wrap64, two64; apply Z.mod_pos_bound; lia).
  replace (wrap64 (s_bytes s) <? 0) with false by lia. cbn. split; [reflexivity|]. rewrite Z.sub_0_r.
  unfold wrap64, two64, s64. change (2 ^ 63) with 9223372036854775808 in *. change (2 ^ 64) with 18446744073709551616 in *.
  rewrite Z.add_mod_idemp_l by lia. rewrite Z.mod_small; lia.
Qed.
Print Assumptions sampler_max_size_refuted.

(** Finding: if the first allocation of a thread is a (failing) request of 3 * 2^62
    bytes, the subtraction wraps and the thread then counts down from more than 2^62 bytes:
    no allocation of the thread is sampled until that many bytes have been requested,
    although the interval is 1. *)
Theorem sampler_huge_first_refuted : forall e, e_int1 e = 1 ->
  fst (fst (record sampler0 (3 * 2 ^ 62) e)) = 0 /\
  s_bytes (snd (record sampler0 (3 * 2 ^ 62) e)) = 2 ^ 62 - 1.
Proof. intros e H. unfold record. change (try_fast sampler0 (3 * 2 ^ 62)) with (false, Sampler 0 false (2 ^ 62 - 1)).
  unfold record_slow. cbn [s_init]. rewrite H. split; reflexivity. Qed.
Print Assumptions sampler_huge_first_refuted.

(** Sizes of 2^63 and more: the two paths' tests differ, the small path would miss
    the sample the large path takes (it is never used for such sizes). *)
Example ex_paths_differ :
  let e := SEnv 1 0 1 0 1 in let s := Sampler 1 true 0 in
  fst (fst (record_small s (2 ^ 63 + 5) true e)) = 0 /\ fst (fst (record s (2 ^ 63 + 5) e)) <> 0.
Proof. vm_compute. split; [reflexivity|discriminate]. Qed.

(** ** The generator *)

(** It stays within 48 bits, and never draws 0 for the logarithm: the 26 bits
    taken are below 2^26 and one is added to them. *)
Theorem sampler_random_range : forall r, 0 <= r ->
  0 <= next_random r < 2 ^ 48 /\ 1 <= random26 (next_random r) + 1 <= 2 ^ 26.
Proof.
  intros r H. unfold next_random. change (2 ^ 48 - 1) with (Z.ones 48). rewrite Z.land_ones by lia.
  set (x := wrap64 (wrap64 (25214903917 * r) + 11)). pose proof (Z.mod_pos_bound x (2 ^ 48) ltac:(lia)) as B. split; [exact B|].
  unfold random26. change (48 - 26) with 22. rewrite Z.shiftr_div_pow2 by lia.
  assert (0 <= x mod 2 ^ 48 / 2 ^ 22 < 2 ^ 26).
  { split; [apply Z.div_pos; lia|]. apply Z.div_lt_upper_bound; lia. }
  rewrite Z.mod_small by lia. lia.
Qed.
Print Assumptions sampler_random_range.

(** One step of the generator is a bijection of the 48-bit states: no seed is ever
    merged with another, so the sequence never shortens. *)
Theorem sampler_random_bijective : forall r1 r2, 0 <= r1 < 2 ^ 48 -> 0 <= r2 < 2 ^ 48 -> next_random r1 = next_random r2 -> r1 = r2.
Proof.
  assert (K : forall r, 0 <= r -> next_random r = (25214903917 * r + 11) mod 2 ^ 48).
  { intros r H. unfold next_random. change (2 ^ 48 - 1) with (Z.ones 48). rewrite Z.land_ones by lia. unfold wrap64, two64.
    rewrite Z.add_mod_idemp_l by lia. rewrite <- Zmod_div_mod; [reflexivity|lia|lia|]. exists (2 ^ 16). reflexivity. }
  intros r1 r2 H1 H2 E. rewrite !K in E by lia.
  assert (Hd : (25214903917 * (r1 - r2)) mod 2 ^ 48 = 0).
  { replace (25214903917 * (r1 - r2)) with ((25214903917 * r1 + 11) - (25214903917 * r2 + 11)) by lia.
    rewrite Zminus_mod, E, Z.sub_diag. reflexivity. }
  assert (Hi : (r1 - r2) mod 2 ^ 48 = 0).
  { replace (r1 - r2) with (246154705703781 * (25214903917 * (r1 - r2)) + (- 22050866921 * (r1 - r2)) * 2 ^ 48) by lia.
    rewrite Z.mod_add by lia. rewrite Z.mul_mod, Hd, Z.mul_0_r by lia. reflexivity. }
  apply Z.mod_divide in Hi; [|lia]. destruct Hi as (c & Hc). assert (c = 0) by lia. lia.
Qed.
Print Assumptions sampler_random_bijective.

(** ** A concrete history: two intervals, a small and a large path, a cache miss. *)
Definition ex_hist : list alloc :=
  [ASmall 15 false (SEnv 100 41 100 70 100); ALarge 30 (SEnv 100 0 200 300 100);
   ASmall 99 true (SEnv 200 0 200 10 200); ALarge 250 (SEnv 200 0 50 7 50); ASmall 7 false (SEnv 50 0 50 20 50)].
Example ex_hist_ok : Forall alloc_ok ex_hist.
Proof. repeat constructor; cbn; unfold ssize_max; lia. Qed.
Example ex_hist_run : go sampler0 ex_hist [] [] =
  ([51; 251; 0; 106; 0], [(50, 19); (50, 6); (200, 299); (100, 40)], Sampler 50 true 19).
Proof. reflexivity. Qed.
