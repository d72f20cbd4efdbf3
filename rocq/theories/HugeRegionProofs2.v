(** UnbackHugepages, and the choice made by Release. *)
From Verif Require Import Base Bitmap BitmapProofs RangeTrackerProofs RangeTrackerProofs2 RangeTrackerProps HugeRegion HugeRegionProofs.

Lemma run_end_spec K should : forall fuel j, j <= K -> (K - j <= Z.of_nat fuel) ->
  j <= run_end fuel K should j <= K /\ (forall k, j <= k < run_end fuel K should j -> should k = true) /\
  (run_end fuel K should j < K -> should (run_end fuel K should j) = false).
Proof.
  induction fuel as [|fuel IH]; intros j Hj Hf; cbn [run_end].
  { split; [lia|]. split; intros; lia. }
  destruct (Z.ltb_spec j K) as [Hlt|Hge]; cbn [andb]; [|split; [lia|]; split; intros; lia].
  destruct (should j) eqn:E; [|split; [lia|]; split; [intros; lia|auto]].
  destruct (IH (j + 1) ltac:(lia) ltac:(lia)) as (A & B & C). split; [lia|]. split; [|assumption].
  intros k Hk. destruct (Z.eq_dec k j) as [->|]; [assumption|apply B; lia].
Qed.

Lemma used_sum_const used i j v : i <= j -> (forall k, i <= k < j -> used k = v) -> used_sum used i j = (j - i) * v.
Proof.
  intros Hij H. unfold used_sum. replace (j - i) with (Z.of_nat (Z.to_nat (j - i))) at 2 by lia.
  assert (H' : forall k, i <= k < i + Z.of_nat (Z.to_nat (j - i)) -> used k = v) by (intros; apply H; lia).
  clear H Hij. revert H'. generalize (Z.to_nat (j - i)) as n. intros n. revert i. induction n as [|n IH]; intros i H; [reflexivity|].
  cbn [zseq map]. rewrite zsum_cons, IH by (intros; apply H; lia). rewrite (H i) by lia. lia.
Qed.

(** [calls] are the calls to the OS, [os] its answers: the hugepages that they unback. *)
Definition unbacked_by (os : Z -> Z -> bool) (calls : list (Z * Z)) (h : Z) : bool :=
  existsb (fun c => os (fst c) (snd c) && in_run c h) calls.
Definition unbacked_total (os : Z -> Z -> bool) (calls : list (Z * Z)) : Z :=
  zsum (map (fun c => if os (fst c) (snd c) then snd c else 0) calls).

Lemma unback_loop_spec P K os should : 0 < P -> forall fuel r i live, 0 <= i -> K - i <= Z.of_nat fuel ->
  rt_reach (K * P) (rg_t r) live -> cnt_ok P K r ->
  (forall k, i <= k -> should k = true -> k < K /\ rg_backed r k = true /\ rg_used r k = 0 /\ forall x, In x live -> disj (k * P, P) x) ->
  exists r' released calls, unback_loop fuel P K os r should i = Some (r', released, calls) /\
    rt_reach (K * P) (rg_t r') live /\ rg_loc r' = rg_loc r /\ cnt_ok P K r' /\
    (forall k, 0 <= k < K -> rg_used r' k = rg_used r k) /\
    (forall k, 0 <= k < K -> rg_backed r' k = rg_backed r k && negb (unbacked_by os calls (rg_loc r + k))) /\
    released = unbacked_total os calls /\ rg_total_unbacked r' = rg_total_unbacked r + released /\
    (forall c, In c calls -> 0 < snd c /\ rg_loc r + i <= fst c /\ fst c + snd c <= rg_loc r + K /\
       forall h, in_rng c h -> should (h - rg_loc r) = true) /\
    (forall k, i <= k -> should k = true -> exists c, In c calls /\ in_rng c (rg_loc r + k)) /\
    ForallOrdPairs (fun a b => fst a + snd a < fst b) calls /\
    zsum (map snd calls) = zcount should i (Z.to_nat (K - i)) /\
    rg_free_backed r' = rg_free_backed r - released.
Proof.
  intros HP.
  assert (Done : forall r i live, K <= i -> rt_reach (K * P) (rg_t r) live -> cnt_ok P K r ->
    (forall k, i <= k -> should k = true -> k < K /\ rg_backed r k = true /\ rg_used r k = 0 /\ forall x, In x live -> disj (k * P, P) x) ->
    exists r' released calls, Some (r, 0, []) = Some (r', released, calls) /\
    rt_reach (K * P) (rg_t r') live /\ rg_loc r' = rg_loc r /\ cnt_ok P K r' /\
    (forall k, 0 <= k < K -> rg_used r' k = rg_used r k) /\
    (forall k, 0 <= k < K -> rg_backed r' k = rg_backed r k && negb (unbacked_by os calls (rg_loc r + k))) /\
    released = unbacked_total os calls /\ rg_total_unbacked r' = rg_total_unbacked r + released /\
    (forall c, In c calls -> 0 < snd c /\ rg_loc r + i <= fst c /\ fst c + snd c <= rg_loc r + K /\
       forall h, in_rng c h -> should (h - rg_loc r) = true) /\
    (forall k, i <= k -> should k = true -> exists c, In c calls /\ in_rng c (rg_loc r + k)) /\
    ForallOrdPairs (fun a b => fst a + snd a < fst b) calls /\
    zsum (map snd calls) = zcount should i (Z.to_nat (K - i)) /\
    rg_free_backed r' = rg_free_backed r - released).
  { intros r i live Hi R C Hs. exists r, 0, []. repeat match goal with |- _ /\ _ => split end; auto.
    - intros. cbn. rewrite andb_true_r. reflexivity.
    - lia.
    - intros c [].
    - intros k Hk H. destruct (Hs k Hk H). lia.
    - constructor.
    - replace (Z.to_nat (K - i)) with 0%nat by lia. reflexivity.
    - lia. }
  induction fuel as [|fuel IH]; intros r i live Hi Hf R C Hs; cbn [unback_loop].
  { replace (i <? K) with false by lia. apply Done; (assumption || lia). }
  destruct (Z.ltb_spec i K) as [Hlt|Hge]; [|apply Done; (assumption || lia)].
  destruct (should i) eqn:Esi.
  2:{ destruct (IH r (i + 1) live ltac:(lia) ltac:(lia) R C) as (r' & rel & calls & E & G1 & G2 & G3 & G4 & G5 & G6 & G7 & G8 & G9 & G10 & G11 & G12).
    { intros k Hk. apply Hs. lia. }
    exists r', rel, calls. split; [exact E|]. repeat (split; [assumption|]). split; [|split; [|split; [assumption|split; [|assumption]]]].
    - intros c Hc. destruct (G8 c Hc) as (? & ? & ? & ?). split; [assumption|]. split; [lia|]. split; assumption.
    - intros k Hk H. apply G9; [|assumption]. destruct (Z.eq_dec k i) as [->|]; [congruence|lia].
    - rewrite G11. replace (Z.to_nat (K - i)) with (S (Z.to_nat (K - (i + 1)))) by lia. cbn [zcount]. rewrite Esi. lia. }
  destruct (run_end_spec K should (Z.to_nat (K - i)) i ltac:(lia) ltac:(lia)) as (J1 & J2 & J3).
  assert (Hjs : i < run_end (Z.to_nat (K - i)) K should i).
  { destruct (Z.eq_dec i (run_end (Z.to_nat (K - i)) K should i)) as [Ee|]; [|lia]. rewrite <- Ee in J3. specialize (J3 Hlt). congruence. }
  set (j := run_end (Z.to_nat (K - i)) K should i) in *. clearbody j.
  set (hl := j - i). cbv zeta.
  assert (HKP : 0 <= K * P) by (apply Z.mul_nonneg_nonneg; lia).
  assert (Hhl : 0 < hl * P) by (apply Z.mul_pos_pos; lia).
  assert (Hfree : run_free (K * P) live (i * P) (hl * P)).
  { pose proof (rt_reach_ok _ _ _ HKP R) as Hl. assert (Eij : i * P + hl * P = j * P) by (subst hl; ring).
    split; [apply Z.mul_nonneg_nonneg; lia|]. split; [rewrite Eij; apply Z.mul_le_mono_nonneg_r; lia|]. intros x Hx.
    destruct (lo_in _ _ _ Hl x Hx) as (X1 & X2 & X3). unfold disj. cbn [fst snd].
    destruct (Z.le_gt_cases (i * P + hl * P) (fst x)); [left; assumption|].
    destruct (Z.le_gt_cases (fst x + snd x) (i * P)); [right; assumption|]. exfalso.
    set (q := Z.max (i * P) (fst x)). assert (Hij : i * P < j * P) by (apply Z.mul_lt_mono_pos_r; lia).
    assert (Hq : i * P <= q < j * P) by (subst q; lia).
    assert (Hk : q / P * P <= q < q / P * P + P).
    { pose proof (Z.div_mod q P ltac:(lia)). pose proof (Z.mod_pos_bound q P HP). lia. }
    set (k := q / P) in *. assert (Hki : i <= k < j) by (clear - HP Hk Hq; nia).
    destruct (Hs k ltac:(lia) (J2 k Hki)) as (_ & _ & _ & D). specialize (D x Hx). unfold disj in D. cbn [fst snd] in D. subst q. lia. }
  destruct (tracker_mark_succeeds (K * P) (rg_t r) live (i * P) (hl * P) HKP R Hhl Hfree) as (t1 & Em & R1).
  rewrite Em. cbn [obind].
  assert (Hz : used_sum (rg_used r) i j = 0).
  { rewrite (used_sum_const _ i j 0); [lia|lia|]. intros k Hk. apply (Hs k); [lia|apply J2; lia]. }
  rewrite Hz. cbn [rg_with_used rg_with_t rg_used rg_free_backed rg_backed rg_nbacked rg_total_unbacked rg_loc rg_t].
  pose proof (zcount_split (fun k => rg_backed r k && (rg_used r k =? 0)) 0 K i hl ltac:(lia) ltac:(lia) ltac:(lia)) as HZ.
  rewrite (zcount_all _ (Z.to_nat hl) i) in HZ.
  2:{ intros k Hk. destruct (Hs k ltac:(lia) (J2 k ltac:(lia))) as (_ & Q1 & Q2 & _). rewrite Q1, Q2. reflexivity. }
  assert (Hfb : hl <= rg_free_backed r).
  { rewrite (co_free _ _ _ C), HZ.
    pose proof (zcount_bound (fun k => rg_backed r k && (rg_used r k =? 0)) (Z.to_nat (i - 0)) 0).
    pose proof (zcount_bound (fun k => rg_backed r k && (rg_used r k =? 0)) (Z.to_nat (0 + K - (i + hl))) (i + hl)). lia. }
  replace ((0 =? 0) && (hl <=? rg_free_backed r)) with true by lia.
  set (ok := os (rg_loc r + i) hl). 
  match goal with |- context [if ok then rg_with_backed ?X ?b ?nb ?tu else rg_with_free_backed ?Y ?c] =>
    set (r2 := if ok then rg_with_backed X b nb tu else rg_with_free_backed Y c) end.
  assert (V : rg_t r2 = t1 /\ rg_loc r2 = rg_loc r /\ rg_used r2 = used_fill (rg_used r) i j P /\
     (forall k, rg_backed r2 k = rg_backed r k && negb (ok && (i <=? k) && (k <? j))) /\
     rg_nbacked r2 = rg_nbacked r - (if ok then hl else 0) /\ rg_total_unbacked r2 = rg_total_unbacked r + (if ok then hl else 0) /\
     rg_free_backed r2 = rg_free_backed r - (if ok then hl else 0)).
  { subst r2. destruct ok; cbn [rg_with_backed rg_with_free_backed rg_with_used rg_with_t rg_t rg_loc rg_used rg_backed rg_nbacked rg_total_unbacked rg_free_backed andb negb];
      repeat match goal with |- _ /\ _ => split end; try reflexivity; try lia; intros k;
      destruct ((i <=? k) && (k <? j)); rewrite ?andb_false_r, ?andb_true_r; reflexivity. }
  destruct V as (V1 & V2 & V3 & V4 & V5 & V6 & V7). clearbody r2. rewrite V3.
  rewrite (used_sum_const _ i j P) by (try lia; intros k Hk; unfold used_fill; replace ((i <=? k) && (k <? j)) with true by lia; reflexivity).
  fold hl. rewrite Z.eqb_refl. cbn [rg_with_used rg_t]. rewrite V1.
  destruct (tracker_put_succeeds (K * P) t1 [] (i * P) (hl * P) live HKP R1) as (t2 & Eu & R2). rewrite Eu. cbn [obind app] in *.
  set (r3 := rg_with_t (rg_with_used r2 (used_fill (used_fill (rg_used r) i j P) i j 0)) t2).
  assert (Hused : forall k, 0 <= k < K -> rg_used r3 k = rg_used r k).
  { intros k Hk. cbn [r3 rg_with_t rg_with_used rg_used]. unfold used_fill. destruct ((i <=? k) && (k <? j)) eqn:Er; [|reflexivity].
    symmetry. apply (Hs k); [lia|apply J2; lia]. }
  assert (Hback : forall k, rg_backed r3 k = rg_backed r k && negb (ok && (i <=? k) && (k <? j))) by exact V4.
  assert (C3 : cnt_ok P K r3).
  { constructor.
    - intros k Hk Hne. rewrite Hused in Hne by assumption. rewrite Hback, (co_backed _ _ _ C k Hk Hne). cbn [andb].
      destruct (ok && (i <=? k) && (k <? j)) eqn:Er; [|reflexivity]. exfalso. apply Hne. apply (Hs k); [lia|apply J2; lia].
    - intros k Hk. rewrite Hused by assumption. apply (co_used _ _ _ C). assumption.
    - cbn [r3 rg_with_t rg_with_used rg_nbacked rg_backed]. rewrite V5, (co_nbacked _ _ _ C).
      pose proof (zcount_change (rg_backed r2) (rg_backed r) 0 K i hl ltac:(lia) ltac:(lia) ltac:(lia)) as HC.
      rewrite (zcount_all (rg_backed r) (Z.to_nat hl) i) in HC by (intros k Hk; apply (Hs k); [lia|apply J2; lia]).
      destruct ok eqn:Eok; cbn [andb] in V4.
      + rewrite (zcount_none (rg_backed r2) (Z.to_nat hl) i) in HC by (intros k Hk; rewrite V4; replace ((i <=? k) && (k <? j)) with true by lia; apply andb_false_r).
        lapply HC; [lia|]. intros k Hk. rewrite V4. replace ((i <=? k) && (k <? j)) with false by lia. apply andb_true_r.
      + rewrite (zcount_ext (rg_backed r2) (rg_backed r)); [lia|]. intros k Hk. rewrite V4. apply andb_true_r.
    - rewrite (zcount_ext _ (fun k => rg_backed r3 k && (rg_used r k =? 0))) by (intros k Hk; rewrite Hused by lia; reflexivity).
      cbn [r3 rg_with_t rg_with_used rg_free_backed rg_backed]. rewrite V7, (co_free _ _ _ C).
      destruct ok eqn:Eok; cbn [andb] in V4.
      + pose proof (zcount_change (fun k => rg_backed r2 k && (rg_used r k =? 0)) (fun k => rg_backed r k && (rg_used r k =? 0)) 0 K i hl ltac:(lia) ltac:(lia) ltac:(lia)) as HC.
        rewrite (zcount_all (fun k => rg_backed r k && (rg_used r k =? 0)) (Z.to_nat hl) i) in HC.
        2:{ intros k Hk. destruct (Hs k ltac:(lia) (J2 k ltac:(lia))) as (_ & Q1 & Q2 & _). rewrite Q1, Q2. reflexivity. }
        rewrite (zcount_none (fun k => rg_backed r2 k && (rg_used r k =? 0)) (Z.to_nat hl) i) in HC.
        2:{ intros k Hk. rewrite V4; replace ((i <=? k) && (k <? j)) with true by lia. rewrite andb_false_r. reflexivity. }
        lapply HC; [lia|]. intros k Hk. rewrite V4. replace ((i <=? k) && (k <? j)) with false by lia. rewrite andb_true_r. reflexivity.
      + rewrite (zcount_ext (fun k => rg_backed r2 k && (rg_used r k =? 0)) (fun k => rg_backed r k && (rg_used r k =? 0))); [lia|].
        intros k Hk. rewrite V4, andb_true_r. reflexivity. }
  destruct (IH r3 j live ltac:(lia) ltac:(lia) R2 C3) as (r' & rel & calls & E & G1 & G2 & G3 & G4 & G5 & G6 & G7 & G8 & G9 & G10 & G11 & G12).
  { intros k Hk H. destruct (Hs k ltac:(lia) H) as (Q1 & Q2 & Q3 & Q4). split; [assumption|]. rewrite Hback, Hused by lia.
    replace ((ok && (i <=? k)) && (k <? j)) with false by lia. rewrite Q2. auto. }
  rewrite E. cbn [obind].
  assert (L3 : rg_loc r3 = rg_loc r) by exact V2. rewrite L3 in *.
  exists r', ((if ok then hl else 0) + rel), ((rg_loc r + i, hl) :: calls).
  split; [reflexivity|]. split; [assumption|]. split; [assumption|]. split; [assumption|]. split; [|split; [|split; [|split; [|split; [|split; [|split; [|split]]]]]]].
  - intros k Hk. rewrite G4, Hused by assumption. reflexivity.
  - intros k Hk. rewrite G5, Hback by assumption. unfold unbacked_by. cbn [existsb]. fold ok. unfold in_run at 2. cbn [fst snd].
    rewrite negb_orb, <- andb_assoc. f_equal. f_equal. f_equal. fold ok. destruct ok; cbn [andb]; [|reflexivity]. lia.
  - unfold unbacked_total. cbn [map fst snd]. fold ok. rewrite zsum_cons. rewrite G6. reflexivity.
  - rewrite G7. cbn [r3 rg_with_t rg_with_used rg_total_unbacked]. rewrite V6. lia.
  - intros c [<-|Hc]; cbn [fst snd].
    + split; [lia|]. split; [lia|]. split; [lia|]. intros h Hh. unfold in_rng in Hh. cbn [fst snd] in Hh. apply J2. lia.
    + destruct (G8 c Hc) as (? & ? & ? & ?). split; [assumption|]. split; [lia|]. split; assumption.
  - intros k Hk H. destruct (Z.lt_ge_cases k j) as [Hkj|Hkj].
    + exists (rg_loc r + i, hl). split; [left; reflexivity|]. unfold in_rng. cbn [fst snd]. lia.
    + destruct (G9 k Hkj H) as (c & Hc & Hin). exists c. split; [right|]; assumption.
  - apply FOP_cons; [|assumption]. apply Forall_forall. intros c Hc. destruct (G8 c Hc) as (Q1 & Q2 & Q3 & Q4). cbn [fst snd].
    assert (fst c - rg_loc r <> j); [|lia]. intros Ej. assert (Hj : j < K) by lia. specialize (J3 Hj).
    specialize (Q4 (fst c)). rewrite Ej in Q4. rewrite Q4 in J3; [discriminate|]. unfold in_rng. lia.
  - cbn [map snd]. rewrite zsum_cons, G11. rewrite (zcount_split should i (K - i) i hl ltac:(lia) ltac:(lia) ltac:(lia)).
    rewrite (zcount_all should (Z.to_nat hl) i) by (intros k Hk; apply J2; lia).
    replace (Z.to_nat (i - i)) with 0%nat by lia. cbn [zcount]. replace (i + hl) with j by lia.
    replace (i + (K - i) - j) with (K - j) by lia. lia.
  - rewrite G12. cbn [r3 rg_with_t rg_with_used rg_free_backed]. rewrite V7. lia.
Qed.

(** ** Release *)

Lemma release_scan_spec P r to_release : 0 < P -> forall l target should, NoDup l ->
  (forall i, In i l -> should i = false) -> 
  exists n, (forall i, release_scan P r l to_release target should i = should i || existsb (Z.eqb i) (firstn n l) && rg_backed r i && (rg_used r i =? 0)) /\
    let hits m := zsum (map (fun i => b2z (rg_backed r i && (rg_used r i =? 0))) (firstn m l)) in
    (n <= length l)%nat /\ (forall m, (0 < m < n)%nat -> (target + hits m) * P < to_release) /\
    (to_release <= (target + hits n) * P \/ n = length l).
Proof.
  intros HP. induction l as [|i l IH]; intros target should Hnd Hs; cbn [release_scan].
  { exists 0%nat. cbn. split; [intros; rewrite orb_false_r; reflexivity|]. split; [lia|]. split; [intros; lia|right; reflexivity]. }
  inversion Hnd as [|? ? Hni Hnd']; subst.
  set (hit := rg_backed r i && (rg_used r i =? 0)).
  set (t1 := if hit then target + 1 else target). set (s1 := if hit then upd should i true else should).
  assert (E1 : t1 = target + b2z hit) by (subst t1; destruct hit; cbn; lia).
  assert (Es1 : forall k, s1 k = should k || (k =? i) && hit).
  { intros k. subst s1. destruct hit; [|rewrite andb_false_r, orb_false_r; reflexivity]. unfold upd. destruct (k =? i); [rewrite orb_true_r|rewrite orb_false_r]; reflexivity. }
  destruct (Z.leb_spec to_release (t1 * P)) as [Hle|Hgt].
  - exists 1%nat. split.
    + intros k. rewrite Es1. cbn [firstn existsb]. rewrite orb_false_r. f_equal. destruct (Z.eqb_spec k i) as [->|]; [reflexivity|reflexivity].
    + cbn [firstn map length]. rewrite zsum_cons. cbn [zsum]. split; [lia|]. split; [intros; lia|]. left. fold hit. replace (target + (b2z hit + 0)) with t1 by lia. assumption.
  - destruct (IH t1 s1 Hnd') as (n & A & B & C & D).
    { intros k Hk. rewrite Es1. rewrite Hs by (right; assumption). destruct (Z.eqb_spec k i) as [->|]; [contradiction|reflexivity]. }
    exists (S n). split.
    + intros k. rewrite A, Es1. cbn [firstn existsb]. destruct (Z.eqb_spec k i) as [->|]; cbn [andb orb].
      * unfold hit. destruct (should i), (rg_backed r i && (rg_used r i =? 0)) eqn:Eh; cbn [orb]; try reflexivity.
        rewrite <- andb_assoc, Eh, andb_false_r. reflexivity.
      * rewrite orb_false_r. reflexivity.
    + cbn [length]. cbv zeta in *. split; [lia|]. split.
      * intros [|m] Hm; [lia|]. cbn [firstn map]. rewrite zsum_cons. fold hit. destruct m as [|m].
        -- cbn [firstn map zsum]. replace (target + (b2z hit + 0)) with t1 by lia. assumption.
        -- specialize (C (S m) ltac:(lia)). replace (target + (b2z hit + zsum (map (fun i0 => b2z (rg_backed r i0 && (rg_used r i0 =? 0))) (firstn (S m) l))))
             with (t1 + zsum (map (fun i0 => b2z (rg_backed r i0 && (rg_used r i0 =? 0))) (firstn (S m) l))) by lia. assumption.
      * cbn [firstn map]. rewrite zsum_cons. fold hit. destruct D as [D|D]; [left|right; lia].
        replace (target + (b2z hit + zsum (map (fun i0 => b2z (rg_backed r i0 && (rg_used r i0 =? 0))) (firstn n l))))
             with (t1 + zsum (map (fun i0 => b2z (rg_backed r i0 && (rg_used r i0 =? 0))) (firstn n l))) by lia. assumption.
Qed.
