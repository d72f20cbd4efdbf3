(** The counters of a region under Inc, Dec and UnbackHugepages. *)
From Verif Require Import Base Bitmap BitmapProofs RangeTrackerProofs RangeTrackerProofs2 RangeTrackerProps HugeRegion.

(** Pages of the run (p, n) in hugepage [h]. *)
Definition ov (P p n h : Z) : Z := Z.max 0 (Z.min (p + n) ((h + 1) * P) - Z.max p (h * P)).

Lemma hp_order P h k : 0 < P -> h < k -> (h + 1) * P <= k * P.
Proof. intros. nia. Qed.

Lemma ov_split P p n h : 0 < P -> 0 < n ->
  let hp := p / P in let here := Z.min n ((hp + 1) * P - p) in
  0 < here <= n /\ here <= P /\
  ov P p n h = (if h =? hp then here else 0) + ov P (p + here) (n - here) h /\
  ov P (p + here) (n - here) hp = 0 /\ (0 < n - here -> p + here = (hp + 1) * P).
Proof.
  intros HP Hn hp here.
  assert (H : hp * P <= p < (hp + 1) * P).
  { subst hp. pose proof (Z.div_mod p P ltac:(lia)). pose proof (Z.mod_pos_bound p P HP). lia. }
  clearbody hp. assert (E : (hp + 1) * P = hp * P + P) by ring. assert (E' : (h + 1) * P = h * P + P) by ring.
  unfold ov. subst here. rewrite E, E' in *.
  assert (T : h = hp \/ h < hp /\ h * P + P <= hp * P \/ hp < h /\ hp * P + P <= h * P).
  { destruct (Z.lt_trichotomy h hp) as [L|[L|L]]; [right; left|left; assumption|right; right];
      pose proof (hp_order P _ _ HP L); lia. }
  generalize dependent (hp * P). generalize dependent (h * P). intros B E' A H E T.
  destruct (Z.eqb_spec h hp) as [->|]; [destruct T as [_|[(? & ?)|(? & ?)]]|destruct T as [?|[(? & ?)|(? & ?)]]];
    try lia.
Qed.

Lemma ov_nonneg P p n h : 0 <= ov P p n h.
Proof. unfold ov. lia. Qed.

Lemma ov_zero P p h : 0 < P -> ov P p 0 h = 0.
Proof. intros. unfold ov. lia. Qed.

Lemma ov_touch P p n h : 0 < P -> 0 < ov P p n h <-> exists j, p <= j < p + n /\ j / P = h.
Proof.
  intros HP. unfold ov. split.
  - intros H. exists (Z.max p (h * P)). split; [lia|].
    symmetry. apply (Z.div_unique _ P h (Z.max p (h * P) - P * h)); nia.
  - intros (j & Hj & <-). pose proof (Z.div_mod j P ltac:(lia)). pose proof (Z.mod_pos_bound j P HP).
    replace ((j / P + 1) * P) with (P * (j / P) + P) by ring. replace (j / P * P) with (P * (j / P)) by ring. lia.
Qed.

(** ** Counting *)

Definition b2z (b : bool) : Z := if b then 1 else 0.

Lemma zcount_one (A B : Z -> bool) a n : 0 <= a < Z.of_nat n -> (forall j, 0 <= j < Z.of_nat n -> j <> a -> B j = A j) ->
  zcount B 0 n = zcount A 0 n - b2z (A a) + b2z (B a).
Proof.
  intros Ha H.
  pose proof (zcount_split A 0 (Z.of_nat n) a 1 ltac:(lia) ltac:(lia) ltac:(lia)) as HA.
  pose proof (zcount_split B 0 (Z.of_nat n) a 1 ltac:(lia) ltac:(lia) ltac:(lia)) as HB.
  rewrite Nat2Z.id in HA, HB. rewrite HA, HB. change (Z.to_nat 1) with 1%nat. cbn [zcount].
  rewrite (zcount_ext B A (Z.to_nat (a - 0))) by (intros j Hj; apply H; lia).
  rewrite (zcount_ext B A (Z.to_nat (0 + Z.of_nat n - (a + 1)))) by (intros j Hj; apply H; lia).
  unfold b2z. lia.
Qed.

Lemma zcount_or A B n : forall i, (forall j, i <= j < i + Z.of_nat n -> A j = true -> B j = false) ->
  zcount (fun j => A j || B j) i n = zcount A i n + zcount B i n.
Proof.
  induction n as [|n IH]; intros i H; cbn [zcount]; [reflexivity|].
  rewrite IH by (intros; apply H; [lia|assumption]). specialize (H i ltac:(lia)).
  destruct (A i), (B i); cbn [orb]; try lia.
Qed.

Definition in_run (x : Z * Z) (j : Z) : bool := (fst x <=? j) && (j <? fst x + snd x).
Definition covered (live : list (Z * Z)) (j : Z) : bool := existsb (fun x => in_run x j) live.

Lemma zcount_run a b n i : zcount (in_run (a, b)) i n = Z.max 0 (Z.min (a + b) (i + Z.of_nat n) - Z.max a i).
Proof.
  revert i. induction n as [|n IH]; intros i; cbn [zcount]; [lia|]. rewrite IH. unfold in_run. cbn [fst snd].
  destruct (Z.leb_spec a i); destruct (Z.ltb_spec i (a + b)); cbn [andb]; lia.
Qed.

Lemma zcount_run_ov P p n h : 0 < P -> zcount (in_run (p, n)) (h * P) (Z.to_nat P) = ov P p n h.
Proof. intros. rewrite zcount_run. unfold ov. replace ((h + 1) * P) with (h * P + P) by ring. lia. Qed.

Lemma covered_spec live j : covered live j = true <-> exists x, In x live /\ in_rng x j.
Proof.
  unfold covered. rewrite existsb_exists. split; intros (x & Hx & H); exists x; (split; [assumption|]); unfold in_run, in_rng in *; lia.
Qed.

Lemma covered_mid l1 x l2 j : covered (l1 ++ x :: l2) j = in_run x j || covered (l1 ++ l2) j.
Proof.
  unfold covered. rewrite !existsb_app. cbn [existsb]. destruct (existsb _ l1), (in_run x j); reflexivity.
Qed.

(** ** The counters *)

Record cnt_ok (P K : Z) (r : region) : Prop := {
  co_backed : forall i, 0 <= i < K -> rg_used r i <> 0 -> rg_backed r i = true;
  co_used : forall i, 0 <= i < K -> 0 <= rg_used r i <= P;
  co_nbacked : rg_nbacked r = zcount (rg_backed r) 0 (Z.to_nat K);
  co_free : rg_free_backed r = zcount (fun i => rg_backed r i && (rg_used r i =? 0)) 0 (Z.to_nat K) }.

Lemma inc_loop_spec P K : 0 < P -> forall fuel r p n should, cnt_ok P K r -> 0 <= n <= Z.of_nat fuel ->
  (0 < n -> rg_loc r * P <= p /\ p + n <= (rg_loc r + K) * P) ->
  (forall i, 0 <= i < K -> rg_used r i + ov P p n (rg_loc r + i) <= P) ->
  exists r' should', inc_loop fuel P K r p n should = Some (r', should') /\
    rg_t r' = rg_t r /\ rg_loc r' = rg_loc r /\ rg_total_unbacked r' = rg_total_unbacked r /\ cnt_ok P K r' /\
    (forall i, 0 <= i < K -> rg_used r' i = rg_used r i + ov P p n (rg_loc r + i)) /\
    (forall i, 0 <= i < K -> rg_backed r' i = rg_backed r i || (0 <? ov P p n (rg_loc r + i))) /\
    (should' = true <-> should = true \/ exists i, 0 <= i < K /\ 0 < ov P p n (rg_loc r + i) /\ rg_backed r i = false).
Proof.
  intros HP. induction fuel as [|fuel IH]; intros r p n should C Hn Hin Hov.
  { assert (n = 0) by lia. subst n. exists r, should. cbn [inc_loop].
    replace (0 <? 0) with false by reflexivity. setoid_rewrite ov_zero; [|assumption..].
    repeat match goal with |- _ /\ _ => split end; auto.
    - intros. lia.
    - intros. rewrite orb_false_r. reflexivity.
    - split; [tauto|]. intros [H|(i & _ & H & _)]; [assumption|lia]. }
  cbn [inc_loop]. destruct (Z.ltb_spec 0 n) as [Hpos|Hz].
  2:{ assert (n = 0) by lia. subst n. exists r, should. setoid_rewrite ov_zero; [|assumption..].
    repeat match goal with |- _ /\ _ => split end; auto.
    - intros. lia.
    - intros. rewrite orb_false_r. reflexivity.
    - split; [tauto|]. intros [H|(i & _ & H & _)]; [assumption|lia]. }
  destruct (Hin Hpos) as (Hlo & Hhi). clear Hin.
  pose proof (fun h => ov_split P p n h HP Hpos) as Hsp. cbv zeta in Hsp.
  assert (Hpp : p / P * P <= p < (p / P + 1) * P).
  { pose proof (Z.div_mod p P ltac:(lia)). pose proof (Z.mod_pos_bound p P HP). lia. }
  set (hp := p / P) in *. set (here := Z.min n ((hp + 1) * P - p)) in *.
  destruct (Hsp 0) as (Hh1 & Hh2 & _ & Hself & Hnext).
  assert (Hsp' : forall h, ov P p n h = (if h =? hp then here else 0) + ov P (p + here) (n - here) h) by (intros h; apply (Hsp h)).
  clear Hsp. clearbody here.
  assert (Hi : 0 <= hp - rg_loc r < K) by (clear - HP Hpp Hlo Hhi Hpos; nia).
  set (i0 := hp - rg_loc r) in *. replace ((0 <=? i0) && (i0 <? K)) with true by lia.
  assert (Ehp : rg_loc r + i0 = hp) by lia.
  assert (Hkey : forall i, rg_loc r + i =? hp = (i =? i0)) by (intros; lia).
  assert (Hoi : forall i, ov P p n (rg_loc r + i) = (if i =? i0 then here else 0) + ov P (p + here) (n - here) (rg_loc r + i)).
  { intros i. rewrite Hsp', Hkey. reflexivity. }
  assert (Hself' : ov P (p + here) (n - here) (rg_loc r + i0) = 0) by (rewrite Ehp; assumption).
  clearbody i0. clear Hsp' Hkey.
  (* the first step *)
  assert (Step : exists r1 should1,
    (if rg_used r i0 =? 0 then
       if rg_backed r i0 then
         if 0 <? rg_free_backed r then Some (rg_with_free_backed r (rg_free_backed r - 1), should) else None
       else Some (rg_with_backed r (upd (rg_backed r) i0 true) (rg_nbacked r + 1) (rg_total_unbacked r), true)
     else Some (r, should)) = Some (r1, should1) /\
    rg_t r1 = rg_t r /\ rg_loc r1 = rg_loc r /\ rg_total_unbacked r1 = rg_total_unbacked r /\ rg_used r1 = rg_used r /\
    (forall i, 0 <= i < K -> rg_backed r1 i = rg_backed r i || (i =? i0)) /\
    rg_nbacked r1 = zcount (rg_backed r1) 0 (Z.to_nat K) /\
    rg_free_backed r1 = zcount (fun i => rg_backed r i && (rg_used r i =? 0) && negb (i =? i0)) 0 (Z.to_nat K) /\
    (should1 = true <-> should = true \/ rg_backed r i0 = false)).
  { destruct C as [C1 C2 C3 C4].
    assert (HF : zcount (fun i => rg_backed r i && (rg_used r i =? 0) && negb (i =? i0)) 0 (Z.to_nat K)
       = rg_free_backed r - b2z (rg_backed r i0 && (rg_used r i0 =? 0))).
    { rewrite C4. rewrite (zcount_one (fun i => rg_backed r i && (rg_used r i =? 0)) _ i0); [|lia|].
      - rewrite Z.eqb_refl. cbn [negb]. rewrite andb_false_r. cbn [b2z]. lia.
      - intros j _ Hj. replace (j =? i0) with false by lia. cbn [negb]. apply andb_true_r. }
    rewrite HF. destruct (Z.eqb_spec (rg_used r i0) 0) as [E0|E0].
    - destruct (rg_backed r i0) eqn:Eb.
      + assert (0 < rg_free_backed r).
        { rewrite C4. destruct (Z.lt_ge_cases 0 (zcount (fun i => rg_backed r i && (rg_used r i =? 0)) 0 (Z.to_nat K))) as [|G]; [assumption|].
          pose proof (zcount_bound (fun i => rg_backed r i && (rg_used r i =? 0)) (Z.to_nat K) 0).
          pose proof (zcount_zero_inv (fun i => rg_backed r i && (rg_used r i =? 0)) (Z.to_nat K) 0 ltac:(lia) i0 ltac:(lia)) as Q.
          cbv beta in Q. rewrite Eb, E0 in Q. discriminate. }
        replace (0 <? rg_free_backed r) with true by lia.
        eexists _, _. split; [reflexivity|]. cbn. repeat match goal with |- _ /\ _ => split end; auto.
        * intros i Hi'. destruct (Z.eqb_spec i i0) as [->|]; [rewrite Eb; reflexivity|rewrite orb_false_r; reflexivity].
        * split; [tauto|]. intros [H0|H0]; [assumption|discriminate].
      + eexists _, _. split; [reflexivity|]. cbn. repeat match goal with |- _ /\ _ => split end; auto.
        * intros i Hi'. unfold upd. destruct (Z.eqb_spec i i0) as [->|]; [rewrite orb_true_r; reflexivity|rewrite orb_false_r; reflexivity].
        * rewrite C3. rewrite (zcount_one (rg_backed r) (upd (rg_backed r) i0 true) i0); [|lia|].
          -- rewrite upd_same, Eb. cbn. lia.
          -- intros j _ Hj. apply upd_other. assumption.
        * lia.
        * tauto.
    - assert (Eb : rg_backed r i0 = true) by (apply C1; assumption).
      eexists _, _. split; [reflexivity|]. repeat match goal with |- _ /\ _ => split end; auto.
      + intros i Hi'. destruct (Z.eqb_spec i i0) as [->|]; [rewrite Eb; reflexivity|rewrite orb_false_r; reflexivity].
      + rewrite andb_false_r. cbn. lia.
      + rewrite Eb. split; [tauto|]. intros [H0|H0]; [assumption|discriminate]. }
  destruct Step as (r1 & should1 & E1 & T1 & L1 & U1 & V1 & B1 & N1 & F1 & S1). rewrite E1. cbn [obind]. rewrite V1.
  assert (Hu : rg_used r i0 + here <= P).
  { specialize (Hov i0 Hi). rewrite Hoi, Hself', Z.eqb_refl in Hov. lia. }
  replace (rg_used r i0 + here <=? P) with true by lia.
  set (r2 := rg_with_used r1 (upd (rg_used r) i0 (rg_used r i0 + here))).
  assert (C2 : cnt_ok P K r2).
  { constructor; cbn [r2 rg_with_used rg_used rg_backed rg_nbacked rg_free_backed].
    - intros i Hi' Hne. rewrite B1 by assumption. unfold upd in Hne. destruct (Z.eqb_spec i i0); [apply orb_true_r|].
      rewrite (co_backed _ _ _ C i Hi' Hne). reflexivity.
    - intros i Hi'. unfold upd. destruct (Z.eqb_spec i i0) as [->|]; [pose proof (co_used _ _ _ C i0 Hi); lia|apply (co_used _ _ _ C); assumption].
    - assumption.
    - rewrite F1. apply zcount_ext. intros j Hj. rewrite B1 by lia. unfold upd. destruct (Z.eqb_spec j i0) as [->|].
      + pose proof (co_used _ _ _ C i0 Hi). replace (rg_used r i0 + here =? 0) with false by lia.
        cbn [negb]. rewrite !andb_false_r. reflexivity.
      + cbn [negb]. rewrite orb_false_r, andb_true_r. reflexivity. }
  destruct (IH r2 (p + here) (n - here) should1 C2 ltac:(lia)) as (r' & should' & E' & T' & L' & U' & C' & Us' & Bk' & Sh').
  { intros H. cbn [r2 rg_with_used rg_loc]. rewrite L1. specialize (Hnext H). lia. }
  { intros i Hi'. cbn [r2 rg_with_used rg_loc rg_used]. rewrite L1. specialize (Hov i Hi'). rewrite Hoi in Hov.
    unfold upd. destruct (Z.eqb_spec i i0) as [->|]; lia. }
  exists r', should'. cbn [r2 rg_with_used rg_loc rg_used rg_t rg_backed rg_total_unbacked] in *. rewrite L1 in *.
  split; [exact E'|]. split; [congruence|]. split; [congruence|]. split; [congruence|]. split; [assumption|]. split; [|split].
  - intros i Hi'. rewrite Us', Hoi by assumption. unfold upd. destruct (Z.eqb_spec i i0) as [->|]; lia.
  - intros i Hi'. rewrite Bk', B1, Hoi by assumption. rewrite <- orb_assoc. f_equal.
    pose proof (ov_nonneg P (p + here) (n - here) (rg_loc r + i)). destruct (Z.eqb_spec i i0) as [->|]; lia.
  - rewrite Sh', S1. split.
    + intros [[H|H]|(i & Hi' & H1 & H2)]; [left; assumption|right|right].
      * exists i0. split; [assumption|]. split; [|assumption]. rewrite Hoi, Z.eqb_refl. pose proof (ov_nonneg P (p + here) (n - here) (rg_loc r + i0)). lia.
      * exists i. split; [assumption|]. rewrite B1 in H2 by assumption. apply orb_false_elim in H2. destruct H2 as (H2 & H3).
        split; [|assumption]. rewrite Hoi, H3. lia.
    + intros [H|(i & Hi' & H1 & H2)]; [left; left; assumption|]. rewrite Hoi in H1. destruct (Z.eqb_spec i i0) as [->|Hne]; [left; right; assumption|].
      right. exists i. split; [assumption|]. split; [lia|]. rewrite B1, H2 by assumption. replace (i =? i0) with false by lia. reflexivity.
Qed.

Lemma dec_loop_spec P K : 0 < P -> forall fuel r p n should, cnt_ok P K r -> 0 <= n <= Z.of_nat fuel ->
  (0 < n -> rg_loc r * P <= p /\ p + n <= (rg_loc r + K) * P) ->
  (forall i, 0 <= i < K -> ov P p n (rg_loc r + i) <= rg_used r i) ->
  exists r' should', dec_loop fuel P K r p n should = Some (r', should') /\
    rg_t r' = rg_t r /\ rg_loc r' = rg_loc r /\ rg_total_unbacked r' = rg_total_unbacked r /\ cnt_ok P K r' /\
    (forall i, 0 <= i < K -> rg_used r' i = rg_used r i - ov P p n (rg_loc r + i)) /\
    (forall i, 0 <= i < K -> rg_backed r' i = rg_backed r i) /\
    (forall i, should' i = should i || (0 <=? i) && (i <? K) && (0 <? ov P p n (rg_loc r + i)) && (rg_used r' i =? 0)).
Proof.
  intros HP.
  assert (Done : forall r p should, cnt_ok P K r -> exists r' should', Some (r, should) = Some (r', should') /\
    rg_t r' = rg_t r /\ rg_loc r' = rg_loc r /\ rg_total_unbacked r' = rg_total_unbacked r /\ cnt_ok P K r' /\
    (forall i, 0 <= i < K -> rg_used r' i = rg_used r i - ov P p 0 (rg_loc r + i)) /\
    (forall i, 0 <= i < K -> rg_backed r' i = rg_backed r i) /\
    (forall i, should' i = should i || (0 <=? i) && (i <? K) && (0 <? ov P p 0 (rg_loc r + i)) && (rg_used r' i =? 0))).
  { intros r p should C. exists r, should. setoid_rewrite ov_zero; [|assumption..].
    repeat match goal with |- _ /\ _ => split end; auto.
    - intros. lia.
    - intros. replace (0 <? 0) with false by reflexivity. rewrite andb_false_r. cbn [andb]. rewrite orb_false_r. reflexivity. }
  induction fuel as [|fuel IH]; intros r p n should C Hn Hin Hov.
  { assert (n = 0) by lia. subst n. apply Done. assumption. }
  cbn [dec_loop]. destruct (Z.ltb_spec 0 n) as [Hpos|Hz].
  2:{ assert (n = 0) by lia. subst n. apply Done. assumption. }
  destruct (Hin Hpos) as (Hlo & Hhi). clear Hin.
  pose proof (fun h => ov_split P p n h HP Hpos) as Hsp. cbv zeta in Hsp.
  assert (Hpp : p / P * P <= p < (p / P + 1) * P).
  { pose proof (Z.div_mod p P ltac:(lia)). pose proof (Z.mod_pos_bound p P HP). lia. }
  set (hp := p / P) in *. set (here := Z.min n ((hp + 1) * P - p)) in *.
  destruct (Hsp 0) as (Hh1 & Hh2 & _ & Hself & Hnext).
  assert (Hsp' : forall h, ov P p n h = (if h =? hp then here else 0) + ov P (p + here) (n - here) h) by (intros h; apply (Hsp h)).
  clear Hsp. clearbody here.
  assert (Hi : 0 <= hp - rg_loc r < K) by (clear - HP Hpp Hlo Hhi Hpos; nia).
  set (i0 := hp - rg_loc r) in *. replace ((0 <=? i0) && (i0 <? K)) with true by lia.
  assert (Ehp : rg_loc r + i0 = hp) by lia.
  assert (Hkey : forall i, rg_loc r + i =? hp = (i =? i0)) by (intros; lia).
  assert (Hoi : forall i, ov P p n (rg_loc r + i) = (if i =? i0 then here else 0) + ov P (p + here) (n - here) (rg_loc r + i)).
  { intros i. rewrite Hsp', Hkey. reflexivity. }
  assert (Hself' : ov P (p + here) (n - here) (rg_loc r + i0) = 0) by (rewrite Ehp; assumption).
  clearbody i0. clear Hsp' Hkey.
  assert (Hu : here <= rg_used r i0). { specialize (Hov i0 Hi). rewrite Hoi, Hself', Z.eqb_refl in Hov. lia. }
  assert (Eb : rg_backed r i0 = true) by (apply (co_backed _ _ _ C); [assumption|lia]).
  replace ((0 <? here) && (here <=? rg_used r i0) && rg_backed r i0) with true by (rewrite Eb; lia).
  set (u := rg_used r i0 - here).
  set (r1 := if u =? 0 then rg_with_free_backed (rg_with_used r (upd (rg_used r) i0 u)) (rg_free_backed r + 1) else rg_with_used r (upd (rg_used r) i0 u)).
  set (should1 := if u =? 0 then upd should i0 true else should).
  match goal with |- exists r' should', ?X = _ /\ _ => replace X with (dec_loop fuel P K r1 (p + here) (n - here) should1) end.
  2:{ subst r1 should1. destruct (u =? 0); reflexivity. }
  assert (V1 : rg_used r1 = upd (rg_used r) i0 u /\ rg_backed r1 = rg_backed r /\ rg_t r1 = rg_t r /\ rg_loc r1 = rg_loc r /\
     rg_nbacked r1 = rg_nbacked r /\ rg_total_unbacked r1 = rg_total_unbacked r /\
     rg_free_backed r1 = rg_free_backed r + b2z (u =? 0)).
  { subst r1. destruct (u =? 0); cbn; repeat match goal with |- _ /\ _ => split end; try reflexivity. lia. }
  destruct V1 as (V1 & V2 & V3 & V4 & V5 & V6 & V7).
  assert (C1 : cnt_ok P K r1).
  { pose proof (co_used _ _ _ C i0 Hi). constructor; rewrite ?V1, ?V2, ?V5, ?V7.
    - intros i Hi' Hne. unfold upd in Hne. destruct (Z.eqb_spec i i0) as [->|]; [assumption|]. apply (co_backed _ _ _ C); assumption.
    - intros i Hi'. unfold upd. destruct (Z.eqb_spec i i0) as [->|]; [lia|]. apply (co_used _ _ _ C); assumption.
    - apply (co_nbacked _ _ _ C).
    - rewrite (co_free _ _ _ C). rewrite (zcount_one (fun i => rg_backed r i && (rg_used r i =? 0)) (fun i => rg_backed r i && (upd (rg_used r) i0 u i =? 0)) i0); [|lia|].
      + rewrite upd_same, Eb. replace (rg_used r i0 =? 0) with false by lia. cbn [andb b2z]. lia.
      + intros j _ Hj. rewrite upd_other by assumption. reflexivity. }
  destruct (IH r1 (p + here) (n - here) should1 C1 ltac:(lia)) as (r' & should' & E' & T' & L' & U' & C' & Us' & Bk' & Sh').
  { intros H. rewrite V4. specialize (Hnext H). lia. }
  { intros i Hi'. rewrite V4, V1. specialize (Hov i Hi'). rewrite Hoi in Hov. unfold upd. destruct (Z.eqb_spec i i0) as [->|]; lia. }
  exists r', should'. rewrite V4, V1, V2 in *.
  split; [exact E'|]. split; [congruence|]. split; [congruence|]. split; [congruence|]. split; [assumption|]. split; [|split; [assumption|]].
  - intros i Hi'. rewrite Us', Hoi by assumption. unfold upd. destruct (Z.eqb_spec i i0) as [->|]; lia.
  - intros i. rewrite Sh'. subst should1. destruct ((0 <=? i) && (i <? K)) eqn:Er.
    2:{ cbn [andb]. rewrite !orb_false_r. destruct (u =? 0); [|reflexivity]. apply upd_other. lia. }
    cbn [andb]. rewrite Hoi. pose proof (ov_nonneg P (p + here) (n - here) (rg_loc r + i)). destruct (Z.eqb_spec i i0) as [->|Hne].
    + rewrite Us' by lia. rewrite Hself', upd_same. replace (0 <? 0) with false by reflexivity. replace (0 <? here + 0) with true by lia.
      replace (u - 0) with u by lia. cbn [andb]. rewrite orb_false_r. destruct (u =? 0); [rewrite upd_same|]; destruct (should i0); reflexivity.
    + rewrite Z.add_0_l. f_equal. destruct (u =? 0); [apply upd_other; assumption|reflexivity].
Qed.
