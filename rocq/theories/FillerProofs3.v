(** The operations of the hugepage filler preserve its invariant. *)
From Coq Require Import Permutation.
From Verif Require Import Base Bitmap BitmapProofs RangeTrackerProofs RangeTrackerProofs2 RangeTrackerProps HintedLists HintedListsProofs PageTracker PageTrackerProps Filler FillerProofs FillerProofs2.

Lemma fl_ok_lv N sub f own lv lv' : fl_ok N sub f own lv -> (forall x, In x own -> lv' x = lv x) -> fl_ok N sub f own lv'.
Proof. intros [] H. constructor; auto. intros x Hx. rewrite H by assumption. auto. Qed.
Lemma fl_ok_same N sub f own lv x live : fl_ok N sub f own (upd lv x live) -> live = lv x -> fl_ok N sub f own lv.
Proof. intros H ->. apply (fl_ok_lv _ _ _ _ _ _ H). intros y _. unfold upd. destruct (Z.eqb_spec y x) as [->|]; reflexivity. Qed.

(** Setting a total commutes with putting a tracker on its list. *)
Lemma add_set_alloc N sub g x v : set_alloc (fl_add N sub g x) v = fl_add N sub (set_alloc g v) x.
Proof.
  unfold fl_add. cbn [fl_tr set_alloc put_tracker set_tr]. destruct (pt_longest (fl_tr g x) =? N); [reflexivity|].
  destruct (negb _ && _); [reflexivity|]. destruct (_ <=? _); reflexivity.
Qed.
Lemma add_set_unmapped N sub g x v : set_unmapped (fl_add N sub g x) v = fl_add N sub (set_unmapped g v) x.
Proof.
  unfold fl_add. cbn [fl_tr set_unmapped put_tracker set_tr]. destruct (pt_longest (fl_tr g x) =? N); [reflexivity|].
  destruct (negb _ && _); [reflexivity|]. destruct (_ <=? _); reflexivity.
Qed.
Lemma add_set_unaccounted N sub g x v : set_unaccounted (fl_add N sub g x) v = fl_add N sub (set_unaccounted g v) x.
Proof.
  unfold fl_add. cbn [fl_tr set_unaccounted put_tracker set_tr]. destruct (pt_longest (fl_tr g x) =? N); [reflexivity|].
  destruct (negb _ && _); [reflexivity|]. destruct (_ <=? _); reflexivity.
Qed.
Lemma add_set_size N sub g x v : set_size (fl_add N sub g x) v = fl_add N sub (set_size g v) x.
Proof.
  unfold fl_add. cbn [fl_tr set_size put_tracker set_tr]. destruct (pt_longest (fl_tr g x) =? N); [reflexivity|].
  destruct (negb _ && _); [reflexivity|]. destruct (_ <=? _); reflexivity.
Qed.

Lemma pt_get_flags N t n o t' i u : pt_get N t n o = Some (t', i, u) ->
  pt_dense t' = pt_dense t /\ pt_was_released t' = pt_was_released t /\ pt_donated t' = pt_donated t /\ pt_unbroken t' = pt_unbroken t.
Proof.
  unfold pt_get. intros H. destruct (find_and_mark N (pt_free t) n) as [[fr ix]|]; [|discriminate]. cbn [obind] in H.
  destruct (0 <? pt_rcount t); injection H as <- <- <-; auto.
Qed.
Lemma pt_put_flags N t i n o t' : pt_put N t i n o = Some t' ->
  pt_dense t' = pt_dense t /\ pt_was_released t' = pt_was_released t /\ pt_donated t' = pt_donated t /\ pt_unbroken t' = pt_unbroken t /\ pt_rcount t' = pt_rcount t.
Proof. unfold pt_put. intros H. destruct (unmark N (pt_free t) i n) as [fr|]; [|discriminate]. injection H as <-. auto 6. Qed.

Lemma used_live N t live : 0 < N -> pt_reach N t live -> pt_used t = zsum (map (fun r => snd (fst r)) live).
Proof. intros HN H. apply (hugepage_runs N t live HN H). Qed.

(** What an operation on one hugepage leaves alone. *)
Record others_same (f f' : filler) (x : Z) : Prop := {
  os_tr : forall y, y <> x -> fl_tr f' y = fl_tr f y;
  os_freed : fl_freed f' = fl_freed f;
  os_size : fl_size f' = fl_size f;
  os_keep : fl_keep f' = fl_keep f;
  os_coll : fl_collapsing f' = fl_collapsing f }.

(** ** TryGet *)

Lemma try_get_ok N sub f own lv n d o : 0 < N -> fl_ok N sub f own lv -> 0 < n < N -> (d = true -> n = 1) ->
  exists f' r, try_get N sub f n d o = Some (f', r) /\
  match r with
  | None => f' = f /\ forall y, In y own -> pt_dense (fl_tr f y) = d -> pt_longest (fl_tr f y) < n
  | Some (x, i, b) => In x own /\ fl_ok N sub f' own (upd lv x (((i, n), o) :: lv x)) /\ others_same f f' x /\ fl_unaccounted f' = fl_unaccounted f /\
      pt_dense (fl_tr f x) = d /\ n <= pt_longest (fl_tr f x) /\ run_free N (map fst (lv x)) i n /\
      (b = true <-> 2 <= rank (kind N sub (fl_tr f x))) /\
      fl_unmapped f' = fl_unmapped f - pages_with (released_page (fl_tr f x)) i n /\
      (forall y, In y own -> pt_dense (fl_tr f y) = d -> n <= pt_longest (fl_tr f y) ->
        rank (kind N sub (fl_tr f x)) <= rank (kind N sub (fl_tr f y)) /\
        (rank (kind N sub (fl_tr f x)) = rank (kind N sub (fl_tr f y)) -> pidx N (fl_tr f x) <= pidx N (fl_tr f y)))
  end.
Proof.
  intros HN Ok Hn Hd1. destruct (choose_ok N sub f own lv n d HN Ok Hn Hd1) as (f1 & c & E & Hc). unfold try_get. rewrite E. cbn [obind]. clear E.
  destruct c as [[x b]|]; [|exists f1, None; split; [reflexivity|exact Hc]].
  destruct Hc as (Hx & -> & Hd & Hlong & Hb & Hpref). pose proof (fo_tk _ _ _ _ _ Ok x Hx) as K. pose proof (tk_reach _ _ _ K) as R.
  destruct (fl_remove_fields N sub f x) as (G1 & G2 & G3 & G4 & G5 & G6 & G7 & G8 & G9).
  set (fr := fl_remove N sub f x) in *. rewrite G1.
  destruct (hugepage_get N (fl_tr f x) (lv x) n o HN R ltac:(lia)) as (Hiff & Hget).
  destruct (proj2 Hiff) as (t & i & u & E).
  { destruct (hugepage_runs N (fl_tr f x) (lv x) HN R) as (_ & _ & _ & _ & _ & _ & Hr & _). destruct Hr as (i0 & (I1 & I2 & I3)); [lia|].
    exists i0. split; [assumption|]. split; [lia|]. intros r Hr. specialize (I3 r Hr). unfold disj in *. cbn [fst snd] in *. lia. }
  rewrite E. cbn [obind]. destruct (Hget t i u E) as (R' & Hrun & _).
  destruct (get_reports_released N (fl_tr f x) (lv x) n o t i u HN R ltac:(lia) E) as (Eu & Erc & _).
  destruct (pt_get_flags _ _ _ _ _ _ _ E) as (F1 & F2 & F3 & F4). clear Hget Hiff.
  set (t' := pt_set_donated t false).
  assert (K' : tk_ok N t' (((i, n), o) :: lv x)).
  { constructor; [apply pr_donated; assumption|discriminate| |discriminate|discriminate|discriminate].
    intros Hd' r Hr. change (pt_dense t' = true) with (pt_dense t = true) in Hd'. rewrite F1, Hd in Hd'.
    destruct Hr as [<-|Hr]; [apply Hd1; assumption|]. apply (tk_dense _ _ _ K); [congruence|assumption]. }
  assert (EU : pt_used t = pt_used (fl_tr f x) + n).
  { rewrite (used_live N t _ HN R'), (used_live N _ _ HN R). cbn [map fst snd]. rewrite zsum_cons. clear. lia. }
  set (a := updb (fl_alloc f) d (fl_alloc f d + n)).
  set (g := set_unmapped (set_alloc (put_tracker fr x t) a) (fl_unmapped f - u)).
  pose proof (step_ok N sub f own lv x g t t' (((i, n), o) :: lv x) HN Ok Hx eq_refl eq_refl eq_refl) as ST.
  destruct ST as (ST & STt).
  { unfold g. cbn [fl_tr set_unmapped set_alloc put_tracker set_tr]. rewrite G1. reflexivity. }
  { reflexivity. }
  { exact K'. }
  { exact G3. }
  { exact G2. }
  { change (0 <= fl_unaccounted fr). rewrite G6. apply (fo_unacc _ _ _ _ _ Ok). }
  { intros d'. change (fl_alloc g) with a. unfold a. rewrite updb_at. unfold g_alloc. change (pt_dense t') with (pt_dense t). change (pt_used t') with (pt_used t).
    rewrite F1, Hd, EU. clear. destruct d, d'; cbn [Bool.eqb]; lia. }
  { change (fl_unmapped g) with (fl_unmapped f - u). change (pt_rcount t') with (pt_rcount t). clear - Erc. lia. }
  { intros d'. change (fl_was_rel g d') with (fl_was_rel fr d'). rewrite G7. unfold g_was. change (pt_dense t') with (pt_dense t). change (pt_was_released t') with (pt_was_released t).
    rewrite F1, F2. clear. lia. }
  set (h := fl_add N sub g x) in *.
  assert (Hlong' : pt_longest (fl_tr g x) <> N).
  { unfold g. cbn [fl_tr set_unmapped set_alloc put_tracker set_tr]. rewrite upd_same. destruct (tk_bounds N t' _ HN K') as (B & _).
    change (pt_longest t') with (pt_longest t) in B. clear - B. lia. }
  destruct (fl_add_fields N sub g x Hlong') as (A1 & A2 & A3 & A4 & A5 & A6 & A7 & A8 & A9). fold h in A1, A2, A3, A4, A5, A6, A7, A8, A9.
  assert (Hh : set_unmapped (set_alloc (fl_add N sub (put_tracker fr x t) x) a) (fl_unmapped f - u) = h).
  { rewrite add_set_alloc, add_set_unmapped. reflexivity. }
  set (f0 := fl_add N sub (put_tracker fr x t) x).
  assert (Hlong0 : pt_longest (fl_tr (put_tracker fr x t) x) <> N) by (exact Hlong').
  destruct (fl_add_fields N sub (put_tracker fr x t) x Hlong0) as (P1 & P2 & P3 & P4 & P5 & P6 & P7 & P8 & P9). fold f0 in P1, P2, P3, P4, P5, P6, P7, P8, P9, Hh.
  assert (EA : updb (fl_alloc f0) d (fl_alloc f0 d + n) = a) by (unfold a; rewrite P4; cbn [fl_alloc put_tracker set_tr]; rewrite G4; reflexivity).
  rewrite EA. cbn [fl_tr set_alloc].
  set (cnd := b && negb (pt_released (fl_tr f0 x)) && negb (pt_was_released (fl_tr f0 x))).
  set (fin := if cnd then set_was_rel (put_tracker h x (pt_set_was_released (fl_tr h x) true)) (updb (fl_was_rel h) d (fl_was_rel h d + 1)) else h).
  assert (Efin : (if cnd
     then set_was_rel (put_tracker (set_alloc f0 a) x (pt_set_was_released (fl_tr f0 x) true)) (updb (fl_was_rel (set_alloc f0 a)) d (fl_was_rel (set_alloc f0 a) d + 1))
     else set_alloc f0 a) = set_unmapped fin (fl_unmapped f)).
  { unfold fin. rewrite <- Hh. destruct cnd; unfold set_unmapped, set_was_rel, put_tracker, set_alloc, set_tr;
      cbn [fl_lists fl_freed fl_tr fl_size fl_alloc fl_unmapped fl_unaccounted fl_used_rel fl_used_part fl_was_rel fl_keep fl_collapsing];
      rewrite <- G5; change (fl_unmapped fr) with (fl_unmapped (put_tracker fr x t)); rewrite <- P5; reflexivity. }
  rewrite Efin.
  assert (Efin2 : set_unmapped (set_unmapped fin (fl_unmapped f)) (fl_unmapped (set_unmapped fin (fl_unmapped f)) - u) = fin).
  { unfold fin. rewrite <- Hh. destruct cnd; reflexivity. }
  clearbody f0. rewrite Efin2. exists fin, (Some (x, i, b)). split; [reflexivity|].
  assert (Hfx : fl_tr h x = t') by (rewrite STt; apply upd_same).
  assert (Etx : fl_tr f0 x = t').
  { rewrite P1. unfold put_tracker. cbn [fl_tr set_tr]. rewrite !upd_same. reflexivity. }
  repeat match goal with |- _ /\ _ => split end; auto.
  - unfold fin. destruct cnd eqn:Ec; [|assumption]. apply was_ok; [assumption|assumption|].
    intros d'. unfold cnd in Ec. apply andb_prop in Ec. destruct Ec as (_ & Ec). rewrite Etx in Ec.
    rewrite updb_at, Hfx. unfold g_was. cbn [pt_was_released pt_set_was_released pt_dense].
    change (pt_dense t') with (pt_dense t). rewrite F1, Hd. destruct (pt_was_released t'); [discriminate|]. cbn [andb]. clear.
    destruct d, d'; cbn [Bool.eqb]; lia.
  - assert (Hoth : others_same f h x).
    { constructor; [|rewrite A2; exact G2|rewrite A3; exact G3|rewrite A8; exact G8|rewrite A9; exact G9].
      intros y Hy. rewrite STt. apply upd_other. assumption. }
    unfold fin. destruct cnd; [|assumption]. destruct Hoth as [O1 O2 O3 O4 O5]. constructor; auto. intros y Hy. rewrite <- (O1 y Hy).
    cbn [fl_tr set_was_rel put_tracker set_tr]. apply upd_other. assumption.
  - transitivity (fl_unaccounted h); [unfold fin; destruct cnd; reflexivity|]. rewrite A6. exact G6.
  - transitivity (fl_unmapped h); [unfold fin; destruct cnd; reflexivity|]. rewrite A5, <- Eu. reflexivity.
Qed.

(** ** Put *)

Definition after_put (own : list Z) (x : Z) (live : list (Z * Z * Z)) : list Z := match live with [] => rem1 x own | _ => own end.

Lemma put_ok N sub f own lv x l1 i n o l2 os : 0 < N -> fl_ok N sub f own lv -> In x own -> lv x = l1 ++ ((i, n), o) :: l2 ->
  exists f' r, fl_put N sub f x i n o os = Some (f', r) /\
    fl_ok N sub f' (after_put own x (l1 ++ l2)) (upd lv x (l1 ++ l2)) /\
    r = match l1 ++ l2 with [] => if fl_keep f x =? 0 then Some x else None | _ => None end /\
    fl_freed f' = match l1 ++ l2 with [] => if fl_keep f x =? 0 then fl_freed f else x :: fl_freed f | _ => fl_freed f end /\
    (forall y, y <> x -> fl_tr f' y = fl_tr f y) /\ fl_keep f' = fl_keep f /\ fl_collapsing f' = fl_collapsing f /\
    fl_unmapped f' = fl_unmapped f - (match l1 ++ l2 with [] => pt_rcount (fl_tr f x) | _ => 0 end) /\
    fl_unaccounted f' = fl_unaccounted f + (match l1 ++ l2 with
      [] => if pt_released (fl_tr f x) && os then N - pt_rcount (fl_tr f x) else 0 | _ => 0 end).
Proof.
  intros HN Ok Hx Hlv. pose proof (fo_tk _ _ _ _ _ Ok x Hx) as K. pose proof (tk_reach _ _ _ K) as R. rewrite Hlv in R.
  pose proof (fo_own _ _ _ _ _ Ok) as ND. pose proof (fo_lists _ _ _ _ _ Ok) as HL.
  destruct (fl_remove_fields N sub f x) as (G1 & G2 & G3 & G4 & G5 & G6 & G7 & G8 & G9).
  pose proof (remove_ok N sub f own x HL Hx) as HL1.
  unfold fl_put. set (fr := fl_remove N sub f x) in *. rewrite G1.
  destruct (hugepage_put N (fl_tr f x) l1 i n o l2 HN R) as (t & E & R' & _). rewrite E. cbn [obind].
  destruct (pt_put_flags _ _ _ _ _ _ E) as (F1 & F2 & F3 & F4 & F5).
  assert (EU : pt_used t = pt_used (fl_tr f x) - n).
  { rewrite (used_live N t _ HN R'), (used_live N _ _ HN R). rewrite !map_app, !zsum_app. cbn [map fst snd]. rewrite zsum_cons. clear. lia. }
  set (a := updb (fl_alloc fr) (pt_dense t) (fl_alloc fr (pt_dense t) - n)).
  change (fl_alloc (put_tracker fr x t)) with (fl_alloc fr). fold a.
  assert (EAl : forall d, a d = fl_alloc f d - g_alloc d (fl_tr f x) + g_alloc d t).
  { intros d. unfold a. rewrite updb_at, G4. unfold g_alloc. rewrite F1, EU. clear. destruct (pt_dense (fl_tr f x)), d; cbn [Bool.eqb]; lia. }
  destruct (hugepage_runs N t _ HN R') as (_ & _ & _ & _ & _ & _ & _ & _ & _ & Hff). unfold pt_fully_freed in Hff.
  destruct (l1 ++ l2) as [|r0 l0] eqn:El.
  - (* the hugepage is empty now *)
    assert (HffT : (pt_longest t =? N) = true) by (apply Hff; reflexivity). rewrite HffT.
    assert (U0 : pt_used t = 0) by (rewrite (used_live N t _ HN R'); reflexivity).
    destruct (rem1_NoDup x own ND) as (ND' & Nx).
    destruct (released_pages_exact N t _ HN R') as (_ & _ & Brc & _).
    set (f1 := set_size (set_alloc (put_tracker fr x t) a) (fl_size (set_alloc (put_tracker fr x t) a) - 1)).
    set (um := fl_unmapped f - pt_rcount t).
    set (ua := if pt_released t && os then fl_unaccounted f + (N - pt_rcount t) else fl_unaccounted f).
    set (f2 := set_unaccounted (set_unmapped f1 um) ua).
    assert (E2 : (if pt_released t then unback_rest N f1 t os else f1) = f2).
    { unfold unback_rest. cbv zeta. unfold f2, ua, um. change (fl_unmapped f1) with (fl_unmapped fr). rewrite G5.
      change (fl_unaccounted (set_unmapped f1 (fl_unmapped f - pt_rcount t))) with (fl_unaccounted fr). rewrite G6.
      assert (Efr : pt_free_pages N t = N) by (unfold pt_free_pages; clear - U0; lia). rewrite Efr in *.
      assert (S1 : forall v, v = fl_unmapped f1 -> set_unmapped f1 v = f1) by (intros v ->; destruct f1; reflexivity).
      assert (S2 : forall g v, v = fl_unaccounted g -> set_unaccounted g v = g) by (intros g v ->; destruct g; reflexivity).
      unfold pt_released. destruct (Z.ltb_spec 0 (pt_rcount t)) as [Hr|Hr]; cbn [andb].
      - destruct os; [|rewrite andb_false_r; symmetry; apply S2; symmetry; exact G6]. rewrite andb_true_r.
        destruct (Z.ltb_spec (pt_rcount t) N); [reflexivity|]. symmetry. apply S2. cbn. rewrite G6. clear - H Brc. lia.
      - rewrite S2 by (symmetry; exact G6). symmetry. apply S1. change (fl_unmapped f1) with (fl_unmapped fr). rewrite G5. clear - Hr Brc. lia. }
    rewrite E2. clear E2.
    set (w := if pt_was_released t then updb (fl_was_rel fr) (pt_dense t) (fl_was_rel fr (pt_dense t) - 1) else fl_was_rel fr).
    set (tw := if pt_was_released t then pt_set_was_released t false else t).
    set (f3 := if pt_was_released t then clear_was_released f2 x t else f2).
    assert (T3 : forall y, fl_tr f3 y = upd (fl_tr f) x tw y).
    { intros y. unfold f3, tw. destruct (pt_was_released t); cbn [clear_was_released fl_tr set_was_rel put_tracker set_tr f2 set_unaccounted set_unmapped f1 set_size set_alloc];
        rewrite G1, ?upd_upd_at; reflexivity. }
    assert (W3 : fl_was_rel f3 = w) by (unfold f3, w; destruct (pt_was_released t); reflexivity).
    assert (Rw : pt_reach N tw []) by (unfold tw; destruct (pt_was_released t); [apply pr_was_released|]; assumption).
    assert (Fs : fl_lists f3 = fl_lists fr /\ fl_used_rel f3 = fl_used_rel fr /\ fl_used_part f3 = fl_used_part fr /\ fl_freed f3 = fl_freed f /\
      fl_size f3 = fl_size f - 1 /\ fl_alloc f3 = a /\ fl_unmapped f3 = um /\ fl_unaccounted f3 = ua /\ fl_keep f3 = fl_keep f /\ fl_collapsing f3 = fl_collapsing f).
    { unfold f3, f2, f1. destruct (pt_was_released t); cbn; rewrite ?G2, ?G3, ?G8, ?G9; auto 12. }
    destruct Fs as (L1 & L2 & L3 & L4 & L5 & L6 & L7 & L8 & L9 & L10).
    assert (Hfin : fl_ok N sub f3 (rem1 x own) (upd lv x [])).
    { assert (TS : forall g, tsum g (fl_tr f3) (rem1 x own) = tsum g (fl_tr f) own - g (fl_tr f x)).
      { intros g. rewrite (tsum_ext g (fl_tr f3) (upd (fl_tr f) x tw)) by (intros y _; rewrite T3; reflexivity).
        rewrite tsum_upd_out by assumption. rewrite (tsum_take g (fl_tr f) x own Hx). clear. lia. }
      constructor.
      - unfold flists_ok in *. rewrite L1, L2, L3. rewrite G1 in HL1. apply (lists_ok_tr _ _ _ _ _ (fl_tr f)); [assumption|].
        intros y Hy. rewrite T3, upd_other; [auto|]. intros ->. contradiction.
      - intros y Hy. assert (y <> x) by (intros ->; contradiction). rewrite T3, !upd_other by assumption. apply (fo_tk _ _ _ _ _ Ok). apply (rem1_In x). assumption.
      - rewrite L5, (fo_size _ _ _ _ _ Ok). rewrite (Permutation_length (rem1_perm x own Hx)). cbn [length]. clear. lia.
      - intros d. rewrite L6, EAl, TS, (fo_alloc _ _ _ _ _ Ok). unfold g_alloc at 3. rewrite U0. clear. destruct (Bool.eqb _ _); lia.
      - rewrite L7, TS. unfold um. rewrite (fo_unmapped _ _ _ _ _ Ok). clear - F5. lia.
      - intros d. rewrite W3, TS. unfold w. rewrite G7, F2, F1. unfold g_was at 2. destruct (pt_was_released (fl_tr f x)); cbn [andb].
        + rewrite updb_at. rewrite (fo_was _ _ _ _ _ Ok d), (fo_was _ _ _ _ _ Ok (pt_dense (fl_tr f x))).
          clear. destruct (pt_dense (fl_tr f x)), d; cbn [Bool.eqb]; lia.
        + rewrite (fo_was _ _ _ _ _ Ok d). clear. lia.
      - rewrite L8. pose proof (fo_unacc _ _ _ _ _ Ok) as Hu. unfold ua, pt_free_pages in *. clear - Hu Brc U0. destruct (pt_released t && os); lia.
      - rewrite L4. apply (fo_nodup _ _ _ _ _ Ok).
      - intros y Hy. rewrite L4 in Hy. destruct (fo_freed _ _ _ _ _ Ok y Hy) as (A1 & A2). split; [intros Hi; apply A1; apply (rem1_In x); assumption|].
        rewrite T3, upd_other; [assumption|]. intros ->. contradiction. }
    assert (Hua : ua = fl_unaccounted f + (if pt_released (fl_tr f x) && os then N - pt_rcount (fl_tr f x) else 0)).
    { unfold ua, pt_released. rewrite F5. clear. destruct ((0 <? pt_rcount (fl_tr f x)) && os); lia. }
    assert (Hoth : forall y, y <> x -> fl_tr f3 y = fl_tr f y) by (intros y Hy; rewrite T3; apply upd_other; assumption).
    cbn [after_put]. rewrite L9. destruct (fl_keep f x =? 0) eqn:Ek.
    + exists f3, (Some x). unfold um in L7. rewrite F5 in L7. rewrite L8, <- Hua. repeat match goal with |- _ /\ _ => split end; auto.
    + exists (set_freed f3 (x :: fl_freed f3)), None. split.
      { unfold fl_add. replace (pt_longest (fl_tr f3 x)) with (pt_longest t).
        - rewrite HffT. reflexivity.
        - rewrite T3, upd_same. unfold tw. destruct (pt_was_released t); reflexivity. }
      unfold um in L7. rewrite F5 in L7. cbn [fl_freed set_freed fl_tr fl_keep fl_collapsing fl_unmapped fl_unaccounted]. rewrite L4, L8, <- Hua.
      repeat match goal with |- _ /\ _ => split end; auto.
      destruct Hfin as [A1 A2 A3 A4 A5 A6 A7 A8 A9]. constructor; auto; cbn [fl_freed set_freed fl_tr]; rewrite L4 in *.
      * constructor; [|assumption]. intros Hi. destruct (fo_freed _ _ _ _ _ Ok x Hi) as (B & _). contradiction.
      * intros y [<-|Hy]; [|auto]. split; [assumption|]. rewrite T3, upd_same. assumption.
  - (* some run is still live *)
    assert (HffF : (pt_longest t =? N) = false) by (destruct (pt_longest t =? N); [exfalso; pose proof (proj1 Hff eq_refl); discriminate|reflexivity]). rewrite HffF.
    set (g := set_alloc (put_tracker fr x t) a). set (t' := pt_set_donated t false).
    assert (K' : tk_ok N t' (r0 :: l0)).
    { constructor; [apply pr_donated; assumption|discriminate| |discriminate|discriminate|discriminate].
      intros Hd r Hr. change (pt_dense t = true) in Hd. rewrite F1 in Hd. apply (tk_dense _ _ _ K Hd). rewrite Hlv. rewrite <- El in Hr.
      apply in_app_or in Hr. apply in_or_app. destruct Hr; [left|right; right]; assumption. }
    destruct (step_ok N sub f own lv x g t t' (r0 :: l0) HN Ok Hx eq_refl eq_refl eq_refl) as (ST & STt); auto.
    { unfold g. cbn [fl_tr set_alloc put_tracker set_tr]. rewrite G1. reflexivity. }
    { change (0 <= fl_unaccounted fr). rewrite G6. apply (fo_unacc _ _ _ _ _ Ok). }
    { change (fl_unmapped fr = fl_unmapped f - pt_rcount (fl_tr f x) + pt_rcount t). rewrite F5, G5. clear. lia. }
    { intros d. change (fl_was_rel fr d = fl_was_rel f d - g_was d (fl_tr f x) + g_was d t). rewrite G7. unfold g_was. rewrite F1, F2. clear. lia. }
    assert (Hl : pt_longest (fl_tr g x) <> N).
    { unfold g. cbn [fl_tr set_alloc put_tracker set_tr]. rewrite upd_same. clear - HffF. lia. }
    destruct (fl_add_fields N sub g x Hl) as (A1 & A2 & A3 & A4 & A5 & A6 & A7 & A8 & A9).
    exists (fl_add N sub g x), None. split; [reflexivity|]. cbn [after_put]. split; [assumption|]. split; [reflexivity|].
    rewrite A2, A5, A6, A8, A9. split; [exact G2|]. split; [intros y Hy; rewrite STt; apply upd_other; assumption|].
    split; [exact G8|]. split; [exact G9|]. cbn. rewrite G5, G6. clear. split; lia.
Qed.
