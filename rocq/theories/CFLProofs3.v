(** Lemmas about InsertRange and Populate. *)
From Coq Require Import Permutation.
From Verif Require Import Base SizeMap SizeMapProofs SizeMapProofs2 Bitmap BitmapProofs Span SpanProofs SpanProofs2 SpanProps
  HintedLists HintedListsProofs CentralFreeList CFLProofs CFLProofs2.

(** [runs] splits [i, n) into runs of equal spans. *)
Inductive good_runs (n : Z) (spans runs : Z -> Z) : Z -> Prop :=
| gr_end : good_runs n spans runs n
| gr_step i : i < n -> 1 <= runs i -> i + runs i <= n ->
    (forall j, i <= j < i + runs i -> spans j = spans i) ->
    good_runs n spans runs (i + runs i) -> good_runs n spans runs i.

Lemma good_runs_ext n spans spans' runs runs' i : good_runs n spans runs i ->
  (forall j, i <= j < n -> spans' j = spans j) -> (forall j, i <= j < n -> runs' j = runs j) -> good_runs n spans' runs' i.
Proof.
  induction 1 as [|i H1 H2 H3 H4 H5 IH]; intros Hs Hr; [constructor|].
  apply gr_step; rewrite ?(Hr i) by lia; auto.
  - intros j Hj. rewrite !Hs by lia. auto.
  - apply IH; intros; [apply Hs|apply Hr]; lia.
Qed.

Lemma same_span_spec n spans : forall fuel runs i rs,
  0 <= rs -> rs < i <= n -> n - i < Z.of_nat fuel ->
  (forall j, rs <= j < i -> spans j = spans rs) ->
  let runs' := same_span_loop fuel n spans runs i rs (spans rs) in
  good_runs n spans runs' rs /\ (forall j, j < rs -> runs' j = runs j).
Proof.
  induction fuel as [|fuel IH]; intros runs i rs H0 H1 H2 H3; [lia|]. cbn [same_span_loop].
  destruct (Z.ltb_spec i n) as [Hi|Hi].
  - destruct (Z.eqb_spec (spans rs) (spans i)) as [E|E].
    + apply IH; [lia|lia|lia|]. intros j Hj. destruct (Z.eq_dec j i) as [->|]; [auto|apply H3; lia].
    + destruct (IH (upd runs rs (i - rs)) (i + 1) i ltac:(lia) ltac:(lia) ltac:(lia)) as (A & B).
      { intros j Hj. replace j with i by lia. reflexivity. }
      cbv zeta. set (r' := same_span_loop _ _ _ _ _ _ _) in *.
      assert (Er : r' rs = i - rs) by (rewrite B by lia; apply upd_same).
      split.
      * apply gr_step; rewrite ?Er; [lia|lia|lia| |].
        -- intros j Hj. apply H3. lia.
        -- replace (rs + (i - rs)) with i by lia. assumption.
      * intros j Hj. rewrite B by lia. apply upd_other. lia.
  - cbv zeta. assert (i = n) by lia. subst i. split.
    + apply gr_step; rewrite ?upd_same; [lia|lia|lia| |].
      * intros j Hj. apply H3. lia.
      * replace (rs + (n - rs)) with n by lia. constructor.
    + intros j Hj. apply upd_other. lia.
Qed.

Lemma runs_ok n spans runs0 : 1 <= n -> good_runs n spans (record_same_span_runs n spans runs0) 0.
Proof.
  intros Hn. unfold record_same_span_runs. apply (same_span_spec n spans (Z.to_nat n) runs0 1 0); [lia|lia|lia|].
  intros j Hj. replace j with 0 by lia. reflexivity.
Qed.

Lemma sub_perm (b l : list Z) : NoDup b -> incl b l -> exists rest, Permutation l (b ++ rest).
Proof.
  revert l. induction b as [|x b IH]; intros l Hn Hi; [exists l; reflexivity|].
  inversion Hn as [|? ? Hx Hn']; subst.
  destruct (IH (rem1 x l)) as (rest & P); [assumption| |].
  - intros y Hy. apply rem1_other; [intros ->; contradiction|]. apply Hi. right. assumption.
  - exists rest. rewrite (rem1_perm x l) by (apply Hi; left; reflexivity). cbn [app]. constructor. assumption.
Qed.

(** The index InsertRange computes for an object [p] of a span starting at page [fp]. *)
Definition obj_idx (c : cfg) (size fp p : Z) : Z :=
  if use_bitmap_for_size c size then bitmap_ptr_to_idx (fp * page_size c) p (calc_reciprocal size) else ptr_to_idx c p.

Lemma insert_loop_spec c size pages n batch idx runs : class_ok c size pages ->
  forall fuel f own pub L i fc spans,
  core c size pages f own pub L -> 0 <= fc <= i -> i <= n -> n - i <= Z.of_nat fuel ->
  good_runs n spans runs i ->
  (forall j, i <= j < n -> In (spans j) pub /\ In (batch j) (L (spans j)) /\
     idx j = obj_idx c size (first_page (f_span f (spans j))) (batch j)) ->
  NoDup (map batch (zseq i (Z.to_nat (n - i)))) ->
  let objs := map batch (zseq i (Z.to_nat (n - i))) in
  exists fc' spans' f' own' pub' L',
    insert_loop fuel c size (objects c size pages) n idx runs i fc spans f = Some (fc', spans', f') /\
    core c size pages f' own' pub' L' /\ same_frame f f' /\ fc <= fc' /\ fc' <= fc + (n - i) /\
    (forall j, j < fc -> spans' j = spans j) /\
    Permutation own (map spans' (zseq fc (Z.to_nat (fc' - fc))) ++ own') /\
    Permutation pub (map spans' (zseq fc (Z.to_nat (fc' - fc))) ++ pub') /\
    Permutation (cat L own) (objs ++ cat L' own') /\ Permutation (cat L pub) (objs ++ cat L' pub') /\
    (forall x, ~ In x pub -> L' x = L x) /\
    (forall x p, In p (L x) -> In p (L' x) \/ In p objs) /\
    (forall x, In x (map spans' (zseq fc (Z.to_nat (fc' - fc)))) -> L' x = []) /\
    (forall x p, In p (L' x) -> In p (L x)) /\ quiet c size pages f f' pub own' L'.
Proof.
  intros Hc. induction fuel as [|fuel IH]; intros f own pub L i fc spans Co Hfc Hin Hfuel Hg Hj Hnd objs.
  { assert (i = n) by lia. subst i. exists fc, spans, f, own, pub, L. unfold objs. replace (n - n) with 0 in * by lia. replace (fc - fc) with 0 by lia.
    split; [reflexivity|]. split; [assumption|]. split; [apply same_frame_refl|]. split; [lia|]. split; [lia|].
    split; [auto|]. do 4 (split; [reflexivity|]). split; [auto|]. split; [auto|]. split; [intros x []|]. split; [auto|]. apply quiet_refl. }
  cbn [insert_loop]. destruct (Z.ltb_spec i n) as [Hi|Hi].
  2:{ assert (i = n) by lia. subst i. exists fc, spans, f, own, pub, L. unfold objs. replace (n - n) with 0 in * by lia. replace (fc - fc) with 0 by lia.
    split; [reflexivity|]. split; [assumption|]. split; [apply same_frame_refl|]. split; [lia|]. split; [lia|].
    split; [auto|]. do 4 (split; [reflexivity|]). split; [auto|]. split; [auto|]. split; [intros x []|]. split; [auto|]. apply quiet_refl. }
  inversion Hg as [|? G1 G2 G3 G4 G5]; subst; [lia|].
  replace (runs i <=? 0) with false by lia.
  set (id := spans i) in *. set (b := map batch (zseq i (Z.to_nat (runs i)))).
  destruct (Hj i ltac:(lia)) as (Hid & _ & _). fold id in Hid.
  assert (Hsplit : objs = b ++ map batch (zseq (i + runs i) (Z.to_nat (n - (i + runs i))))).
  { unfold objs, b. replace (Z.to_nat (n - i)) with (Z.to_nat (runs i) + Z.to_nat (n - (i + runs i)))%nat by lia.
    rewrite zseq_app, map_app. do 3 f_equal. lia. }
  set (objs' := map batch (zseq (i + runs i) (Z.to_nat (n - (i + runs i))))) in *.
  fold objs in Hnd. rewrite Hsplit in Hnd. apply NoDup_app_elim in Hnd. destruct Hnd as (Nb & No & Nbo).
  assert (Hidx : map idx (zseq i (Z.to_nat (runs i))) = ptrs_to_idx c (f_span f id) size (calc_reciprocal size) b).
  { unfold b, ptrs_to_idx. transitivity (map (fun j => obj_idx c size (first_page (f_span f id)) (batch j)) (zseq i (Z.to_nat (runs i)))).
    - apply map_ext_in. intros j Hjj. apply zseq_In in Hjj. destruct (Hj j ltac:(lia)) as (_ & _ & ->). rewrite G4 by lia. reflexivity.
    - unfold obj_idx. destruct (use_bitmap_for_size c size); rewrite map_map; reflexivity. }
  rewrite Hidx.
  assert (Hbl : incl b (L id)).
  { intros p Hp. unfold b in Hp. apply in_map_iff in Hp. destruct Hp as (j & <- & Hjj). apply zseq_In in Hjj.
    destruct (Hj j ltac:(lia)) as (_ & Hp & _). rewrite G4 in Hp by lia. exact Hp. }
  destruct (sub_perm b (L id) Nb Hbl) as (rest & HP).
  destruct (release_to_spans c size (objects c size pages) f (ptrs_to_idx c (f_span f id) size (calc_reciprocal size) b) id) as [freed f1] eqn:Er.
  assert (Hbne : b <> []).
  { unfold b. destruct (Z.to_nat (runs i)) eqn:?; [lia|discriminate]. }
  apply (release_spec c size pages f own pub L id b rest) in Er; try assumption.
  destruct Er as (Fr1 & Q1 & Hfr & Co1).
  set (L1 := upd L id rest) in *.
  pose proof (co_incl _ _ _ _ _ _ _ Co _ Hid) as Hido.
  assert (Hcat : forall o, NoDup o -> In id o -> Permutation (cat L o) (b ++ cat L1 o)).
  { intros o Ho Hi'. unfold L1. rewrite (cat_upd L o id _ Ho Hi'), (cat_rem L o id Hi'), HP, <- app_assoc. reflexivity. }
  assert (Hrest : forall x p, In p (L x) -> In p (L1 x) \/ In p b).
  { intros x p Hp. unfold L1. destruct (Z.eq_dec x id) as [->|Hne]; [|rewrite upd_other by assumption; auto].
    rewrite upd_same. rewrite HP in Hp. apply in_app_or in Hp. tauto. }
  assert (Hback : forall x p, In p (L1 x) -> In p (L x)).
  { intros x p Hp. unfold L1 in Hp. destruct (Z.eq_dec x id) as [->|Hne]; [|rewrite upd_other in Hp; assumption].
    rewrite upd_same in Hp. rewrite HP. apply in_or_app. auto. }
  assert (HL1 : forall x, ~ In x pub -> L1 x = L x).
  { intros x Hx. unfold L1. apply upd_other. intros ->. contradiction. }
  assert (Hnext : forall spans1, (forall j, i + runs i <= j < n -> spans1 j = spans j) ->
    forall j, i + runs i <= j < n -> In (batch j) (L1 (spans1 j)) /\ In (spans1 j) pub /\ (freed = true -> spans1 j <> id) /\
     idx j = obj_idx c size (first_page (f_span f1 (spans1 j))) (batch j)).
  { intros spans1 Hs j Hjj. rewrite Hs by assumption. destruct (Hj j ltac:(lia)) as (J1 & J2 & J3).
    assert (J4 : In (batch j) (L1 (spans j))).
    { destruct (Hrest _ _ J2) as [H|H]; [assumption|]. exfalso. apply (Nbo _ H). unfold objs'. apply in_map. apply zseq_In. lia. }
    split; [assumption|]. split; [assumption|]. split.
    - intros Hf E. rewrite E in J4. unfold L1 in J4. rewrite upd_same in J4. apply Hfr in Hf. subst rest. destruct J4.
    - destruct Fr1 as (_ & _ & _ & _ & Hp). rewrite Hp. assumption. }
  destruct freed.
  - set (spans1 := upd spans fc id).
    assert (Hs1 : forall j, i + runs i <= j < n -> spans1 j = spans j) by (intros j Hjj; apply upd_other; lia).
    assert (Hr0 : rest = []) by (apply Hfr; reflexivity). subst rest.
    destruct (IH f1 (rem1 id own) (rem1 id pub) L1 (i + runs i) (fc + 1) spans1 Co1 ltac:(lia) ltac:(lia) ltac:(lia))
      as (fc' & spans' & f' & own' & pub' & L' & E & A1 & A2 & A3 & A4 & A5 & A6 & A7 & A8 & A9 & A10 & A11 & A12 & A13 & A14).
    + apply (good_runs_ext n spans spans1 runs runs); auto.
    + intros j Hjj. destruct (Hnext spans1 Hs1 j Hjj) as (J1 & J2 & J3 & J4). split; [|auto].
      apply rem_In_iff; [apply Co|]. auto.
    + exact No.
    + cbv zeta in *. fold objs' in A8, A9, A11.
      exists fc', spans', f', own', pub', L'. split; [exact E|]. split; [assumption|].
      split; [apply (same_frame_trans f f1); assumption|]. split; [lia|]. split; [lia|].
      assert (Hz : map spans' (zseq fc (Z.to_nat (fc' - fc))) = id :: map spans' (zseq (fc + 1) (Z.to_nat (fc' - (fc + 1))))).
      { replace (Z.to_nat (fc' - fc)) with (S (Z.to_nat (fc' - (fc + 1)))) by lia. cbn [zseq map]. f_equal.
        rewrite A5 by lia. unfold spans1. apply upd_same. }
      rewrite Hz. split; [intros j Hjj; rewrite A5 by lia; apply upd_other; lia|].
      split; [cbn [app]; rewrite <- A6; apply rem1_perm; assumption|].
      split; [cbn [app]; rewrite <- A7; apply rem1_perm; assumption|].
      assert (Hrm : forall o, NoDup o -> In id o -> Permutation (cat L1 o) (cat L1 (rem1 id o))).
      { intros o Ho Hi'. rewrite (cat_rem L1 o id Hi'). unfold L1 at 1. rewrite upd_same. reflexivity. }
      split; [rewrite (Hcat own), (Hrm own), A8, app_assoc, <- Hsplit by (assumption || apply Co); reflexivity|].
      split; [rewrite (Hcat pub), (Hrm pub), A9, app_assoc, <- Hsplit by (assumption || apply Co); reflexivity|].
      assert (Hsub : forall x p, In x own' -> In p (L' x) -> In x own /\ In p (L1 x)).
      { intros x p Hx Hp. assert (Hxo : In x (rem1 id own)) by (rewrite A6; apply in_or_app; auto).
        split; [apply (rem1_In id); assumption|]. auto. }
      split; [|split; [|split; [|split]]].
      * intros x Hx. rewrite A10, HL1; [reflexivity|assumption|]. intros Hx'. apply rem1_In in Hx'. contradiction.
      * intros x p Hp. rewrite Hsplit, in_app_iff. destruct (Hrest x p Hp) as [H|H]; [|auto]. destruct (A11 x p H); auto.
      * intros x [<-|Hx]; [|auto]. rewrite A10 by (apply rem1_NoDup; apply Co). unfold L1. apply upd_same.
      * auto.
      * apply (quiet_trans c size pages f f1 f' pub (rem1 id pub) own own' L1 L'); auto. intros x Hx. apply (rem1_In id). assumption.
  - destruct (IH f1 own pub L1 (i + runs i) fc spans Co1 ltac:(lia) ltac:(lia) ltac:(lia))
      as (fc' & spans' & f' & own' & pub' & L' & E & A1 & A2 & A3 & A4 & A5 & A6 & A7 & A8 & A9 & A10 & A11 & A12 & A13 & A14).
    + apply (good_runs_ext n spans spans runs runs); auto.
    + intros j Hjj. destruct (Hnext spans ltac:(auto) j Hjj) as (J1 & J2 & J3 & J4). auto.
    + exact No.
    + cbv zeta in *. fold objs' in A8, A9, A11.
      exists fc', spans', f', own', pub', L'. split; [exact E|]. split; [assumption|].
      split; [apply (same_frame_trans f f1); assumption|]. split; [lia|]. split; [lia|]. split; [assumption|].
      split; [assumption|]. split; [assumption|].
      split; [rewrite (Hcat own), A8, app_assoc, <- Hsplit by (assumption || apply Co); reflexivity|].
      split; [rewrite (Hcat pub), A9, app_assoc, <- Hsplit by (assumption || apply Co); reflexivity|].
      split; [intros x Hx; rewrite A10, HL1 by assumption; reflexivity|]. split; [|split; [assumption|split; [auto|]]].
      2:{ apply (quiet_trans c size pages f f1 f' pub pub own own' L1 L'); auto; [intros x; auto|].
          intros x p Hx Hp. split; [rewrite A6; apply in_or_app; auto|]. auto. }
      intros x p Hp. rewrite Hsplit, in_app_iff. destruct (Hrest x p Hp) as [H|H]; [|auto]. destruct (A11 x p H); auto.
Qed.

(** *** Populate *)
Lemma populate_spec c size pages f own pub L id : class_ok c size pages -> core c size pages f own pub L ->
  In id own -> ~ In id pub ->
  let f' := populate_locked (objects c size pages) f id (alen L id) in
  core c size pages f' own (id :: pub) L /\ f_pagemap f' = f_pagemap f /\ f_mem f' = f_mem f /\ f_span f' = f_span f /\
  f_counter f' = f_counter f + objects c size pages /\ f_requested f' = f_requested f + 1 /\ f_returned f' = f_returned f.
Proof.
  intros Hc Co Hid Hnp. cbv zeta. pose proof (objects_small _ _ _ Hc) as Hob.
  destruct (co_span _ _ _ _ _ _ _ Co id Hid) as (S & N).
  pose proof (span_inv_len _ _ _ _ _ _ Hc S) as (Hal & Hmax & _). fold (alen L id) in Hal, Hmax.
  assert (Hpos : 1 <= alen L id) by (apply nonempty_len; assumption).
  unfold populate_locked. replace (u16 (alen L id)) with (alen L id) by (unfold u16; rewrite Z.mod_small; lia).
  fold (idxf (objects c size pages) (alen L id)).
  assert (Hu : util_ok (upd (f_util f) (bit_width (alen L id) - 1) (f_util f (bit_width (alen L id) - 1) + 1)) (id :: pub) (alen L)).
  { apply util_add with (alen L); auto. apply Co. }
  assert (Hgo : forall g, f_mem g = f_mem f -> f_span g = f_span f ->
    f_util g = upd (f_util f) (bit_width (alen L id) - 1) (f_util f (bit_width (alen L id) - 1) + 1) ->
    placed (objects c size pages) (f_nonempty g) (f_nidx g) (id :: pub) (alen L) -> core c size pages g own (id :: pub) L).
  { intros g G1 G2 G3 Hp. constructor.
    - apply Co.
    - constructor; [assumption|apply Co].
    - intros x [<-|Hx]; [assumption|]. apply (co_incl _ _ _ _ _ _ _ Co). assumption.
    - apply (apart_frame pages f); [rewrite G2; reflexivity|apply Co].
    - rewrite G1, G2. apply Co.
    - assumption.
    - rewrite G3. assumption. }
  destruct (Z.eqb_spec (alen L id) (objects c size pages)) as [E|E]; cbn [negb].
  - split; [|cbn; auto 10]. apply Hgo; try reflexivity. cbn [f_nonempty f_nidx record_span_allocated set_counts record_util set_util].
    apply (placed_ext _ _ _ pub (alen L)); [apply Co|]. intros x i. destruct (Z.eq_dec x id) as [->|Hne]; [lia|].
    cbn [In]. split; intros (P & Q); (split; [|assumption]); [auto|destruct P; congruence].
  - split; [|cbn; auto 10]. apply Hgo; try reflexivity. cbn [f_nonempty f_nidx record_span_allocated set_counts record_util set_util set_nidx set_nonempty].
    apply (placed_add _ _ _ pub (alen L)); [apply Co|auto|left; reflexivity|lia|lia|].
    intros x Hne. split; [|reflexivity]. cbn [In]. split; [intros [?|?]; [congruence|assumption]|auto].
Qed.

(** A fresh span. *)
Lemma fresh_spec c size pages f own pub L id s0 n l m s : class_ok c size pages -> core c size pages f own pub L ->
  ~ In id own -> 1 <= n ->
  (forall x, In x own -> first_page (f_span f x) + pages <= first_page s0 \/ first_page s0 + pages <= first_page (f_span f x)) ->
  build_freelist c (f_mem f) s0 size (objects c size pages) n = (l, m, s) ->
  core c size pages (set_mem_span (register f pages id s0) m id s) (id :: own) pub (upd L id l) /\ l <> [] /\
  Z.of_nat (length l) = Z.min n (objects c size pages) /\ first_page s = first_page s0.
Proof.
  intros Hc Co Hid Hn Hap E. pose proof (objects_small _ _ _ Hc) as Hob.
  apply (build_frame c size pages) in E; [|assumption|lia]. destruct E as (S & Hfp & Hl & Hm).
  assert (Hne : l <> []) by (intros ->; cbn [length] in Hl; lia).
  split; [|auto].
  assert (Hpg : 0 < page_size c). { pose proof (g_page _ _ _ (class_geom _ _ _ Hc)). pose proof (g_size _ _ _ (class_geom _ _ _ Hc)). lia. }
  assert (Hx : forall x, In x own -> upd L id l x = L x) by (intros x Hx; apply upd_other; intros ->; contradiction).
  assert (Ha : forall x, In x pub -> alen (upd L id l) x = alen L x).
  { intros x Hxp. unfold alen. rewrite Hx; [reflexivity|]. apply Co. assumption. }
  constructor; cbn [f_mem f_span f_nonempty f_nidx f_util set_mem_span register].
  - constructor; [assumption|apply Co].
  - apply Co.
  - intros x Hxp. right. apply Co. assumption.
  - assert (Ho : forall x, In x own -> upd (upd (f_span f) id s0) id s x = f_span f x).
    { intros x Hxo. assert (x <> id) by (intros ->; contradiction). rewrite !upd_other by assumption. reflexivity. }
    intros x y [<-|Hxo] [<-|Hyo] Hxy; cbn [f_span set_mem_span register]; [congruence| | |]; rewrite ?upd_same, ?Ho, ?Hfp by assumption.
    + destruct (Hap y Hyo); auto.
    + apply Hap. assumption.
    + apply (co_apart _ _ _ _ _ _ _ Co); assumption.
  - intros x [<-|Hxo]; [rewrite !upd_same; auto|].
    assert (x <> id) by (intros ->; contradiction). rewrite !upd_other by assumption.
    destruct (co_span _ _ _ _ _ _ _ Co x Hxo) as (Sx & Nx). split; [|assumption].
    apply (span_inv_mem c size pages (f_mem f)); [assumption|assumption|]. intros a Hra. apply Hm. destruct (Hap x Hxo); nia.
  - apply (placed_ext _ _ _ pub (alen L)); [apply Co|]. intros x i. split; intros (P & Q & R); rewrite Ha in * by assumption; auto.
  - intros b. rewrite (co_util _ _ _ _ _ _ _ Co b). apply cnt_ext. intros x Hxp. rewrite Ha by assumption. reflexivity.
Qed.

(** Preparing an insertion. *)
Lemma map_objects_spec c f : forall batch spans, map_objects_to_spans c f batch = Some spans ->
  length spans = length batch /\
  forall i, (i < length batch)%nat -> f_pagemap f (nth i batch 0 / page_size c) = Some (nth i spans 0).
Proof.
  induction batch as [|p batch IH]; intros spans E; cbn [map_objects_to_spans fold_right] in E.
  - injection E as <-. split; [reflexivity|]. cbn. lia.
  - fold (map_objects_to_spans c f batch) in E. destruct (map_objects_to_spans c f batch) as [r|]; [|discriminate]. cbn [obind] in E.
    destruct (f_pagemap f (p / page_size c)) as [id|] eqn:Ei; [|discriminate]. injection E as <-.
    destruct (IH r eq_refl) as (A & B). split; [cbn [length]; lia|]. intros [|i] Hi; [exact Ei|]. cbn [nth length] in *. apply B. lia.
Qed.

Lemma map_objects_some c f batch : (forall p, In p batch -> f_pagemap f (p / page_size c) <> None) ->
  exists spans, map_objects_to_spans c f batch = Some spans.
Proof.
  induction batch as [|p batch IH]; intros H; [exists []; reflexivity|].
  destruct IH as (r & E); [intros; apply H; right; assumption|]. cbn [map_objects_to_spans fold_right].
  fold (map_objects_to_spans c f batch). rewrite E. cbn [obind]. destruct (f_pagemap f (p / page_size c)) as [id|] eqn:Ei.
  - cbn [obind]. eauto.
  - exfalso. apply (H p (or_introl eq_refl) Ei).
Qed.

Lemma map_arr l : map (arr l) (zseq 0 (length l)) = l.
Proof.
  induction l as [|x l IH]; [reflexivity|]. cbn [length zseq map]. f_equal.
  transitivity (map (arr l) (zseq 0 (length l))); [|exact IH].
  replace (zseq (0 + 1) (length l)) with (map (fun x => x + 1) (zseq 0 (length l))) by apply zseq_map_shift.
  rewrite map_map. apply map_ext_in.
  intros i Hi. apply zseq_In in Hi. unfold arr. replace (Z.to_nat (i + 1)) with (S (Z.to_nat i)) by lia. reflexivity.
Qed.
