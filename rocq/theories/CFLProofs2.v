(** Lemmas about the locked operations of the central free list. *)
From Coq Require Import Permutation.
From Verif Require Import Base SizeMap SizeMapProofs SizeMapProofs2 Bitmap BitmapProofs Span SpanProofs SpanProofs2 SpanProps
  HintedLists HintedListsProofs CentralFreeList CFLProofs.

Lemma rem_In_iff x y l : NoDup l -> (In y (rem1 x l) <-> In y l /\ y <> x).
Proof.
  intros Hn. destruct (rem1_NoDup x l Hn) as (N1 & N2). split.
  - intros H. split; [apply (rem1_In x); assumption|]. intros ->. contradiction.
  - intros (H & Hne). apply rem1_other; assumption.
Qed.

(** Replacing the live objects of one span. *)
Lemma core_upd c size pages f own pub L id m s l nx ni ut :
  class_ok c size pages -> core c size pages f own pub L -> In id pub ->
  (forall a, ~ (first_page (f_span f id) * page_size c <= a < (first_page (f_span f id) + pages) * page_size c) -> m a = f_mem f a) ->
  span_inv c size pages m s l -> l <> [] -> first_page s = first_page (f_span f id) ->
  placed (objects c size pages) nx ni pub (alen (upd L id l)) ->
  util_ok ut pub (alen (upd L id l)) ->
  forall g, f_mem g = m -> f_span g = upd (f_span f) id s -> f_nidx g = ni -> f_nonempty g = nx -> f_util g = ut ->
  core c size pages g own pub (upd L id l).
Proof.
  intros Hc Co Hid Hm Hs Hl Hfp Hp Hu g <- Eg <- <- <-.
  assert (Hfps : forall x, first_page (f_span g x) = first_page (f_span f x)).
  { intros x. rewrite Eg. unfold upd. destruct (Z.eqb_spec x id) as [->|]; auto. }
  constructor; try apply Co; try assumption.
  - apply (apart_frame pages f); [assumption|apply Co].
  - intros x Hx. rewrite Eg. destruct (Z.eq_dec x id) as [->|Hne].
    + rewrite !upd_same. auto.
    + rewrite !upd_other by assumption. destruct (co_span _ _ _ _ _ _ _ Co x Hx) as (S & N). split; [|assumption].
      apply (span_inv_mem c size pages (f_mem f)); [assumption|assumption|]. intros a Ha. apply Hm. intros Ha'.
      assert (0 < page_size c). { pose proof (g_page _ _ _ (class_geom _ _ _ Hc)). pose proof (g_size _ _ _ (class_geom _ _ _ Hc)). lia. }
      destruct (co_apart _ _ _ _ _ _ _ Co x id Hx (co_incl _ _ _ _ _ _ _ Co _ Hid) Hne); nia.
Qed.

Lemma peek0 t count nidx pub a : placed count t nidx pub a -> (forall id, In id pub -> 1 <= a id <= count) ->
  exists r, hl_peek_least k_num_lists t 0 = Some r /\
  match r with
  | None => forall id, In id pub -> a id = count
  | Some (id, i) => In id pub /\ a id < count /\ i = idxf count (a id)
  end.
Proof.
  intros P Ha. destruct (hl_peek_spec k_num_lists t 0 (pl_ok _ _ _ _ _ P) ltac:(unfold k_num_lists; lia)) as (r & E & Hr).
  exists r. split; [assumption|]. destruct r as [[id i]|].
  - destruct Hr as (Hi & (l & El) & _). apply (pl_in _ _ _ _ _ P); [unfold k_num_lists in Hi; lia|]. rewrite El. left. reflexivity.
  - intros id Hid. specialize (Ha id Hid). destruct (Z.eq_dec (a id) count) as [|Hne]; [assumption|exfalso].
    pose proof (idxf_range count (a id) ltac:(lia)) as Hr'.
    assert (Hin : In id (hl t (idxf count (a id)))) by (apply (pl_in _ _ _ _ _ P); [assumption|]; split; [assumption|split; [lia|reflexivity]]).
    rewrite Hr in Hin; [destruct Hin|unfold k_num_lists; lia].
Qed.

Definition grown (L L' : Z -> list Z) (pub : list Z) : Prop :=
  (forall x, ~ In x pub -> L' x = L x) /\ (forall x p, In p (L x) -> In p (L' x)).

(** What a locked operation leaves alone: the descriptors of other spans ([ids] are the
    ones it may change), the memory outside the spans [ids], and the bytes of the objects
    [L'] that are out afterwards. *)
Definition quiet (c : cfg) (size pages : Z) (f f' : cfl) (ids own' : list Z) (L' : Z -> list Z) : Prop :=
  (forall x, ~ In x ids -> f_span f' x = f_span f x /\ f_nidx f' x = f_nidx f x) /\
  (forall a, (forall x, In x ids -> ~ (first_page (f_span f x) * page_size c <= a < (first_page (f_span f x) + pages) * page_size c)) ->
     f_mem f' a = f_mem f a) /\
  (forall x p a, In x own' -> In p (L' x) -> p <= a < p + size -> f_mem f' a = f_mem f a).

Lemma quiet_refl c size pages f ids own' L' : quiet c size pages f f ids own' L'.
Proof. repeat split; auto. Qed.

Lemma quiet_trans c size pages f g h ids ids' own1 own2 L1 L2 : same_frame f g -> incl ids' ids ->
  quiet c size pages f g ids own1 L1 -> quiet c size pages g h ids' own2 L2 ->
  (forall x p, In x own2 -> In p (L2 x) -> In x own1 /\ In p (L1 x)) ->
  quiet c size pages f h ids own2 L2.
Proof.
  intros (_ & _ & _ & _ & Hfp) Hin (A1 & A2 & A3) (B1 & B2 & B3) HL. split; [|split].
  - intros x Hx. destruct (B1 x) as (-> & ->); [auto|]. auto.
  - intros a Ha. rewrite B2, A2; auto. intros x Hx. rewrite Hfp. auto.
  - intros x p a Hx Hp Ha. destruct (HL x p Hx Hp). rewrite (B3 x p a), (A3 x p a) by assumption. reflexivity.
Qed.

Lemma remove_loop_spec c size pages : class_ok c size pages -> forall fuel f own pub L n,
  core c size pages f own pub L -> 1 <= n <= Z.of_nat fuel ->
  exists l full f' L', remove_loop fuel c size (objects c size pages) f n = Some (l, full, f') /\
    core c size pages f' own pub L' /\ same_frame f f' /\ f_mem f' = f_mem f /\
    Permutation (cat L' own) (l ++ cat L own) /\ Permutation (cat L' pub) (l ++ cat L pub) /\ grown L L' pub /\
    (if full then Z.of_nat (length l) = n
     else Z.of_nat (length l) < n /\ forall id, In id pub -> alen L' id = objects c size pages) /\
    (forall x, ~ In x pub -> f_span f' x = f_span f x /\ f_nidx f' x = f_nidx f x).
Proof.
  intros Hc. induction fuel as [|fuel IH]; intros f own pub L n Co Hn; [lia|].
  pose proof (objects_small _ _ _ Hc) as Hob.
  assert (Hlen : forall id, In id pub -> 1 <= alen L id <= objects c size pages /\ allocated (f_span f id) = alen L id).
  { intros id Hid. destruct (co_span _ _ _ _ _ _ _ Co id (co_incl _ _ _ _ _ _ _ Co _ Hid)) as (S & N).
    apply span_inv_len in S; [|assumption]. apply nonempty_len in N. unfold alen. lia. }
  cbn [remove_loop]. destruct (peek0 _ _ _ _ _ (co_placed _ _ _ _ _ _ _ Co)) as (r & -> & Hr); [intros id Hid; apply Hlen; assumption|].
  cbn [obind]. destruct r as [[id pidx]|].
  2:{ exists [], false, f, L. split; [reflexivity|]. split; [assumption|]. split; [apply same_frame_refl|].
      split; [reflexivity|]. split; [reflexivity|]. split; [reflexivity|]. split; [split; auto|].
      split; [split; [cbn [length]; lia|assumption]|auto]. }
  destruct Hr as (Hid & Ha & Hpidx). destruct (Hlen id Hid) as (Hl & Hal). rewrite Hal.
  replace (alen L id <=? 0) with false by lia.
  destruct (co_span _ _ _ _ _ _ _ Co id (co_incl _ _ _ _ _ _ _ Co _ Hid)) as (S & N).
  destruct (freelist_pop_batch c (f_mem f) (f_span f id) n size) as [l s'] eqn:Ep.
  apply (pop_inv c size pages (f_mem f) (f_span f id) (L id)) in Ep; [|assumption|assumption|lia].
  destruct Ep as (S' & Hfp & Hll). fold (alen L id) in Hll.
  replace (Z.of_nat (length l) <=? 0) with false by lia.
  set (L1 := upd L id (l ++ L id)).
  assert (Ha1 : alen L1 id = alen L id + Z.of_nat (length l)).
  { unfold L1. rewrite alen_upd, upd_same, app_length. unfold alen. lia. }
  assert (Hax : forall x, x <> id -> alen L1 x = alen L x).
  { intros x Hne. unfold L1. rewrite alen_upd, upd_other by assumption. reflexivity. }
  assert (Hcur : u16 (alen L id + Z.of_nat (length l)) = alen L1 id).
  { rewrite Ha1. unfold u16. apply Z.mod_small. lia. }
  rewrite Hcur.
  assert (Hal' : allocated s' = alen L1 id).
  { apply span_inv_len in S'; [|assumption]. unfold L1. rewrite alen_upd, upd_same. apply S'. }
  set (f0 := set_mem_span f (f_mem f) id s').
  change (if negb (bit_width (alen L1 id) =? bit_width (alen L id))
    then record_util (record_util f0 (bit_width (alen L id)) false) (bit_width (alen L1 id)) true else f0)
    with (util_change f0 (alen L id) (alen L1 id)).
  set (f1 := util_change f0 (alen L id) (alen L1 id)).
  destruct (util_change_frame f0 (alen L id) (alen L1 id)) as (R1 & R2 & R3 & R4 & R5 & R6 & R7 & R8). fold f1 in R1, R2, R3, R4, R5, R6, R7, R8.
  assert (U1 : util_ok (f_util f1) pub (alen L1)).
  { apply util_change_ok; [apply Co|apply Co|assumption|assumption]. }
  set (f2 := if freelist_empty s' (objects c size pages) then _ else _).
  assert (Hf2 : core c size pages f2 own pub L1 /\ same_frame f f2 /\ f_mem f2 = f_mem f /\
    forall x, ~ In x pub -> f_span f2 x = f_span f x /\ f_nidx f2 x = f_nidx f x).
  { assert (Hsf : forall x, first_page (upd (f_span f) id s' x) = first_page (f_span f x)).
    { intros x. unfold upd. destruct (Z.eqb_spec x id) as [->|]; auto. }
    assert (Hgo : forall nx ni g, g = MkCfl (f_mem f1) (f_span f1) ni (f_pagemap f1) nx (f_counter f1) (f_requested f1) (f_returned f1) (f_util f1) ->
       placed (objects c size pages) nx ni pub (alen L1) -> (forall x, x <> id -> ni x = f_nidx f x) ->
       core c size pages g own pub L1 /\ same_frame f g /\ f_mem g = f_mem f /\
       forall x, ~ In x pub -> f_span g x = f_span f x /\ f_nidx g x = f_nidx f x).
    { intros nx ni g -> Hp Hni. split; [|split; [|split]].
      - apply (core_upd c size pages f own pub L id (f_mem f) s' (l ++ L id) nx ni (f_util f1)); auto.
        destruct l; [cbn [length] in *; lia|discriminate].
      - unfold same_frame. cbn. rewrite R4, R6, R7, R8, R2. auto.
      - cbn. rewrite R1. reflexivity.
      - intros x Hx. assert (x <> id) by (intros ->; contradiction). cbn [f_span f_nidx]. rewrite R2. cbn [f0 set_mem_span f_span].
        rewrite upd_other by assumption. auto. }
    unfold f2, freelist_empty. rewrite Hal'. destruct (Z.eqb_spec (alen L1 id) (objects c size pages)) as [E|E].
    - apply (Hgo (hl_remove (f_nonempty f1) id pidx) (f_nidx f1)); [reflexivity| |rewrite R3; reflexivity]. rewrite R5, R3. cbn [f_nonempty f_nidx f0 set_mem_span]. rewrite Hpidx.
      apply (placed_remove _ _ _ pub (alen L)); [apply Co|assumption|assumption|lia| |right; lia].
      intros x Hne. split; [tauto|auto].
    - fold (idxf (objects c size pages) (alen L1 id)).
      destruct (Z.eqb_spec (idxf (objects c size pages) (alen L1 id)) pidx) as [Ei|Ei]; cbn [negb].
      + apply (Hgo (f_nonempty f1) (f_nidx f1)); [destruct f1; reflexivity| |rewrite R3; reflexivity]. rewrite R5, R3. cbn [f_nonempty f_nidx f0 set_mem_span].
        apply (placed_ext _ _ _ pub (alen L)); [apply Co|]. intros x i. destruct (Z.eq_dec x id) as [->|Hne].
        * rewrite Ei, Hpidx. split; intros (P & Q & R); (split; [assumption|split; [lia|assumption]]).
        * rewrite Hax by assumption. tauto.
      + apply (Hgo (hl_move (f_nonempty f1) id pidx (idxf (objects c size pages) (alen L1 id))) (upd (f_nidx f1) id (idxf (objects c size pages) (alen L1 id))));
          [reflexivity| |intros x Hne; rewrite upd_other, R3 by assumption; reflexivity]. rewrite R5, R3. cbn [f_nonempty f_nidx f0 set_mem_span]. rewrite Hpidx.
        apply (placed_move _ _ _ pub (alen L)); auto; [apply Co|lia|lia|lia]. }
  destruct Hf2 as (Co2 & Fr2 & Hm2 & Hq2).
  assert (Hcat : forall o, NoDup o -> In id o -> Permutation (cat L1 o) (l ++ cat L o)).
  { intros o Ho Hi. unfold L1. rewrite (cat_upd L o id _ Ho Hi), <- app_assoc, <- (cat_rem L o id Hi). reflexivity. }
  pose proof (Hcat own (co_own _ _ _ _ _ _ _ Co) (co_incl _ _ _ _ _ _ _ Co _ Hid)) as Hcat1.
  pose proof (Hcat pub (co_pub _ _ _ _ _ _ _ Co) Hid) as Hcat2.
  assert (Hgr : grown L L1 pub).
  { split.
    - intros x Hx. unfold L1. apply upd_other. intros ->. contradiction.
    - intros x p Hp. unfold L1. destruct (Z.eq_dec x id) as [->|Hne]; [rewrite upd_same; apply in_or_app; auto|rewrite upd_other; assumption]. }
  destruct (Z.ltb_spec (Z.of_nat (length l)) n) as [Hlt|Hge].
  - destruct (IH f2 own pub L1 (n - Z.of_nat (length l)) Co2 ltac:(lia)) as (l' & full & f' & L' & E & A1 & A2 & A3 & A4 & A5 & A6 & A7 & A8).
    rewrite E. cbn [obind]. exists (l ++ l'), full, f', L'. split; [reflexivity|]. split; [assumption|].
    split; [apply (same_frame_trans f f2); assumption|]. split; [congruence|].
    split; [rewrite A4, Hcat1, !app_assoc; apply Permutation_app_tail, Permutation_app_comm|].
    split; [rewrite A5, Hcat2, !app_assoc; apply Permutation_app_tail, Permutation_app_comm|].
    split; [|split].
    + destruct A6 as (B1 & B2), Hgr as (B3 & B4). split; [intros x Hx; rewrite B1, B3 by assumption; reflexivity|auto].
    + rewrite app_length. destruct full; [lia|]. split; [lia|apply A7].
    + intros x Hx. destruct (A8 x Hx) as (-> & ->). auto.
  - exists l, true, f2, L1. do 7 (split; [assumption || reflexivity|]). split; [lia|assumption].
Qed.

(** *** ReleaseToSpans *)
Lemma release_spec c size pages f own pub L id b rest freed f' : class_ok c size pages ->
  core c size pages f own pub L -> In id pub -> b <> [] -> Permutation (L id) (b ++ rest) ->
  release_to_spans c size (objects c size pages) f (ptrs_to_idx c (f_span f id) size (calc_reciprocal size) b) id = (freed, f') ->
  same_frame f f' /\ quiet c size pages f f' pub own (upd L id rest) /\
  (freed = true <-> rest = []) /\
  (if freed then core c size pages f' (rem1 id own) (rem1 id pub) (upd L id rest)
   else core c size pages f' own pub (upd L id rest)).
Proof.
  intros Hc Co Hid Hb HL E. pose proof (objects_small _ _ _ Hc) as Hob.
  pose proof (co_incl _ _ _ _ _ _ _ Co _ Hid) as Hido.
  destruct (co_span _ _ _ _ _ _ _ Co id Hido) as (S & N).
  pose proof (span_inv_len _ _ _ _ _ _ Hc S) as (Hal & Hmax & _). fold (alen L id) in Hal, Hmax.
  assert (Hpos : 1 <= alen L id) by (apply nonempty_len; assumption).
  assert (Hv : Forall (valid (span_start c (f_span f id)) size (objects c size pages)) b).
  { apply Forall_forall. intros p Hp. apply (span_bounds c size pages (f_mem f) (f_span f id) (L id)); [assumption|assumption|].
    rewrite HL. apply in_or_app. auto. }
  unfold release_to_spans in E.
  assert (Hlb : length (ptrs_to_idx c (f_span f id) size (calc_reciprocal size) b) = length b).
  { unfold ptrs_to_idx. destruct (use_bitmap_for_size c size); apply map_length. }
  rewrite (push_idx_eq c size pages) in E by assumption.
  destruct (freelist_push_batch c (f_mem f) (f_span f id) b size (calc_reciprocal size)) as [[m s'] pushed] eqn:Ep.
  pose proof (push_frame c size pages _ _ _ _ _ _ _ _ Hc S HL Ep) as Hfr.
  pose proof (push_frame_live c size pages _ _ _ _ _ _ _ _ Hc S HL Ep) as Hfl.
  assert (Hpg : 0 < page_size c). { pose proof (g_page _ _ _ (class_geom _ _ _ Hc)). pose proof (g_size _ _ _ (class_geom _ _ _ Hc)). lia. }
  assert (Hq : forall g, f_mem g = m -> f_span g = upd (f_span f) id s' -> (forall x, x <> id -> f_nidx g x = f_nidx f x) ->
    quiet c size pages f g pub own (upd L id rest)).
  { intros g G1 G2 G3. split; [|split].
    - intros x Hx. assert (x <> id) by (intros ->; contradiction). rewrite G2, upd_other by assumption. auto.
    - intros a Ha. rewrite G1. apply Hfr. apply Ha. assumption.
    - intros x p a Hx Hp Ha. rewrite G1. destruct (Z.eq_dec x id) as [->|Hne].
      + rewrite upd_same in Hp. apply (Hfl p); assumption.
      + rewrite upd_other in Hp by assumption. apply Hfr.
        destruct (co_span _ _ _ _ _ _ _ Co x Hx) as (Sx & _). pose proof (span_bounds _ _ _ _ _ _ p Hc Sx Hp) as V.
        apply valid_range in V; [|assumption]. destruct (co_apart _ _ _ _ _ _ _ Co x id Hx Hido Hne); nia. }
  apply (push_inv c size pages (f_mem f) (f_span f id) (L id) b rest) in Ep; try assumption.
  destruct Ep as (E1 & E2 & E3). rewrite Hal in E. unfold freelist_empty in E. rewrite Hal, Hlb in E.
  pose proof (Permutation_length HL) as Hll. rewrite app_length in Hll.
  apply nonempty_len in Hb.
  set (L1 := upd L id rest) in *.
  assert (Ha1 : alen L1 id = alen L id - Z.of_nat (length b)).
  { unfold L1. rewrite alen_upd, upd_same. unfold alen. lia. }
  assert (Hax : forall x, x <> id -> alen L1 x = alen L x).
  { intros x Hne. unfold L1. rewrite alen_upd, upd_other by assumption. reflexivity. }
  set (f0 := set_mem_span f m id s') in *.
  destruct pushed; cbn [negb] in E.
  - destruct (E3 eq_refl) as (S' & Hfp & _).
    assert (Hrest : rest <> []) by (intros ->; destruct E1 as (_ & E1); specialize (E1 eq_refl); discriminate).
    assert (Hcur : u16 (alen L id - Z.of_nat (length b)) = alen L1 id).
    { rewrite Ha1. unfold u16. apply Z.mod_small. unfold alen in *. lia. }
    rewrite Hcur in E.
    change (if negb (bit_width (alen L1 id) =? bit_width (alen L id))
      then record_util (record_util f0 (bit_width (alen L id)) false) (bit_width (alen L1 id)) true else f0)
      with (util_change f0 (alen L id) (alen L1 id)) in E.
    set (f1 := util_change f0 (alen L id) (alen L1 id)) in *.
    destruct (util_change_frame f0 (alen L id) (alen L1 id)) as (R1 & R2 & R3 & R4 & R5 & R6 & R7 & R8). fold f1 in R1, R2, R3, R4, R5, R6, R7, R8.
    assert (U1 : util_ok (f_util f1) pub (alen L1)).
    { apply util_change_ok; [apply Co|apply Co|assumption|assumption]. }
    injection E as <- <-.
    assert (Hsf : forall x, first_page (upd (f_span f) id s' x) = first_page (f_span f x)).
    { intros x. unfold upd. destruct (Z.eqb_spec x id) as [->|]; auto. }
    assert (Hl1 : 1 <= alen L1 id) by (unfold L1; rewrite alen_upd, upd_same; apply nonempty_len; assumption).
    assert (Hgo : forall nx ni g, g = MkCfl (f_mem f1) (f_span f1) ni (f_pagemap f1) nx (f_counter f1) (f_requested f1) (f_returned f1) (f_util f1) ->
       placed (objects c size pages) nx ni pub (alen L1) -> (forall x, x <> id -> ni x = f_nidx f x) ->
       core c size pages g own pub L1 /\ same_frame f g /\ quiet c size pages f g pub own L1).
    { intros nx ni g -> Hp Hni. split; [|split].
      - apply (core_upd c size pages f own pub L id m s' rest nx ni (f_util f1)); auto.
      - unfold same_frame. cbn. rewrite R4, R6, R7, R8, R2. auto.
      - apply Hq; cbn [f_mem f_span f_nidx]; [rewrite R1|rewrite R2|]; auto. }
    assert (Hfin : forall g, core c size pages g own pub L1 /\ same_frame f g /\ quiet c size pages f g pub own L1 ->
       same_frame f g /\ quiet c size pages f g pub own L1 /\ (false = true <-> rest = []) /\ core c size pages g own pub L1).
    { intros g (A & B & D). split; [assumption|]. split; [assumption|]. split; [|assumption]. split; [discriminate|contradiction]. }
    apply Hfin. fold (idxf (objects c size pages) (alen L1 id)).
    destruct (Z.eqb_spec (alen L id) (objects c size pages)) as [Ee|Ee].
    + apply (Hgo (hl_add (f_nonempty f1) id (idxf (objects c size pages) (alen L1 id))) (upd (f_nidx f1) id (idxf (objects c size pages) (alen L1 id))));
        [reflexivity| |intros x Hne; rewrite upd_other, R3 by assumption; reflexivity]. rewrite R5, R3. cbn [f_nonempty f_nidx f0 set_mem_span].
      apply (placed_add _ _ _ pub (alen L)); auto; [apply Co|right; lia|lia|]. intros x Hne. split; [tauto|auto].
    + destruct (Z.eqb_spec (idxf (objects c size pages) (alen L1 id)) (f_nidx f id)) as [Ei|Ei]; cbn [negb];
      rewrite (pl_nidx _ _ _ _ _ (co_placed _ _ _ _ _ _ _ Co) id Hid ltac:(lia)) in *.
      * apply (Hgo (f_nonempty f1) (f_nidx f1)); [destruct f1; reflexivity| |rewrite R3; reflexivity]. rewrite R5, R3. cbn [f_nonempty f_nidx f0 set_mem_span].
        apply (placed_ext _ _ _ pub (alen L)); [apply Co|]. intros x i. destruct (Z.eq_dec x id) as [->|Hne].
        -- rewrite Ei. split; intros (P & Q & R); (split; [assumption|split; [lia|assumption]]).
        -- rewrite Hax by assumption. tauto.
      * apply (Hgo (hl_move (f_nonempty f1) id (idxf (objects c size pages) (alen L id)) (idxf (objects c size pages) (alen L1 id))) (upd (f_nidx f1) id (idxf (objects c size pages) (alen L1 id))));
        [reflexivity| |intros x Hne; rewrite upd_other, R3 by assumption; reflexivity]. rewrite R5, R3. cbn [f_nonempty f_nidx f0 set_mem_span].
        apply (placed_move _ _ _ pub (alen L)); auto; [apply Co|lia|lia].
  - destruct (E2 eq_refl) as (-> & ->). assert (Hr : rest = []) by (apply E1; reflexivity).
    assert (Hgo : forall nx g, g = MkCfl (f_mem f0) (f_span f0) (f_nidx f0) (f_pagemap f0) nx (f_counter f0) (f_requested f0) (f_returned f0)
         (upd (f_util f0) (bit_width (alen L id) - 1) (f_util f0 (bit_width (alen L id) - 1) + -1)) ->
       placed (objects c size pages) nx (f_nidx f0) (rem1 id pub) (alen L1) ->
       same_frame f g /\ quiet c size pages f g pub own L1 /\ (true = true <-> rest = []) /\ core c size pages g (rem1 id own) (rem1 id pub) L1).
    { intros nx g -> Hp.
      assert (Hsf : forall x, first_page (upd (f_span f) id (f_span f id) x) = first_page (f_span f x)).
      { intros x. unfold upd. destruct (Z.eqb_spec x id) as [->|]; auto. }
      split; [unfold same_frame; cbn; auto|]. split; [apply Hq; reflexivity || auto|]. split; [tauto|]. constructor; cbn [f_mem f_span f_nonempty f_nidx f_util].
      - apply rem1_NoDup. apply Co.
      - apply rem1_NoDup. apply Co.
      - intros x Hx. apply rem_In_iff in Hx; [|apply Co]. apply rem_In_iff; [apply Co|]. split; [apply Co; tauto|tauto].
      - intros x y Hx Hy. cbn [f0 set_mem_span f_span]. rewrite !Hsf. apply Co; apply (rem1_In id); assumption.
      - intros x Hx. apply rem_In_iff in Hx; [|apply Co]. destruct Hx as (Hx & Hne).
        cbn [f0 set_mem_span f_span f_mem]. unfold L1. rewrite !upd_other by assumption. apply Co. assumption.
      - assumption.
      - apply util_sub; [apply Co|apply Co|assumption|assumption]. }
    assert (Hrm : forall x, x <> id -> (In x (rem1 id pub) <-> In x pub) /\ alen L1 x = alen L x).
    { intros x Hne. split; [rewrite rem_In_iff by apply Co; tauto|auto]. }
    assert (Hnot : ~ In id (rem1 id pub)) by (apply rem1_NoDup; apply Co).
    destruct (Z.eqb_spec (alen L id) (objects c size pages)) as [Ee|Ee]; cbn [negb] in E; injection E as <- <-.
    + apply (Hgo (f_nonempty f0)); [reflexivity|]. cbn [f_nonempty f_nidx f0 set_mem_span].
      apply (placed_ext _ _ _ pub (alen L)); [apply Co|]. intros x i. destruct (Z.eq_dec x id) as [->|Hne].
      * split; [lia|tauto].
      * destruct (Hrm x Hne) as (-> & ->). tauto.
    + eapply Hgo; [reflexivity|]. cbn [f_nonempty f_nidx f0 set_mem_span record_util set_util].
      rewrite (pl_nidx _ _ _ _ _ (co_placed _ _ _ _ _ _ _ Co) id Hid ltac:(lia)) in *.
      apply (placed_remove _ _ _ pub (alen L)); auto; [apply Co|lia].
Qed.
