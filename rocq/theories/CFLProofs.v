(** Lemmas about the central free list. *)
From Coq Require Import Permutation.
From Verif Require Import Base SizeMap SizeMapProofs SizeMapProofs2 Bitmap BitmapProofs Span SpanProofs SpanProofs2 SpanProps
  HintedLists HintedListsProofs CentralFreeList.

Definition idxf (count a : Z) : Z := index_for count a (bit_width a).

Lemma bit_width_pos a : 1 <= a -> 1 <= bit_width a.
Proof. intros H. unfold bit_width. replace (a =? 0) with false by lia. pose proof (Z.log2_nonneg a). lia. Qed.

Lemma idxf_range count a : 1 <= a -> 0 <= idxf count a < 8.
Proof.
  intros H. pose proof (bit_width_pos a H). unfold idxf, index_for, k_num_lists.
  destruct (count <=? 2 * 8); [destruct (a <=? 8) eqn:?|]; lia.
Qed.

(** Which spans are on which list. *)
Record placed (count : Z) (t : hlists) (nidx : Z -> Z) (pub : list Z) (a : Z -> Z) : Prop := {
  pl_ok : hl_ok k_num_lists t;
  pl_nd : forall i, 0 <= i < 8 -> NoDup (hl t i);
  pl_in : forall i id, 0 <= i < 8 -> (In id (hl t i) <-> In id pub /\ a id < count /\ i = idxf count (a id));
  pl_nidx : forall id, In id pub -> a id < count -> nidx id = idxf count (a id)
}.

Lemma placed_ext count t nidx pub a pub' a' : placed count t nidx pub a ->
  (forall x i, (In x pub /\ a x < count /\ i = idxf count (a x)) <-> (In x pub' /\ a' x < count /\ i = idxf count (a' x))) ->
  placed count t nidx pub' a'.
Proof.
  intros [A B C D] H. constructor; auto.
  - intros i id Hi. rewrite C by assumption. apply H.
  - intros id H1 H2. destruct (H id (idxf count (a' id))) as (_ & H3). destruct H3 as (P & Q & ->); auto.
Qed.

Lemma placed_remove count t nidx pub a pub' a' id : placed count t nidx pub a ->
  In id pub -> a id < count -> 1 <= a id ->
  (forall x, x <> id -> (In x pub' <-> In x pub) /\ a' x = a x) ->
  (~ In id pub' \/ count <= a' id) ->
  placed count (hl_remove t id (idxf count (a id))) nidx pub' a'.
Proof.
  intros [A B C D] H1 H2 H3 Hx Hid. pose proof (idxf_range count (a id) H3) as Hr.
  assert (Hin : In id (hl t (idxf count (a id)))) by (apply C; auto).
  destruct (hl_remove_ok k_num_lists t id (idxf count (a id)) A ltac:(unfold k_num_lists; lia) Hin) as (A' & _).
  constructor; [assumption| | |].
  - intros i Hi. cbn [hl hl_remove hl_set_size hl_unlink]. destruct (Z.eq_dec i (idxf count (a id))) as [->|Hne].
    + rewrite upd_same. apply rem1_NoDup. auto.
    + rewrite upd_other by assumption. auto.
  - intros i x Hi. cbn [hl hl_remove hl_set_size hl_unlink]. destruct (Z.eq_dec x id) as [->|Hne].
    + split; [|intros (P & Q & _); destruct Hid; [contradiction|lia]].
      destruct (Z.eq_dec i (idxf count (a id))) as [->|Hne].
      * rewrite upd_same. intros Hc. exfalso. revert Hc. apply rem1_NoDup. auto.
      * rewrite upd_other by assumption. rewrite C by assumption. intros (_ & _ & E). congruence.
    + destruct (Hx x Hne) as (E1 & E2). rewrite E1, E2, <- C by assumption.
      destruct (Z.eq_dec i (idxf count (a id))) as [->|Hni].
      * rewrite upd_same. split; [apply rem1_In|apply rem1_other; assumption].
      * rewrite upd_other by assumption. reflexivity.
  - intros x P Q. destruct (Z.eq_dec x id) as [->|Hne]; [destruct Hid; [contradiction|lia]|].
    destruct (Hx x Hne) as (E1 & E2). rewrite E2 in *. apply D; tauto.
Qed.

Lemma placed_add count t nidx pub a pub' a' id : placed count t nidx pub a ->
  (~ In id pub \/ count <= a id) ->
  In id pub' -> a' id < count -> 1 <= a' id ->
  (forall x, x <> id -> (In x pub' <-> In x pub) /\ a' x = a x) ->
  placed count (hl_add t id (idxf count (a' id))) (upd nidx id (idxf count (a' id))) pub' a'.
Proof.
  intros [A B C D] Hid H1 H2 H3 Hx. pose proof (idxf_range count (a' id) H3) as Hr.
  destruct (hl_add_ok k_num_lists t id (idxf count (a' id)) A ltac:(unfold k_num_lists; lia)) as (A' & _).
  assert (Hnot : forall i, 0 <= i < 8 -> ~ In id (hl t i)).
  { intros i Hi. rewrite C by assumption. intros (P & Q & _). destruct Hid; [contradiction|lia]. }
  constructor; [assumption| | |].
  - intros i Hi. cbn [hl hl_add]. destruct (Z.eq_dec i (idxf count (a' id))) as [->|Hne].
    + rewrite upd_same. constructor; auto.
    + rewrite upd_other by assumption. auto.
  - intros i x Hi. cbn [hl hl_add]. destruct (Z.eq_dec x id) as [->|Hne].
    + destruct (Z.eq_dec i (idxf count (a' id))) as [->|Hne].
      * rewrite upd_same. split; [auto|left; reflexivity].
      * rewrite upd_other by assumption. split; [intros Hc; exfalso; apply (Hnot i Hi Hc)|intros (_ & _ & E); congruence].
    + destruct (Hx x Hne) as (E1 & E2). rewrite E1, E2, <- C by assumption.
      destruct (Z.eq_dec i (idxf count (a' id))) as [->|Hni].
      * rewrite upd_same. split; [intros [E|E]; [congruence|assumption]|right; assumption].
      * rewrite upd_other by assumption. reflexivity.
  - intros x P Q. destruct (Z.eq_dec x id) as [->|Hne]; [apply upd_same|].
    destruct (Hx x Hne) as (E1 & E2). rewrite upd_other, E2 in * by assumption. apply D; tauto.
Qed.

Lemma hl_move_add_remove t x i j : hl_move t x i j = hl_add (hl_remove t x i) x j.
Proof. unfold hl_add, hl_remove, hl_move, hl_set_size. cbn [hl hsize hbits hl_unlink]. f_equal. lia. Qed.

Lemma placed_move count t nidx pub a a' id : placed count t nidx pub a ->
  In id pub -> a id < count -> 1 <= a id -> a' id < count -> 1 <= a' id ->
  (forall x, x <> id -> a' x = a x) ->
  placed count (hl_move t id (idxf count (a id)) (idxf count (a' id))) (upd nidx id (idxf count (a' id))) pub a'.
Proof.
  intros A H1 H2 H3 H4 H5 Hx. rewrite hl_move_add_remove.
  apply (placed_add count _ nidx pub (upd a id count) pub a'); auto.
  - apply (placed_remove count t nidx pub a); auto.
    + intros x Hne. rewrite upd_other by assumption. tauto.
    + rewrite upd_same. lia.
  - rewrite upd_same. lia.
  - intros x Hne. rewrite upd_other by assumption. split; [tauto|auto].
Qed.

(** The utilization histogram. *)
Definition cnt (P : Z -> bool) (l : list Z) : Z := Z.of_nat (length (filter P l)).

Lemma cnt_cons P x l : cnt P (x :: l) = (if P x then 1 else 0) + cnt P l.
Proof. unfold cnt. cbn [filter]. destruct (P x); cbn [length]; lia. Qed.

Lemma cnt_ext P Q l : (forall x, In x l -> P x = Q x) -> cnt P l = cnt Q l.
Proof. intros H. unfold cnt. rewrite (filter_ext_in P Q) by assumption. reflexivity. Qed.

Lemma cnt_perm P l l' : Permutation l l' -> cnt P l = cnt P l'.
Proof.
  induction 1 as [|x l l' H IH|x y l|l l' l'' H IH H2 IH2]; rewrite ?cnt_cons; [reflexivity|lia|lia|lia].
Qed.

Definition util_ok (util : Z -> Z) (pub : list Z) (a : Z -> Z) : Prop :=
  forall b, util (b - 1) = cnt (fun id => bit_width (a id) =? b) pub.

Lemma util_sub util pub a a' id : util_ok util pub a -> NoDup pub -> In id pub ->
  (forall x, x <> id -> a' x = a x) ->
  util_ok (upd util (bit_width (a id) - 1) (util (bit_width (a id) - 1) + -1)) (rem1 id pub) a'.
Proof.
  intros H Hn Hin Hx b. pose proof (H b) as Hb. rewrite (cnt_perm _ _ _ (rem1_perm id pub Hin)), cnt_cons in Hb.
  destruct (rem1_NoDup id pub Hn) as (N1 & N2).
  rewrite (cnt_ext _ (fun x => bit_width (a x) =? b) (rem1 id pub)).
  - destruct (Z.eq_dec b (bit_width (a id))) as [->|Hne].
    + rewrite upd_same. rewrite Z.eqb_refl in Hb. lia.
    + rewrite upd_other by lia. replace (_ =? b) with false in Hb by lia. lia.
  - intros x Hx'. rewrite Hx; [reflexivity|]. intros ->. contradiction.
Qed.

Lemma util_add util pub a a' id : util_ok util pub a -> ~ In id pub ->
  (forall x, x <> id -> a' x = a x) ->
  util_ok (upd util (bit_width (a' id) - 1) (util (bit_width (a' id) - 1) + 1)) (id :: pub) a'.
Proof.
  intros H Hin Hx b. pose proof (H b) as Hb. rewrite cnt_cons.
  rewrite (cnt_ext _ (fun x => bit_width (a x) =? b) pub).
  - destruct (Z.eq_dec b (bit_width (a' id))) as [->|Hne].
    + rewrite upd_same. rewrite Z.eqb_refl. lia.
    + rewrite upd_other by lia. replace (_ =? b) with false by lia. lia.
  - intros x Hx'. rewrite Hx; [reflexivity|]. intros ->. contradiction.
Qed.

Lemma util_perm util pub pub' a : util_ok util pub a -> Permutation pub pub' -> util_ok util pub' a.
Proof. intros H P b. rewrite <- (cnt_perm _ _ _ P). apply H. Qed.

(** The conditional update both RemoveRange and ReleaseToSpans make. *)
Definition util_change (f : cfl) (prev cur : Z) : cfl :=
  if negb (bit_width cur =? bit_width prev) then record_util (record_util f (bit_width prev) false) (bit_width cur) true else f.

Lemma util_change_ok f pub a a' id : util_ok (f_util f) pub a -> NoDup pub -> In id pub ->
  (forall x, x <> id -> a' x = a x) ->
  util_ok (f_util (util_change f (a id) (a' id))) pub a'.
Proof.
  intros H Hn Hin Hx. unfold util_change. destruct (Z.eqb_spec (bit_width (a' id)) (bit_width (a id))) as [E|E]; cbn [negb].
  - intros b. rewrite (H b). apply cnt_ext. intros x _. destruct (Z.eq_dec x id) as [->|Hne]; [rewrite E; reflexivity|rewrite Hx by assumption; reflexivity].
  - apply util_perm with (id :: rem1 id pub); [|symmetry; apply rem1_perm; assumption].
    unfold record_util, set_util. cbn [f_util].
    apply util_add with a; [|apply rem1_NoDup; assumption|assumption].
    apply util_sub; auto.
Qed.

Lemma util_change_frame f p q : let g := util_change f p q in
  f_mem g = f_mem f /\ f_span g = f_span f /\ f_nidx g = f_nidx f /\ f_pagemap g = f_pagemap f /\ f_nonempty g = f_nonempty f /\
  f_counter g = f_counter f /\ f_requested g = f_requested f /\ f_returned g = f_returned f.
Proof. unfold util_change. destruct (negb _); cbn; auto 10. Qed.

(** Concatenated lists. *)
Definition cat (L : Z -> list Z) (own : list Z) : list Z := concat (map L own).

Lemma cat_perm L own own' : Permutation own own' -> Permutation (cat L own) (cat L own').
Proof.
  unfold cat. induction 1 as [|x l l' H IH|x y l|l l' l'' H IH H2 IH2]; cbn [map concat]; [reflexivity| | |].
  - apply Permutation_app_head. assumption.
  - rewrite !app_assoc. apply Permutation_app_tail. apply Permutation_app_comm.
  - rewrite IH. assumption.
Qed.

Lemma cat_app L a b : cat L (a ++ b) = cat L a ++ cat L b.
Proof. unfold cat. rewrite map_app, concat_app. reflexivity. Qed.

Lemma cat_ext L L' own : (forall x, In x own -> L x = L' x) -> cat L own = cat L' own.
Proof. intros H. unfold cat. rewrite (map_ext_in _ _ _ H). reflexivity. Qed.

Lemma cat_rem L own id : In id own -> Permutation (cat L own) (L id ++ cat L (rem1 id own)).
Proof. intros H. rewrite (cat_perm L _ _ (rem1_perm id own H)). reflexivity. Qed.

Lemma cat_upd L own id l : NoDup own -> In id own ->
  Permutation (cat (upd L id l) own) (l ++ cat L (rem1 id own)).
Proof.
  intros Hn Hin. rewrite (cat_rem _ own id Hin), upd_same. apply Permutation_app_head.
  destruct (rem1_NoDup id own Hn) as (N1 & N2).
  rewrite (cat_ext _ L); [reflexivity|]. intros x Hx. apply upd_other. intros ->. contradiction.
Qed.

Lemma cat_In L own p : In p (cat L own) <-> exists id, In id own /\ In p (L id).
Proof.
  unfold cat. rewrite in_concat. split.
  - intros (l & Hl & Hp). apply in_map_iff in Hl. destruct Hl as (id & <- & Hid). eauto.
  - intros (id & Hid & Hp). exists (L id). split; [apply in_map; assumption|assumption].
Qed.

(** ** The state of the list *)
Definition alen (L : Z -> list Z) (id : Z) : Z := Z.of_nat (length (L id)).

(** The page ranges of the spans [own] are disjoint. *)
Definition apart (pages : Z) (f : cfl) (own : list Z) : Prop :=
  forall x y, In x own -> In y own -> x <> y ->
  first_page (f_span f x) + pages <= first_page (f_span f y) \/ first_page (f_span f y) + pages <= first_page (f_span f x).

Record core (c : cfg) (size pages : Z) (f : cfl) (own pub : list Z) (L : Z -> list Z) : Prop := {
  co_own : NoDup own;
  co_pub : NoDup pub;
  co_incl : incl pub own;
  co_apart : apart pages f own;
  co_span : forall id, In id own -> span_inv c size pages (f_mem f) (f_span f id) (L id) /\ L id <> [];
  co_placed : placed (objects c size pages) (f_nonempty f) (f_nidx f) pub (alen L);
  co_util : util_ok (f_util f) pub (alen L)
}.

(** What the locked operations leave alone. *)
Definition same_frame (f g : cfl) : Prop :=
  f_pagemap g = f_pagemap f /\ f_counter g = f_counter f /\ f_requested g = f_requested f /\ f_returned g = f_returned f /\
  (forall id, first_page (f_span g id) = first_page (f_span f id)).

Lemma same_frame_refl f : same_frame f f.
Proof. unfold same_frame. auto 10. Qed.
Lemma same_frame_trans f g h : same_frame f g -> same_frame g h -> same_frame f h.
Proof. intros (A & B & C & D & E) (A' & B' & C' & D' & E'). repeat split; congruence. Qed.

Lemma apart_frame pages f g own : (forall id, first_page (f_span g id) = first_page (f_span f id)) -> apart pages f own -> apart pages g own.
Proof. intros H A x y. rewrite !H. apply A. Qed.

Lemma span_bounds c size pages m s live p : class_ok c size pages -> span_inv c size pages m s live -> In p live ->
  valid (span_start c s) size (objects c size pages) p.
Proof.
  intros Hc (F & HP & _) Hp. destruct (span_inv_facts _ _ _ _ _ _ Hc HP) as (_ & Hv & _).
  apply Forall_app in Hv. destruct Hv as (Hv & _). rewrite Forall_forall in Hv. auto.
Qed.

Lemma span_inv_len c size pages m s live : class_ok c size pages -> span_inv c size pages m s live ->
  allocated s = Z.of_nat (length live) /\ Z.of_nat (length live) <= objects c size pages /\ NoDup live.
Proof.
  intros Hc (F & HP & _ & HA). destruct (span_inv_facts _ _ _ _ _ _ Hc HP) as (Hn & _ & Hl). apply NoDup_app_elim in Hn.
  split; [assumption|]. split; [lia|tauto].
Qed.

Lemma valid_range c size pages s p : class_ok c size pages -> valid (span_start c s) size (objects c size pages) p ->
  first_page s * page_size c <= p /\ p + size <= (first_page s + pages) * page_size c.
Proof.
  intros Hc (k & Hk & ->). pose proof (class_geom _ _ _ Hc) as G. pose proof (g_fit _ _ _ G). pose proof (g_size _ _ _ G).
  unfold obj, span_start, objects in *. nia.
Qed.

Lemma valid_page c size pages s p : class_ok c size pages -> valid (span_start c s) size (objects c size pages) p ->
  first_page s <= p / page_size c < first_page s + pages.
Proof.
  intros Hc H. apply valid_range in H; [|assumption]. pose proof (class_geom _ _ _ Hc) as G. pose proof (g_page _ _ _ G). pose proof (g_size _ _ _ G).
  split; [apply Z.div_le_lower_bound; nia|apply Z.div_lt_upper_bound; nia].
Qed.

(** The span's invariant only depends on the memory of the span. *)
Lemma span_inv_mem c size pages m m' s live : class_ok c size pages -> span_inv c size pages m s live ->
  (forall a, first_page s * page_size c <= a < (first_page s + pages) * page_size c -> m' a = m a) ->
  span_inv c size pages m' s live.
Proof.
  intros Hc (F & HP & HR & HA) H. exists F. split; [assumption|]. split; [|assumption].
  apply (repr_write c size pages m); [assumption|assumption|]. intros p a Hp Ha. apply H.
  destruct (span_inv_facts _ _ _ _ _ _ Hc HP) as (_ & Hv & _). apply Forall_app in Hv. destruct Hv as (_ & Hv).
  rewrite Forall_forall in Hv. specialize (Hv p Hp). apply valid_range in Hv; [|assumption]. lia.
Qed.

(** Returning objects to a span: as [push_inv], with the memory frame stated for the
    whole span. *)
Lemma push_frame c size pages m s live batch rest m' s' r : class_ok c size pages ->
  span_inv c size pages m s live -> Permutation live (batch ++ rest) ->
  freelist_push_batch c m s batch size (calc_reciprocal size) = (m', s', r) ->
  forall a, ~ (first_page s * page_size c <= a < (first_page s + pages) * page_size c) -> m' a = m a.
Proof.
  intros Hc (F & HP & HR & HA) HL E a Ha.
  destruct (span_inv_facts _ _ _ _ _ _ Hc HP) as (Hnd & Hv & Hlen).
  assert (HPb : Permutation (live ++ F) (rest ++ batch ++ F)).
  { rewrite HL, (Permutation_app_comm batch rest), <- app_assoc. reflexivity. }
  rewrite HPb in Hnd, Hv. pose proof (NoDup_app_elim _ _ Hnd) as (_ & Hnd2 & Hno). pose proof Hv as Hv2. apply Forall_app in Hv2.
  apply (repr_push c size pages m s F) in E; try assumption; [|tauto].
  destruct E as (E1 & E2 & E3). destruct r.
  - destruct (E3 eq_refl) as (F' & P1 & P2 & P3 & P4 & P5). apply P5. intros q Hq Hqa. apply Ha.
    destruct Hv2 as (_ & Hv2). rewrite Forall_forall in Hv2. specialize (Hv2 q Hq). apply valid_range in Hv2; [|assumption]. lia.
  - destruct E2 as (-> & _); reflexivity.
Qed.

(** Pushing objects back leaves the bytes of the objects still in use alone. *)
Lemma push_frame_live c size pages m s live batch rest m' s' r : class_ok c size pages ->
  span_inv c size pages m s live -> Permutation live (batch ++ rest) ->
  freelist_push_batch c m s batch size (calc_reciprocal size) = (m', s', r) ->
  forall p a, In p rest -> p <= a < p + size -> m' a = m a.
Proof.
  intros Hc (F & HP & HR & HA) HL E p a Hp Ha.
  destruct (span_inv_facts _ _ _ _ _ _ Hc HP) as (Hnd & Hv & Hlen).
  assert (HPb : Permutation (live ++ F) (rest ++ batch ++ F)).
  { rewrite HL, (Permutation_app_comm batch rest), <- app_assoc. reflexivity. }
  rewrite HPb in Hnd, Hv. pose proof (NoDup_app_elim _ _ Hnd) as (_ & Hnd2 & Hno). pose proof Hv as Hv2. apply Forall_app in Hv2.
  apply (repr_push c size pages m s F) in E; try assumption; [|tauto].
  destruct E as (E1 & E2 & E3). destruct r.
  - destruct (E3 eq_refl) as (F' & P1 & P2 & P3 & P4 & P5). apply P5. intros q Hq Hqa.
    destruct Hv2 as (Hv1 & Hv2). rewrite Forall_forall in Hv1, Hv2. specialize (Hv1 p Hp). specialize (Hv2 q Hq).
    destruct (Z.eq_dec p q) as [->|Hne]; [apply (Hno q); assumption|].
    pose proof (g_size _ _ _ (class_geom _ _ _ Hc)).
    destruct (valid_apart (span_start c s) size (objects c size pages) p q); auto; lia.
  - destruct E2 as (-> & _); reflexivity.
Qed.

Lemma build_frame c size pages m s n l m' s' : class_ok c size pages -> 0 <= n ->
  build_freelist c m s size (objects c size pages) n = (l, m', s') ->
  span_inv c size pages m' s' l /\ first_page s' = first_page s /\
  Z.of_nat (length l) = Z.min n (objects c size pages) /\
  forall a, ~ (first_page s * page_size c <= a < (first_page s + pages) * page_size c) -> m' a = m a.
Proof.
  intros Hc Hn E. apply (repr_build c size pages) in E; try assumption. destruct E as (F & P1 & P2 & P3 & P4 & P5 & P6).
  split; [exists F; unfold span_start in *; rewrite P4; auto|]. split; [assumption|]. split; [assumption|].
  intros a Ha. apply P6. intros q Hq Hqa. apply Ha.
  destruct (span_inv_facts c size pages s l F Hc P1) as (_ & Hv & _). apply Forall_app in Hv. destruct Hv as (_ & Hv).
  rewrite Forall_forall in Hv. specialize (Hv q Hq). apply valid_range in Hv; [|assumption]. lia.
Qed.

(** Objects of different spans are different. *)
Lemma core_owner c size pages f own pub L x y p : class_ok c size pages -> core c size pages f own pub L ->
  In x own -> In y own -> In p (L x) -> In p (L y) -> x = y.
Proof.
  intros Hc Co Hx Hy Px Py. destruct (Z.eq_dec x y) as [|Hne]; [assumption|exfalso].
  destruct (co_span _ _ _ _ _ _ _ Co x Hx) as (Sx & _). destruct (co_span _ _ _ _ _ _ _ Co y Hy) as (Sy & _).
  apply (span_bounds _ _ _ _ _ _ p Hc) in Sx, Sy; try assumption.
  apply valid_page in Sx, Sy; try assumption. destruct (co_apart _ _ _ _ _ _ _ Co x y Hx Hy Hne); lia.
Qed.

Lemma cat_NoDup L own : NoDup own -> (forall x, In x own -> NoDup (L x)) ->
  (forall x y p, In x own -> In y own -> In p (L x) -> In p (L y) -> x = y) -> NoDup (cat L own).
Proof.
  induction own as [|x own IH]; intros Hn H1 H2; [constructor|]. inversion Hn as [|? ? Hx Hn']; subst. cbn [cat map concat].
  apply NoDup_app_intro; [apply H1; left; reflexivity| |].
  - apply IH; [assumption|intros; apply H1; right; assumption|]. intros a b p Ha Hb. apply H2; right; assumption.
  - intros p Hp Hc. apply cat_In in Hc. destruct Hc as (y & Hy & Py).
    assert (x = y) by (apply (H2 x y p); [left; reflexivity|right; assumption|assumption|assumption]). subst. contradiction.
Qed.

Lemma core_NoDup c size pages f own pub L : class_ok c size pages -> core c size pages f own pub L -> NoDup (cat L own).
Proof.
  intros Hc Co. apply cat_NoDup; [apply Co| |].
  - intros x Hx. destruct (co_span _ _ _ _ _ _ _ Co x Hx) as (S & _). apply span_inv_len in S; [tauto|assumption].
  - intros x y p. apply (core_owner c size pages f own pub L); assumption.
Qed.

Lemma alen_upd L id l x : alen (upd L id l) x = upd (alen L) id (Z.of_nat (length l)) x.
Proof. unfold alen, upd. destruct (x =? id); reflexivity. Qed.

Lemma nonempty_len {A} (l : list A) : l <> [] -> 1 <= Z.of_nat (length l).
Proof. destruct l; [congruence|]. cbn [length]. lia. Qed.
