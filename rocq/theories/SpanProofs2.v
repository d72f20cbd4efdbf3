(** Lemmas about spans: every operation preserves the set of free objects. *)
From Coq Require Import Permutation Sorting.Sorted.
From Verif Require Import Base SizeMap SizeMapProofs SizeMapProofs2 Bitmap BitmapProofs BitmapProofs2 Span SpanProofs.

Definition objs (start size k : Z) (n : nat) : list Z := map (obj start size) (zseq k n).

Definition valid (start size count p : Z) : Prop := exists k, 0 <= k < count /\ p = obj start size k.

Lemma objs_NoDup start size k n : 0 < size -> NoDup (objs start size k n).
Proof.
  intros H. unfold objs. apply FinFun.Injective_map_NoDup; [|apply zseq_NoDup].
  intros a b E. apply obj_inj in E; assumption.
Qed.

Lemma objs_In start size k n p : In p (objs start size k n) <-> exists j, k <= j < k + Z.of_nat n /\ p = obj start size j.
Proof.
  unfold objs. rewrite in_map_iff. split; intros (j & A & B); exists j; rewrite zseq_In in *; auto.
Qed.

Lemma valid_objs start size count p : In p (objs start size 0 (Z.to_nat count)) <-> valid start size count p.
Proof.
  rewrite objs_In. unfold valid. split; intros (j & A & B); exists j; split; auto; lia.
Qed.

Lemma valid_apart start size count p q : 0 < size -> valid start size count p -> valid start size count q ->
  p <> q -> p + size <= q \/ q + size <= p.
Proof.
  intros Hs (j & Hj & ->) (k & Hk & ->) Hne. unfold obj in *.
  destruct (Z.lt_trichotomy j k) as [H|[H|H]]; [left; nia|subst; congruence|right; nia].
Qed.

Lemma valid_separate start size count L : 0 < size -> Forall (valid start size count) L -> separate size L.
Proof.
  intros Hs HF p q Hp Hq Hne. rewrite Forall_forall in HF.
  apply (valid_apart start size count); auto.
Qed.

(** [F] lists the free objects of the span. *)
Definition list_repr (c : cfg) (size : Z) (m : memory) (s : span) (F : list Z) : Prop :=
  0 <= cache_size s <= k_cache_size /\
  exists L, chain m (span_start c s) (max_embed size) (freelist s) (embed_count s) L /\
    F = cache_list (span_start c s) (cache s) (cache_size s) ++ L.

Definition bitmap_repr (c : cfg) (size count : Z) (s : span) (F : list Z) : Prop :=
  wf k_bitmap_size (bitmap_ s) /\
  (forall k, 0 <= k < k_bitmap_size -> bit (bitmap_ s) k = true -> k < count) /\
  Permutation F (map (obj (span_start c s) size) (filter (bit (bitmap_ s)) (zseq 0 (Z.to_nat k_bitmap_size)))).

Definition span_repr (c : cfg) (size pages : Z) (m : memory) (s : span) (F : list Z) : Prop :=
  Forall (valid (span_start c s) size (objects c size pages)) F /\ NoDup F /\
  if use_bitmap_for_size c size then bitmap_repr c size (objects c size pages) s F
  else list_repr c size m s F.

Lemma max_embed_bounds c size pages : class_ok c size pages -> use_bitmap_for_size c size = false ->
  0 <= max_embed size /\ 2 * max_embed size < size - 1 /\ max_embed size < 65535.
Proof.
  intros Hc Hu. apply class_geom in Hc. destruct Hc as [g_size0 g_size9 g_pages0 g_page0 g_pow0 g_page9 g_count0 g_fit0 g_bitmap0 g_list0]. destruct (g_list0 Hu). unfold max_embed.
  pose proof (Z.div_mod size 2 ltac:(lia)). pose proof (Z.mod_pos_bound size 2 ltac:(lia)). lia.
Qed.

Lemma objects_small c size pages : class_ok c size pages -> 1 <= objects c size pages <= 32768.
Proof.
  intros Hc. apply class_geom in Hc. destruct Hc as [g_size0 g_size9 g_pages0 g_page0 g_pow0 g_page9 g_count0 g_fit0 g_bitmap0 g_list0]. split; [assumption|].
  destruct (use_bitmap_for_size c size) eqn:Hu; [specialize (g_bitmap0 eq_refl); lia|].
  destruct (g_list0 eq_refl) as (-> & _). nia.
Qed.

(** ** Pop *)

Lemma filter_length_zcount P n : forall i, Z.of_nat (length (filter P (zseq i n))) = zcount P i n.
Proof.
  induction n as [|n IH]; intros i; cbn [zseq filter zcount]; [reflexivity|].
  rewrite <- IH. destruct (P i); cbn [length]; lia.
Qed.

Lemma ssorted_NoDup l : StronglySorted Z.lt l -> NoDup l.
Proof.
  induction 1 as [|a l H IH HF]; constructor; auto. rewrite Forall_forall in HF.
  intros Hin. apply HF in Hin. lia.
Qed.

Lemma NoDup_app_intro {A} (l1 l2 : list A) : NoDup l1 -> NoDup l2 -> (forall x, In x l1 -> ~ In x l2) -> NoDup (l1 ++ l2).
Proof.
  induction l1 as [|a l1 IH]; cbn; intros H1 H2 H; [assumption|].
  inversion H1; subst. constructor.
  - rewrite in_app_iff. intros [?|?]; [contradiction|]. apply (H a); auto.
  - apply IH; auto.
Qed.

Lemma NoDup_app_elim {A} (l1 l2 : list A) : NoDup (l1 ++ l2) ->
  NoDup l1 /\ NoDup l2 /\ (forall x, In x l1 -> ~ In x l2).
Proof.
  induction l1 as [|a l1 IH]; cbn; intros H; [split; [constructor|auto]|].
  inversion H as [|? ? Ha Hn]; subst. rewrite in_app_iff in Ha. destruct (IH Hn) as (A1 & A2 & A3).
  split; [constructor; auto|split; [assumption|]]. intros x [->|Hx]; auto.
Qed.

Lemma filter_remove (P Q : Z -> bool) (U l : list Z) : NoDup U -> NoDup l ->
  (forall x, In x l -> In x U /\ P x = true) ->
  (forall x, In x U -> Q x = P x && negb (zmem x l)) ->
  Permutation (filter P U) (l ++ filter Q U).
Proof.
  intros HU Hl Hin HQ. apply NoDup_Permutation.
  - apply NoDup_filter. assumption.
  - apply NoDup_app_intro; [assumption|apply NoDup_filter; assumption|].
    intros x Hx. rewrite filter_In. intros (HxU & HxQ). rewrite HQ in HxQ by assumption.
    assert (zmem x l = true) by (apply zmem_In; assumption). rewrite H, andb_false_r in HxQ. discriminate.
  - intros x. rewrite in_app_iff, !filter_In. split.
    + intros (HxU & HxP). destruct (zmem x l) eqn:E; [left; apply zmem_In; assumption|].
      right. rewrite HQ, HxP, E by assumption. auto.
    + intros [Hx|(HxU & HxQ)]; [auto|]. rewrite HQ in HxQ by assumption. split; [assumption|].
      destruct (P x); [reflexivity|discriminate].
Qed.

Lemma repr_pop c size pages m s F n l s' : class_ok c size pages ->
  span_repr c size pages m s F -> 0 <= n -> freelist_pop_batch c m s n size = (l, s') ->
  exists F', Permutation F (l ++ F') /\
    Z.of_nat (length l) = Z.min n (Z.of_nat (length F)) /\
    span_repr c size pages m s' F' /\ first_page s' = first_page s /\
    allocated s' = u16 (allocated s + Z.of_nat (length l)).
Proof.
  intros Hc (Hv & Hnd & Hr) Hn E. unfold freelist_pop_batch in E.
  assert (Hfin : forall F' , Permutation F (l ++ F') -> span_start c s' = span_start c s ->
     Forall (valid (span_start c s') size (objects c size pages)) F' /\ NoDup F').
  { intros F' HP ->. rewrite HP in Hv, Hnd. apply Forall_app in Hv. apply NoDup_app_elim in Hnd. tauto. }
  unfold span_repr. destruct (use_bitmap_for_size c size) eqn:Hu.
  - unfold bitmap_pop_batch in E. destruct (pop_batch k_bitmap_size (bitmap_ s) n) as [li b'] eqn:Ep.
    injection E as <- <-. destruct Hr as (Hwf & Hcnt & HP).
    apply pop_batch_spec in Ep; [|unfold k_bitmap_size; lia|assumption].
    destruct Ep as (Hwf' & Hlen & Hbits & Hin & Hsort & _).
    set (U := zseq 0 (Z.to_nat k_bitmap_size)) in *.
    set (F' := map (obj (span_start c s) size) (filter (bit b') U)).
    assert (Hrem : Permutation (filter (bit (bitmap_ s)) U) (li ++ filter (bit b') U)).
    { apply filter_remove; [apply zseq_NoDup|apply ssorted_NoDup; assumption| |intros; apply Hbits].
      intros x Hx. destruct (Hin x Hx). split; [|assumption]. unfold U. apply zseq_In. lia. }
    assert (Hmap : map (fun i : Z => bitmap_idx_to_ptr (span_start c s) (u16 i) size) li = map (obj (span_start c s) size) li).
    { apply map_ext_in. intros x Hx. destruct (Hin x Hx) as (Hb & _). unfold bitmap_idx_to_ptr, obj, u16, k_bitmap_size in *.
      rewrite Z.mod_small by lia. reflexivity. }
    assert (HPF : Permutation F (map (fun i : Z => bitmap_idx_to_ptr (span_start c s) (u16 i) size) li ++ F')).
    { rewrite Hmap. unfold F'. rewrite <- map_app. rewrite HP. apply Permutation_map. assumption. }
    exists F'. split; [assumption|]. split.
    { rewrite map_length, Hlen, (Permutation_length HP), map_length. unfold U. rewrite filter_length_zcount.
      rewrite Z.max_r by assumption. reflexivity. }
    split; [|split; [reflexivity|cbn [allocated]; rewrite map_length; reflexivity]].
    destruct (Hfin F' HPF eq_refl) as (A & B). split; [assumption|split; [assumption|]].
    split; [assumption|split; [|reflexivity]]. cbn [bitmap_]. intros k Hk Hbk. rewrite Hbits in Hbk.
    apply Hcnt; [assumption|]. destruct (bit (bitmap_ s) k); [reflexivity|discriminate].
  - destruct Hr as (Hcs & L & Hch & HF). destruct (max_embed_bounds c size pages Hc Hu) as (M1 & M2 & M3).
    unfold list_pop_batch in E.
    set (reads := if cache_size s <? n then cache_size s else n) in *.
    assert (Hre : 0 <= reads <= cache_size s /\ reads <= n /\ (n - reads <> 0 -> reads = cache_size s)).
    { unfold reads. destruct (Z.ltb_spec (cache_size s) n); lia. }
    destruct (pop_loop_spec m (span_start c s) size ltac:(lia) (Z.to_nat n) _ _ (n - reads) L Hch ltac:(lia)) as (fl & ec & Ep & Hch').
    rewrite Ep in E. injection E as El Es.
    destruct (cache_list_pop (span_start c s) (cache s) (cache_size s) reads ltac:(lia)) as (E1 & E2).
    rewrite E1 in El, Es.
    set (C := cache_list (span_start c s) (cache s) (cache_size s)) in *.
    assert (HC : length C = Z.to_nat (cache_size s)) by apply cache_list_length.
    exists (skipn (Z.to_nat reads) C ++ skipn (Z.to_nat (n - reads)) L).
    assert (HPF : Permutation F (l ++ skipn (Z.to_nat reads) C ++ skipn (Z.to_nat (n - reads)) L)).
    { subst F l. rewrite <- (firstn_skipn (Z.to_nat reads) C) at 1. rewrite <- (firstn_skipn (Z.to_nat (n - reads)) L) at 1.
      rewrite <- !app_assoc. apply Permutation_app_head. rewrite !app_assoc. apply Permutation_app_tail. apply Permutation_app_comm. }
    split; [assumption|]. split.
    { subst F l. rewrite !app_length, !firstn_length. lia. }
    subst s'. rewrite El. cbn [first_page allocated].
    destruct (Hfin _ HPF eq_refl) as (A & B).
    split; [|split; reflexivity]. split; [assumption|split; [assumption|]].
    unfold list_repr. cbn [cache_size cache freelist embed_count]. unfold span_start in *. cbn [first_page] in *. split; [lia|].
    exists (skipn (Z.to_nat (n - reads)) L). split; [assumption|]. rewrite E2. reflexivity.
Qed.

(** ** Push *)

Lemma push_loop_one c m start size fl ec p batch : 0 <= ec <= max_embed size -> max_embed size < 65535 ->
  list_push_loop c m start size fl ec (p :: batch) =
  let '(m', fl', ec') := push_one m start size fl ec p (ptr_to_idx c p) in
  list_push_loop c m' start size fl' ec' batch.
Proof.
  intros H1 H2. cbn [list_push_loop]. unfold push_one. destruct (negb _ && negb _) eqn:E; [|reflexivity].
  unfold u16. rewrite Z.mod_small by lia. reflexivity.
Qed.

Lemma push_loop_spec c size pages fp batch : class_ok c size pages -> use_bitmap_for_size c size = false ->
  forall m fl ec L m' fl' ec',
  chain m (fp * page_size c) (max_embed size) fl ec L -> 0 <= ec <= max_embed size ->
  NoDup (batch ++ L) -> Forall (valid (fp * page_size c) size (objects c size pages)) (batch ++ L) ->
  list_push_loop c m (fp * page_size c) size fl ec batch = (m', fl', ec') ->
  chain m' (fp * page_size c) (max_embed size) fl' ec' (rev batch ++ L) /\
  (forall a, (forall q, In q (batch ++ L) -> ~ (q <= a < q + size)) -> m' a = m a).
Proof.
  intros Hc Hu. destruct (max_embed_bounds c size pages Hc Hu) as (M1 & M2 & M3).
  pose proof (g_size _ _ _ (class_geom _ _ _ Hc)) as Hsz.
  induction batch as [|p batch IH]; intros m fl ec L m' fl' ec' Hch Hec Hnd Hv E.
  - cbn in E. injection E as <- <- <-. cbn [rev app]. auto.
  - rewrite push_loop_one in E by assumption.
    destruct (push_one m (fp * page_size c) size fl ec p (ptr_to_idx c p)) as [[m1 fl1] ec1] eqn:E1.
    cbn [app] in Hnd, Hv. assert (HP : Permutation (p :: batch ++ L) (batch ++ p :: L)) by apply Permutation_middle.
    assert (Hnd' := Hnd). assert (Hv' := Hv). rewrite HP in Hnd', Hv'.
    apply NoDup_app_elim in Hnd'. destruct Hnd' as (_ & Hnd1 & _).
    assert (Hv1 := Hv'). apply Forall_app in Hv1. destruct Hv1 as (_ & Hv1).
    inversion Hv as [|? ? (k & Hk & Hpk) _]; subst x l.
    destruct (list_idx_exact c size pages fp k Hc Hk Hu) as (I1 & I2 & I3 & _). rewrite <- Hpk in *.
    rewrite <- I1 in I2, I3.
    pose proof E1 as E1'. apply push_one_spec with (L := L) in E1'; try assumption;
      [|apply (valid_separate (fp * page_size c) size (objects c size pages)); [lia|assumption]|unfold k_list_end; lia].
    destruct E1' as (B1 & B2 & B3 & B4).
    apply IH with (L := p :: L) in E; [|assumption|assumption|rewrite <- HP; assumption|rewrite <- HP; assumption].
    destruct E as (C1 & C2). split.
    + cbn [rev]. rewrite <- app_assoc. assumption.
    + intros a Ha. rewrite C2.
      * apply B4. intros q Hq. apply Ha. apply (Permutation_in _ (Permutation_sym HP)). apply in_or_app. auto.
      * intros q Hq. apply Ha. apply (Permutation_in _ (Permutation_sym HP)). assumption.
Qed.

Lemma push_idx_loop_eq c start size batch : forall m fl ec,
  (forall p, In p batch -> idx_to_ptr start (ptr_to_idx c p) = p /\ ptr_to_idx c p <> k_list_end) ->
  fl <> k_list_end ->
  list_push_idx_loop m start size fl ec (map (ptr_to_idx c) batch) = list_push_loop c m start size fl ec batch.
Proof.
  induction batch as [|p batch IH]; intros m fl ec Hb Hfl; cbn [map list_push_idx_loop list_push_loop]; [reflexivity|].
  destruct (Hb p (or_introl eq_refl)) as (Hp & Hp').
  replace (fl =? k_list_end) with false by lia. cbn [negb andb].
  destruct (ec =? max_embed size); cbn [negb].
  - rewrite Hp. apply IH; [|assumption]. intros; apply Hb; right; assumption.
  - apply IH; [|assumption]. intros; apply Hb; right; assumption.
Qed.

Lemma bitmap_push_fold idxs : forall b, wf k_bitmap_size b ->
  (forall i, In i idxs -> 0 <= i < k_bitmap_size) ->
  wf k_bitmap_size (fold_left (fun b i => fst (set_bit b i)) idxs b) /\
  forall j, bit (fold_left (fun b i => fst (set_bit b i)) idxs b) j = zmem j idxs || bit b j.
Proof.
  induction idxs as [|i idxs IH]; intros b Hwf Hin; cbn [fold_left]; [split; [assumption|reflexivity]|].
  destruct (IH (fst (set_bit b i))) as (A & B).
  - apply set_bit_wf; [apply Hin; left; reflexivity|assumption].
  - intros; apply Hin; right; assumption.
  - split; [assumption|]. intros j. rewrite B. destruct (set_bit b i) as [b' o] eqn:E. apply set_bit_spec in E.
    destruct E as (_ & E). cbn [fst]. rewrite E. cbn [zmem existsb]. unfold zmem. cbn [existsb].
    destruct (j =? i), (existsb (Z.eqb j) idxs); reflexivity.
Qed.

Lemma list_push_idx_eq c m s batch size pages : class_ok c size pages -> use_bitmap_for_size c size = false ->
  Forall (valid (span_start c s) size (objects c size pages)) batch ->
  list_push_idx_batch c m s (map (ptr_to_idx c) batch) size = list_push_batch c m s batch size.
Proof.
  intros Hc Hu Hv. destruct (max_embed_bounds c size pages Hc Hu) as (M1 & M2 & M3).
  unfold list_push_idx_batch, list_push_batch. rewrite map_length.
  set (w := if cache_size s <? k_cache_size then _ else _).
  rewrite skipn_map, firstn_map.
  assert (Hb : forall p, In p (skipn (Z.to_nat w) batch) ->
    idx_to_ptr (span_start c s) (ptr_to_idx c p) = p /\ ptr_to_idx c p <> k_list_end /\ Z.ldiff p (page_size c - 1) = span_start c s).
  { intros p Hp. rewrite Forall_forall in Hv. destruct (Hv p) as (k & Hk & ->).
    { rewrite <- (firstn_skipn (Z.to_nat w)). apply in_or_app. auto. }
    unfold span_start. destruct (list_idx_exact c size pages (first_page s) k Hc Hk Hu) as (I1 & I2 & I3 & I4).
    rewrite I1. unfold k_list_end. split; [assumption|split; [lia|assumption]]. }
  destruct (skipn (Z.to_nat w) batch) as [|p rest]; cbn [map]; [reflexivity|].
  destruct (Hb p (or_introl eq_refl)) as (P1 & P2 & P3). rewrite P3.
  assert (Hrest : forall q, In q rest -> idx_to_ptr (span_start c s) (ptr_to_idx c q) = q /\ ptr_to_idx c q <> k_list_end).
  { intros q Hq. destruct (Hb q (or_intror Hq)). tauto. }
  destruct (Z.eqb_spec (freelist s) k_list_end) as [He|He]; cbn [negb].
  - rewrite push_idx_loop_eq by (assumption || auto). rewrite P1. rewrite He. cbn [list_push_loop].
    change (k_list_end =? k_list_end) with true. cbn [negb andb]. reflexivity.
  - change (ptr_to_idx c p :: map (ptr_to_idx c) rest) with (map (ptr_to_idx c) (p :: rest)).
    rewrite push_idx_loop_eq; [reflexivity| |assumption].
    intros q [<-|Hq]; [auto|apply Hrest; assumption].
Qed.

Lemma span_start_set_allocated c s a : span_start c (set_allocated s a) = span_start c s.
Proof. reflexivity. Qed.

Lemma list_push_spec c size pages m s F batch m' s' : class_ok c size pages -> use_bitmap_for_size c size = false ->
  list_repr c size m s F -> 
  NoDup (batch ++ F) -> Forall (valid (span_start c s) size (objects c size pages)) (batch ++ F) ->
  list_push_batch c m s batch size = (m', s') ->
  exists F', Permutation F' (batch ++ F) /\ list_repr c size m' s' F' /\
    first_page s' = first_page s /\ allocated s' = allocated s /\
    (forall a, (forall q, In q (batch ++ F) -> ~ (q <= a < q + size)) -> m' a = m a).
Proof.
  intros Hc Hu (Hcs & L & Hch & HF) Hnd Hv E. unfold list_push_batch in E.
  set (w := if cache_size s <? k_cache_size then Z.min (k_cache_size - cache_size s) (Z.of_nat (length batch)) else 0) in *.
  assert (Hw : 0 <= w <= Z.of_nat (length batch) /\ cache_size s + w <= k_cache_size).
  { unfold w. destruct (Z.ltb_spec (cache_size s) k_cache_size); lia. }
  set (l1 := firstn (Z.to_nat w) batch) in *.
  assert (Hl1 : length l1 = Z.to_nat w) by (unfold l1; rewrite firstn_length; lia).
  assert (Hb : batch = l1 ++ skipn (Z.to_nat w) batch) by (unfold l1; rewrite firstn_skipn; reflexivity).
  assert (Hidx : forall p, In p batch -> idx_to_ptr (span_start c s) (ptr_to_idx c p) = p /\ Z.ldiff p (page_size c - 1) = span_start c s).
  { intros p Hp. rewrite Forall_forall in Hv. destruct (Hv p) as (k & Hk & ->); [apply in_or_app; auto|].
    unfold span_start. destruct (list_idx_exact c size pages (first_page s) k Hc Hk Hu) as (I1 & I2 & I3 & I4).
    rewrite I1. auto. }
  assert (Hmap : map (idx_to_ptr (span_start c s)) (map (ptr_to_idx c) l1) = l1).
  { rewrite map_map. rewrite <- (map_id l1) at 2. apply map_ext_in. intros p Hp. apply Hidx.
    rewrite Hb. apply in_or_app. auto. }
  assert (Hcl : cache_list (span_start c s) (cache_fill (cache s) (cache_size s) (map (ptr_to_idx c) l1)) (cache_size s + w) =
          rev l1 ++ cache_list (span_start c s) (cache s) (cache_size s)).
  { replace (cache_size s + w) with (cache_size s + Z.of_nat (length (map (ptr_to_idx c) l1))) by (rewrite map_length; lia).
    rewrite cache_fill_list by lia. rewrite Hmap. reflexivity. }
  set (C := cache_list (span_start c s) (cache s) (cache_size s)) in *.
  destruct (skipn (Z.to_nat w) batch) as [|p rest].
  - injection E as <- <-. rewrite app_nil_r in Hb. exists ((rev l1 ++ C) ++ L).
    split; [|split; [|split; [reflexivity|split; reflexivity]]].
    + rewrite HF, app_assoc. rewrite Hb. apply Permutation_app_tail, Permutation_app_tail. symmetry. apply Permutation_rev.
    + split; [cbn [cache_size]; lia|]. exists L. cbn [freelist embed_count cache cache_size]. split; [assumption|]. f_equal. symmetry. exact Hcl.
  - destruct (Hidx p) as (_ & Hst); [rewrite Hb; apply in_or_app; right; left; reflexivity|]. rewrite Hst in E.
    unfold span_start in E at 1.
    destruct (list_push_loop c m (first_page s * page_size c) size (freelist s) (embed_count s) (p :: rest)) as [[m1 fl] ec] eqn:El.
    injection E as <- <-.
    assert (Hpb : Permutation (batch ++ F) ((l1 ++ C) ++ (p :: rest) ++ L)).
    { rewrite HF, Hb. rewrite <- !app_assoc. apply Permutation_app_head. rewrite !app_assoc. apply Permutation_app_tail. apply Permutation_app_comm. }
    assert (Hnd' := Hnd). assert (Hv' := Hv). rewrite Hpb in Hnd', Hv'. apply NoDup_app_elim in Hnd'. apply Forall_app in Hv'.
    destruct Hnd' as (_ & Hnd1 & _). destruct Hv' as (_ & Hv1).
    apply (push_loop_spec c size pages (first_page s) (p :: rest) Hc Hu) with (L := L) in El; try assumption; [|apply (chain_ec _ _ _ _ _ _ Hch)].
    destruct El as (Hch' & Hfr).
    exists ((rev l1 ++ C) ++ rev (p :: rest) ++ L).
    split; [|split; [|split; [reflexivity|split; [reflexivity|]]]].
    + rewrite Hpb. apply Permutation_app; apply Permutation_app_tail; symmetry; apply Permutation_rev.
    + split; [cbn [cache_size]; lia|]. exists (rev (p :: rest) ++ L). cbn [freelist embed_count cache cache_size].
      split; [assumption|]. f_equal. symmetry. exact Hcl.
    + intros a Ha. apply Hfr. intros q Hq. apply Ha. apply (Permutation_in _ (Permutation_sym Hpb)). apply in_or_app. auto.
Qed.

Lemma bitmap_push_spec c size pages s F batch : class_ok c size pages -> use_bitmap_for_size c size = true ->
  bitmap_repr c size (objects c size pages) s F -> NoDup (batch ++ F) ->
  Forall (valid (span_start c s) size (objects c size pages)) (batch ++ F) ->
  bitmap_repr c size (objects c size pages)
    (bitmap_push_idx s (map (fun p => bitmap_ptr_to_idx (span_start c s) p (calc_reciprocal size)) batch)) (batch ++ F).
Proof.
  intros Hc Hu (Hwf & Hcnt & HP) Hnd Hv.
  pose proof (g_bitmap _ _ _ (class_geom _ _ _ Hc) Hu) as Hmax.
  pose proof (g_size _ _ _ (class_geom _ _ _ Hc)) as Hsz.
  set (ix := fun p => bitmap_ptr_to_idx (span_start c s) p (calc_reciprocal size)).
  assert (Hix : forall p, In p batch -> 0 <= ix p < objects c size pages /\ obj (span_start c s) size (ix p) = p).
  { intros p Hp. rewrite Forall_forall in Hv. destruct (Hv p) as (k & Hk & ->); [apply in_or_app; auto|].
    unfold ix. rewrite (bitmap_idx_exact c size pages) by assumption. auto. }
  assert (Hidx : forall i, In i (map ix batch) -> 0 <= i < objects c size pages).
  { intros i Hi. apply in_map_iff in Hi. destruct Hi as (p & <- & Hp). apply Hix. assumption. }
  destruct (bitmap_push_fold (map ix batch) (bitmap_ s) Hwf) as (Hwf' & Hb').
  { intros i Hi. apply Hidx in Hi. unfold k_bitmap_size. lia. }
  unfold bitmap_repr. cbn [bitmap_ bitmap_push_idx]. split; [assumption|]. split.
  - intros k Hk. rewrite Hb'. intros Ho. apply orb_true_iff in Ho. destruct Ho as [Ho|Ho]; [|auto].
    apply zmem_In in Ho. apply Hidx in Ho. lia.
  - set (U := zseq 0 (Z.to_nat k_bitmap_size)) in *. unfold bitmap_push_idx, span_start at 1. cbn [first_page]. fold (span_start c s).
    assert (Hmap : map (obj (span_start c s) size) (map ix batch) = batch).
    { rewrite map_map. rewrite <- (map_id batch) at 2. apply map_ext_in. intros p Hp. apply Hix. assumption. }
    rewrite HP, <- Hmap at 1. rewrite <- map_app. apply Permutation_map. symmetry.
    apply filter_remove; [apply zseq_NoDup| | |].
    + apply (NoDup_map_inv (obj (span_start c s) size)). rewrite Hmap. apply NoDup_app_elim in Hnd. tauto.
    + intros x Hx. split.
      * apply Hidx in Hx. unfold U. apply zseq_In. unfold k_bitmap_size. lia.
      * rewrite Hb'. apply orb_true_iff. left. apply zmem_In. assumption.
    + intros x Hx. rewrite Hb'. destruct (zmem x (map ix batch)) eqn:Ez; cbn [orb negb andb].
      * apply zmem_In in Ez. destruct (bit (bitmap_ s) x) eqn:Eb; [|reflexivity]. exfalso.
        apply NoDup_app_elim in Hnd. destruct Hnd as (_ & _ & Hno).
        apply (Hno (obj (span_start c s) size x)).
        -- rewrite <- Hmap. apply in_map. assumption.
        -- apply (Permutation_in _ (Permutation_sym HP)). apply in_map. apply filter_In. auto.
      * rewrite andb_true_r. reflexivity.
Qed.

(** What either version of FreelistPushBatch does when it keeps the span. *)
Definition push_post (c : cfg) (size pages : Z) (m : memory) (s : span) (F batch : list Z) (m' : memory) (s' : span) : Prop :=
  exists F', Permutation F' (batch ++ F) /\ span_repr c size pages m' s' F' /\
    first_page s' = first_page s /\ allocated s' = u16 (allocated s - Z.of_nat (length batch)) /\
    (forall a, (forall q, In q (batch ++ F) -> ~ (q <= a < q + size)) -> m' a = m a).

Lemma repr_push c size pages m s F batch m' s' r : class_ok c size pages ->
  span_repr c size pages m s F ->
  NoDup (batch ++ F) -> Forall (valid (span_start c s) size (objects c size pages)) (batch ++ F) ->
  freelist_push_batch c m s batch size (calc_reciprocal size) = (m', s', r) ->
  r = negb (allocated s =? Z.of_nat (length batch)) /\
  (r = false -> m' = m /\ s' = s) /\ (r = true -> push_post c size pages m s F batch m' s').
Proof.
  intros Hc (_ & _ & Hr) Hnd Hv E. unfold freelist_push_batch in E.
  destruct (allocated s =? Z.of_nat (length batch)).
  { injection E as <- <- <-. split; [reflexivity|]. split; [auto|discriminate]. }
  unfold push_post, span_repr. destruct (use_bitmap_for_size c size) eqn:Hu.
  - injection E as <- <- <-. split; [reflexivity|]. split; [discriminate|intros _].
    exists (batch ++ F). split; [reflexivity|]. split; [|split; [reflexivity|split; reflexivity]].
    split; [assumption|split; [assumption|]].
    apply (bitmap_push_spec c size pages (set_allocated s (u16 (allocated s - Z.of_nat (length batch)))) F batch); assumption.
  - destruct (list_push_batch c m (set_allocated s (u16 (allocated s - Z.of_nat (length batch)))) batch size) as [m1 s1] eqn:El.
    injection E as <- <- <-. split; [reflexivity|]. split; [discriminate|intros _].
    apply (list_push_spec c size pages _ _ F) in El; try assumption.
    destruct El as (F' & P1 & P2 & P3 & P4 & P5). exists F'. split; [assumption|].
    split; [|split; [assumption|split; assumption]].
    assert (Hst : span_start c s1 = span_start c s) by (unfold span_start; rewrite P3; reflexivity).
    rewrite Hst. split; [rewrite P1; assumption|]. split; [rewrite P1; assumption|assumption].
Qed.

Lemma push_idx_eq c size pages m s batch : class_ok c size pages ->
  Forall (valid (span_start c s) size (objects c size pages)) batch ->
  freelist_push_idx_batch c m s (ptrs_to_idx c s size (calc_reciprocal size) batch) size =
  freelist_push_batch c m s batch size (calc_reciprocal size).
Proof.
  intros Hc Hv. unfold freelist_push_idx_batch, freelist_push_batch, ptrs_to_idx.
  destruct (use_bitmap_for_size c size) eqn:Hu; rewrite map_length; destruct (allocated s =? Z.of_nat (length batch)); try reflexivity.
  rewrite (list_push_idx_eq c m _ batch size pages) by assumption. reflexivity.
Qed.

(** ** Build *)

Lemma zseq_snoc k n : zseq k (S n) = zseq k n ++ [k + Z.of_nat n].
Proof. replace (S n) with (n + 1)%nat by lia. rewrite zseq_app. reflexivity. Qed.

Lemma build_loop_spec c size pages fp : class_ok c size pages -> use_bitmap_for_size c size = false ->
  forall fuel m hh fl ec k n L m' fl' ec',
  Z.of_nat n <= Z.of_nat fuel -> 0 <= k -> k + Z.of_nat n <= objects c size pages ->
  hh = negb (fl =? k_list_end) ->
  chain m (fp * page_size c) (max_embed size) fl ec L ->
  NoDup (objs (fp * page_size c) size k n ++ L) -> Forall (valid (fp * page_size c) size (objects c size pages)) L ->
  build_loop fuel m (fp * page_size c) size (size / 8) hh fl ec (k * (size / 8)) ((k + Z.of_nat n) * (size / 8)) = (m', fl', ec') ->
  exists L', chain m' (fp * page_size c) (max_embed size) fl' ec' L' /\
    Permutation L' (objs (fp * page_size c) size k n ++ L) /\
    (forall a, (forall q, In q (objs (fp * page_size c) size k n ++ L) -> ~ (q <= a < q + size)) -> m' a = m a).
Proof.
  intros Hc Hu. destruct (max_embed_bounds c size pages Hc Hu) as (M1 & M2 & M3).
  pose proof (g_size _ _ _ (class_geom _ _ _ Hc)) as Hsz. pose proof (g_size8 _ _ _ (class_geom _ _ _ Hc)) as Hsz8.
  assert (Hst : 1 <= size / 8) by (apply Z.div_le_lower_bound; lia).
  assert (Hlast : objects c size pages * (size / 8) <= 32768).
  { pose proof (class_geom _ _ _ Hc) as [? ? ? Hpg ? ? ? Hfit ? Hl]. destruct (Hl Hu) as (-> & _).
    pose proof (Z.div_mod size 8 ltac:(lia)). nia. }
  set (start := fp * page_size c) in *.
  induction fuel as [|fuel IH]; intros m hh fl ec k n L m' fl' ec' Hfuel Hk Hkn Hhh Hch Hnd Hv E.
  - assert (n = 0%nat) by lia. subst n. cbn in E. injection E as <- <- <-. exists L. cbn [objs zseq map app]. auto.
  - destruct n as [|n].
    { cbn [build_loop] in E. replace (k * (size / 8) <? (k + Z.of_nat 0) * (size / 8)) with false in E by nia.
      injection E as <- <- <-. exists L. cbn. auto. }
    cbn [build_loop] in E. replace (k * (size / 8) <? (k + Z.of_nat (S n)) * (size / 8)) with true in E by nia.
    assert (Hec := chain_ec _ _ _ _ _ _ Hch).
    destruct (hh && negb (ec =? max_embed size)) eqn:Econd.
    + replace (u16 ((k + Z.of_nat (S n)) * (size / 8) - size / 8)) with ((k + Z.of_nat n) * (size / 8)) in E
        by (unfold u16; rewrite Z.mod_small; nia).
      set (p := obj start size (k + Z.of_nat n)).
      destruct (list_idx_exact c size pages fp (k + Z.of_nat n) Hc ltac:(lia) Hu) as (I1 & I2 & I3 & _). fold start p in I3.
      assert (E1 : push_one m start size fl ec p ((k + Z.of_nat n) * (size / 8)) =
        (upd m (idx_to_ptr start fl + 2 * (ec + 1)) ((k + Z.of_nat n) * (size / 8)), fl, ec + 1)).
      { unfold push_one. rewrite <- Hhh, Econd. reflexivity. }
      assert (HP : Permutation (objs start size k (S n) ++ L) (objs start size k n ++ p :: L)).
      { unfold objs. rewrite zseq_snoc, map_app, <- app_assoc. reflexivity. }
      assert (Hv1 : Forall (valid start size (objects c size pages)) (p :: L)).
      { constructor; [|assumption]. exists (k + Z.of_nat n). split; [lia|reflexivity]. }
      rewrite HP in Hnd. assert (Hnd' := Hnd). apply NoDup_app_elim in Hnd'. destruct Hnd' as (_ & Hnd1 & _).
      apply push_one_spec with (L := L) in E1; try assumption;
        [|apply (valid_separate start size (objects c size pages)); [lia|assumption]|unfold k_list_end; lia].
      destruct E1 as (B1 & B2 & B3 & B4).
      apply IH with (L := p :: L) in E; try assumption; [|lia|lia].
      destruct E as (L' & C1 & C2 & C3). exists L'. split; [assumption|]. split; [rewrite HP; assumption|].
      intros a Ha. rewrite C3.
      * apply B4. intros q Hq. apply Ha. apply (Permutation_in _ (Permutation_sym HP)). apply in_or_app. auto.
      * intros q Hq. apply Ha. apply (Permutation_in _ (Permutation_sym HP)). assumption.
    + replace (u16 (k * (size / 8) + size / 8)) with ((k + 1) * (size / 8)) in E
        by (unfold u16; rewrite Z.mod_small; nia).
      replace (k + Z.of_nat (S n)) with (k + 1 + Z.of_nat n) in E by lia.
      set (p := obj start size k).
      destruct (list_idx_exact c size pages fp k Hc ltac:(lia) Hu) as (I1 & I2 & I3 & _). fold start p in I3.
      assert (E1 : push_one m start size fl ec p (k * (size / 8)) = (upd m p fl, k * (size / 8), 0)).
      { unfold push_one. rewrite <- Hhh, Econd. reflexivity. }
      assert (HP : Permutation (objs start size k (S n) ++ L) (objs start size (k + 1) n ++ p :: L)).
      { unfold objs. cbn [zseq map app]. apply Permutation_middle. }
      assert (Hv1 : Forall (valid start size (objects c size pages)) (p :: L)).
      { constructor; [|assumption]. exists k. split; [lia|reflexivity]. }
      rewrite HP in Hnd. assert (Hnd' := Hnd). apply NoDup_app_elim in Hnd'. destruct Hnd' as (_ & Hnd1 & _).
      apply push_one_spec with (L := L) in E1; try assumption;
        [|apply (valid_separate start size (objects c size pages)); [lia|assumption]|unfold k_list_end; lia].
      destruct E1 as (B1 & B2 & B3 & B4). rewrite I3 in E.
      apply IH with (L := p :: L) in E; try assumption; [|lia|lia|lia|lia].
      destruct E as (L' & C1 & C2 & C3). exists L'. split; [assumption|]. split; [rewrite HP; assumption|].
      intros a Ha. rewrite C3.
      * apply B4. intros q Hq. apply Ha. apply (Permutation_in _ (Permutation_sym HP)). apply in_or_app. auto.
      * intros q Hq. apply Ha. apply (Permutation_in _ (Permutation_sym HP)). assumption.
Qed.

Lemma build_cache_spec c size pages fp : class_ok c size pages -> use_bitmap_for_size c size = false ->
  forall fuel ca cs k n ca' cs' idx',
  k_cache_size - cs <= Z.of_nat fuel -> 0 <= cs <= k_cache_size -> 0 <= k -> k + Z.of_nat n <= objects c size pages ->
  build_cache fuel ca cs (size / 8) (k * (size / 8)) ((k + Z.of_nat n) * (size / 8)) = (ca', cs', idx') ->
  exists j, (j <= n)%nat /\ cs' = cs + Z.of_nat j /\ cs' <= k_cache_size /\ idx' = (k + Z.of_nat j) * (size / 8) /\
    Permutation (cache_list (fp * page_size c) ca' cs') (objs (fp * page_size c) size k j ++ cache_list (fp * page_size c) ca cs).
Proof.
  intros Hc Hu. 
  pose proof (g_size _ _ _ (class_geom _ _ _ Hc)) as Hsz. pose proof (g_size8 _ _ _ (class_geom _ _ _ Hc)) as Hsz8.
  assert (Hst : 1 <= size / 8) by (apply Z.div_le_lower_bound; lia).
  assert (Hlast : objects c size pages * (size / 8) <= 32768).
  { pose proof (class_geom _ _ _ Hc) as [? ? ? Hpg ? ? ? Hfit ? Hl]. destruct (Hl Hu) as (-> & _).
    pose proof (Z.div_mod size 8 ltac:(lia)). nia. }
  set (start := fp * page_size c) in *.
  induction fuel as [|fuel IH]; intros ca cs k n ca' cs' idx' Hf Hcs Hk Hkn E.
  - cbn in E. injection E as <- <- <-. exists 0%nat. cbn [objs zseq map app]. repeat split; try lia. reflexivity.
  - cbn [build_cache] in E. destruct ((k * (size / 8) <? (k + Z.of_nat n) * (size / 8)) && (cs <? k_cache_size)) eqn:Ec.
    + destruct n as [|n]; [exfalso; clear - Ec; lia|].
      replace (u16 (k * (size / 8) + size / 8)) with ((k + 1) * (size / 8)) in E
        by (unfold u16; rewrite Z.mod_small; nia).
      replace (k + Z.of_nat (S n)) with (k + 1 + Z.of_nat n) in E by lia.
      apply IH in E; try lia. destruct E as (j & J1 & J2 & J3 & J4 & J5).
      exists (S j). split; [lia|]. split; [lia|]. split; [lia|]. split; [rewrite J4; f_equal; lia|].
      rewrite J5. unfold objs. cbn [zseq map app]. rewrite cache_list_snoc by lia.
      destruct (list_idx_exact c size pages fp k Hc ltac:(lia) Hu) as (I1 & I2 & I3 & _). fold start in I3. rewrite I3.
      symmetry. apply Permutation_middle.
    + injection E as <- <- <-. exists 0%nat. cbn [objs zseq map app]. repeat split; try lia. reflexivity.
Qed.

Lemma filter_all {A} (P : A -> bool) l : (forall x, In x l -> P x = true) -> filter P l = l.
Proof.
  induction l as [|a l IH]; intros H; cbn [filter]; [reflexivity|].
  rewrite H by (left; reflexivity). f_equal. apply IH. intros; apply H; right; assumption.
Qed.

Lemma repr_build c size pages m s n l m' s' : class_ok c size pages -> 0 <= n ->
  build_freelist c m s size (objects c size pages) n = (l, m', s') ->
  exists F, Permutation (l ++ F) (objs (span_start c s) size 0 (Z.to_nat (objects c size pages))) /\
    Z.of_nat (length l) = Z.min n (objects c size pages) /\
    span_repr c size pages m' s' F /\ first_page s' = first_page s /\
    allocated s' = Z.of_nat (length l) /\
    (forall a, (forall q, In q F -> ~ (q <= a < q + size)) -> m' a = m a).
Proof.
  intros Hc Hn E. pose proof (objects_small _ _ _ Hc) as Hob.
  pose proof (g_size _ _ _ (class_geom _ _ _ Hc)) as Hsz.
  assert (Hnda := objs_NoDup (span_start c s) size 0 (Z.to_nat (objects c size pages)) ltac:(lia)).
  assert (Hall : Forall (valid (span_start c s) size (objects c size pages)) (objs (span_start c s) size 0 (Z.to_nat (objects c size pages)))).
  { apply Forall_forall. intros p. apply valid_objs. }
  unfold build_freelist in E. destruct (use_bitmap_for_size c size) eqn:Hu.
  - pose proof (g_bitmap _ _ _ (class_geom _ _ _ Hc) Hu) as Hmax.
    set (s0 := MkSpan (first_page s) (embed_count s) k_list_end 0 (cache_size s) (cache s)
       (set_range k_bitmap_size clear_all 0 (objects c size pages))) in *.
    destruct (bitmap_pop_batch c s0 n size) as [l1 s1] eqn:Ep. injection E as <- <- <-.
    assert (Hbits : forall j, bit (bitmap_ s0) j = in_range 0 (objects c size pages) j).
    { intros j. unfold s0, set_range. cbn [bitmap_]. rewrite set_range_value_spec by (unfold k_bitmap_size; lia).
      rewrite bit_clear_all. destruct (in_range _ _ _); reflexivity. }
    assert (Hfil : filter (bit (bitmap_ s0)) (zseq 0 (Z.to_nat k_bitmap_size)) = zseq 0 (Z.to_nat (objects c size pages))).
    { replace (Z.to_nat k_bitmap_size) with (Z.to_nat (objects c size pages) + Z.to_nat (k_bitmap_size - objects c size pages))%nat
        by (unfold k_bitmap_size; lia).
      rewrite zseq_app, filter_app.
      rewrite filter_all. 2: { intros x Hx. apply zseq_In in Hx. rewrite Hbits. unfold in_range. lia. }
      replace (filter (bit (bitmap_ s0)) (zseq _ _)) with (@nil Z); [apply app_nil_r|].
      symmetry. destruct (filter _ _) as [|x t] eqn:Ef; [reflexivity|]. exfalso.
      assert (In x (x :: t)) by (left; reflexivity). rewrite <- Ef in H. apply filter_In in H.
      destruct H as (H1 & H2). apply zseq_In in H1. rewrite Hbits in H2. unfold in_range in H2. lia. }
    assert (Hr0 : span_repr c size pages m s0 (objs (span_start c s) size 0 (Z.to_nat (objects c size pages)))).
    { split; [assumption|split; [assumption|]]. rewrite Hu. split; [|split].
      - unfold s0. cbn [bitmap_]. apply set_range_value_wf; [lia|lia|unfold k_bitmap_size; lia|apply clear_all_wf].
      - intros k Hk. rewrite Hbits. unfold in_range. lia.
      - rewrite Hfil. reflexivity. }
    assert (Ep' : freelist_pop_batch c m s0 n size = (l1, s1)) by (unfold freelist_pop_batch; rewrite Hu; assumption).
    apply (repr_pop c size pages m s0 _ n l1 s1 Hc Hr0 Hn) in Ep'.
    destruct Ep' as (F' & P1 & P2 & P3 & P4 & P5). exists F'.
    assert (Hlen : Z.of_nat (length l1) = Z.min n (objects c size pages)).
    { rewrite P2. unfold objs. rewrite map_length, zseq_length. lia. }
    split; [symmetry; assumption|]. split; [assumption|]. split; [assumption|]. split; [assumption|]. split; [|reflexivity].
    rewrite P5. cbn [allocated s0]. unfold u16. rewrite Z.mod_small; lia.
  - set (result := if n <=? objects c size pages then n else objects c size pages) in *.
    assert (Hres : result = Z.min n (objects c size pages)) by (unfold result; destruct (Z.leb_spec n (objects c size pages)); lia).
    clearbody result.
    assert (Hst : 1 <= size / 8) by (apply Z.div_le_lower_bound; lia).
    assert (Hlast : objects c size pages * (size / 8) <= 32768).
    { pose proof (class_geom _ _ _ Hc) as [? ? ? Hpg ? ? ? Hfit ? Hl]. destruct (Hl Hu) as (-> & _).
      pose proof (Z.div_mod size 8 ltac:(lia)). nia. }
    replace (u16 (size / k_alignment)) with (size / 8) in E.
    2: { unfold u16, k_alignment. rewrite Z.mod_small; [reflexivity|]. nia. }
    replace (u16 (size / 8 * result)) with (result * (size / 8)) in E by (unfold u16; rewrite Z.mod_small; nia).
    replace (u16 (objects c size pages * (size / 8))) with ((result + Z.of_nat (Z.to_nat (objects c size pages - result))) * (size / 8)) in E
      by (unfold u16; rewrite Z.mod_small; nia).
    set (nn := Z.to_nat (objects c size pages - result)) in *.
    destruct (build_cache _ _ _ _ _ _) as [[ca cs] idx] eqn:Ec.
    apply (build_cache_spec c size pages (first_page s) Hc Hu) in Ec; [|unfold k_cache_size; lia|unfold k_cache_size; lia|lia|lia].
    destruct Ec as (j & J1 & J2 & J3 & J4 & J5). subst idx.
    destruct (build_loop _ _ _ _ _ _ _ _ _ _) as [[m1 fl] ec] eqn:El.
    injection E as <- <- <-.
    change (cache_list (first_page s * page_size c) (cache s) 0) with (@nil Z) in J5. rewrite app_nil_r in J5.
    assert (Hsplit : objs (span_start c s) size 0 (Z.to_nat (objects c size pages)) =
      objs (span_start c s) size 0 (Z.to_nat result) ++ objs (span_start c s) size result j ++ objs (span_start c s) size (result + Z.of_nat j) (nn - j)).
    { unfold objs. rewrite <- !map_app. f_equal.
      replace (Z.to_nat (objects c size pages)) with (Z.to_nat result + (j + (nn - j)))%nat by (unfold nn in *; lia).
      rewrite !zseq_app. do 2 f_equal; [|f_equal]; f_equal; lia. }
    rewrite Hsplit in Hnda, Hall. 
    unfold span_start in El at 1. 
    replace (result + Z.of_nat nn) with (result + Z.of_nat j + Z.of_nat (nn - j)) in El by lia.
    apply (build_loop_spec c size pages (first_page s) Hc Hu) with (L := []) in El.
    2: { rewrite Z2Nat.id; nia. }
    2: { lia. }
    2: { unfold nn in *. lia. }
    2: { reflexivity. }
    2: { constructor. apply (max_embed_bounds c size pages) in Hu; [lia|assumption]. }
    2: { rewrite app_nil_r. apply objs_NoDup. lia. }
    2: { constructor. }
    destruct El as (L & L1 & L2 & L3). rewrite app_nil_r in L2, L3.
    exists (cache_list (span_start c s) ca cs ++ L).
    assert (Hpf : Permutation (cache_list (span_start c s) ca cs ++ L)
      (objs (span_start c s) size result j ++ objs (span_start c s) size (result + Z.of_nat j) (nn - j))).
    { unfold span_start. apply Permutation_app; assumption. }
    change (map (fun i => span_start c s + i * size) (zseq 0 (Z.to_nat result))) with (objs (span_start c s) size 0 (Z.to_nat result)).
    assert (Hlen : Z.of_nat (length (objs (span_start c s) size 0 (Z.to_nat result))) = result).
    { unfold objs. rewrite map_length, zseq_length. lia. }
    split; [rewrite Hsplit, Hpf; reflexivity|]. split; [lia|].
    split; [|split; [reflexivity|split; [cbn [allocated]; unfold u16; rewrite Z.mod_small; lia|]]].
    + apply NoDup_app_elim in Hnda. apply Forall_app in Hall.
      split; [unfold span_start at 1; cbn [first_page]; fold (span_start c s); rewrite Hpf; tauto|].
      split; [rewrite Hpf; tauto|]. rewrite Hu.
      split; [cbn [cache_size]; lia|]. exists L. cbn [freelist embed_count cache cache_size].
      unfold span_start. cbn [first_page]. auto.
    + intros a Ha. apply L3. intros q Hq. apply Ha. rewrite Hpf. apply in_or_app. auto.
Qed.

(** ** Writes by the owner of an object *)
Lemma repr_write c size pages m m' s F : class_ok c size pages -> span_repr c size pages m s F ->
  (forall p a, In p F -> p <= a < p + size -> m' a = m a) -> span_repr c size pages m' s F.
Proof.
  intros Hc (A & B & Hr) Hf. split; [assumption|split; [assumption|]].
  destruct (use_bitmap_for_size c size) eqn:Hu; [assumption|].
  destruct (max_embed_bounds c size pages Hc Hu) as (M1 & M2 & M3).
  destruct Hr as (Hcs & L & Hch & HF). split; [assumption|]. exists L. split; [|assumption].
  apply (chain_frame m) with size; [lia|lia|assumption|]. intros p a Hp. apply Hf. rewrite HF. apply in_or_app. auto.
Qed.
