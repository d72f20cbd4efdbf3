(** Lemmas about spans. *)
From Coq Require Import Permutation.
From Verif Require Import Base SizeMap SizeMapProofs SizeMapProofs2 Bitmap BitmapProofs BitmapProofs2 Span.

(** ** Geometry of a size class *)

(** A size class accepted by the allocator (C01): [size] bytes per object,
    [pages] pages per span. *)
Definition class_ok (c : cfg) (size pages : Z) : Prop :=
  cfg_ok c /\ 0 < size /\ 0 < pages /\ exists nt, is_valid_class c size pages nt = true.

Definition objects (c : cfg) (size pages : Z) : Z := pages * page_size c / size.

Definition obj (start size k : Z) : Z := start + k * size.

Record geom (c : cfg) (size pages : Z) : Prop := {
  g_size : 8 <= size <= 262144;
  g_size8 : size mod 8 = 0;
  g_pages : 1 <= pages <= 32;
  g_page : 4096 <= page_size c <= 262144;
  g_pow : is_pow2 (page_size c);
  g_page8 : page_size c mod 8 = 0;
  g_count : 1 <= objects c size pages;
  g_fit : objects c size pages * size <= pages * page_size c;
  g_bitmap : use_bitmap_for_size c size = true -> objects c size pages <= 192;
  g_list : use_bitmap_for_size c size = false -> pages = 1 /\ size < 1366
}.

Lemma page_cases c : cfg_ok c ->
  page_size c = 4096 \/ page_size c = 8192 \/ page_size c = 32768 \/ page_size c = 262144.
Proof.
  intros (sec & numa & _ & Hc). unfold page_size.
  destruct Hc as [->|[->|[->| ->]]]; cbn [page_shift cfg12 cfg13 cfg15 cfg18]; auto.
Qed.

Lemma class_geom c size pages : class_ok c size pages -> geom c size pages.
Proof.
  intros (Hc & Hs & Hp & nt & Hv). apply is_valid_class_facts in Hv.
  destruct Hv as (_ & Hmax & H8 & _ & _ & Hp32 & Hcount & Hspan & _ & _).
  pose proof (cfg_ok_facts c Hc) as (_ & _ & _ & _ & _ & Hpow & Hm).
  pose proof (page_cases c Hc) as Hpc.
  assert (Hs8 : 8 <= size). { pose proof (Z.div_mod size 8 ltac:(lia)). lia. }
  constructor; try assumption; try (clear - Hs8 Hmax Hm Hp Hp32 Hpc Hcount; unfold objects; lia).
  - intros Hu. unfold span_valid_class in Hspan. destruct (k_large_span_length <? pages); [discriminate|].
    rewrite Hu in Hspan. unfold k_bitmap_size in Hspan. unfold objects. lia.
  - intros Hu. unfold span_valid_class in Hspan. destruct (k_large_span_length <? pages); [discriminate|].
    rewrite Hu in Hspan. split; [lia|]. unfold use_bitmap_for_size, k_bitmap_size in Hu.
    assert (page_size c / 192 < 1366). { apply Z.div_lt_upper_bound; clear - Hpc; lia. } lia.
Qed.

Lemma obj_inj start size j k : 0 < size -> obj start size j = obj start size k -> j = k.
Proof. unfold obj. intros. nia. Qed.

(** ** C17: indices *)

Lemma offset_to_idx_exact size k bytes : 0 < size -> 0 <= k < 65536 -> k * size <= bytes -> bytes <= 2 ^ 24 ->
  offset_to_idx (k * size) (calc_reciprocal size) = k.
Proof.
  intros Hs Hk Hb Hm. unfold offset_to_idx, calc_reciprocal.
  assert (Hscale : k_scale = 1073741824) by reflexivity.
  pose proof (Z.div_mod k_scale size ltac:(lia)) as Hd. pose proof (Z.mod_pos_bound k_scale size Hs) as Hr.
  set (q := k_scale / size) in *. set (r := k_scale mod size) in *. clearbody q r.
  assert (E : k * size * q = k * k_scale - k * r) by nia.
  assert (Hkr : 0 <= k * r <= 2 ^ 24) by nia.
  change (2 ^ 24) with 16777216 in *.
  replace (k_scale / 2) with 536870912 by reflexivity.
  rewrite wrap64_small.
  - replace ((k * size * q + 536870912) / k_scale) with k.
    + unfold u16. apply Z.mod_small. lia.
    + apply Z.div_unique_pos with (536870912 - k * r); rewrite ?Hscale in *; lia.
  - rewrite E, Hscale. split; [|unfold two64; lia]. lia.
Qed.

Lemma bitmap_idx_exact c size pages start k : class_ok c size pages ->
  0 <= k < objects c size pages -> use_bitmap_for_size c size = true ->
  bitmap_ptr_to_idx start (obj start size k) (calc_reciprocal size) = k.
Proof.
  intros Hc Hk Hu. apply class_geom in Hc. destruct Hc as [g_size0 g_size9 g_pages0 g_page0 g_pow0 g_page9 g_count0 g_fit0 g_bitmap0 g_list0]. unfold bitmap_ptr_to_idx, obj.
  specialize (g_bitmap0 Hu).
  replace (start + k * size - start) with (k * size) by lia.
  assert (0 <= k * size <= 8388608) by nia.
  unfold u32. rewrite Z.mod_small by (change (2 ^ 32) with 4294967296; lia).
  apply offset_to_idx_exact with (k * size); change (2^24) with 16777216; lia.
Qed.

Lemma list_idx_exact c size pages fp k : class_ok c size pages ->
  0 <= k < objects c size pages -> use_bitmap_for_size c size = false ->
  ptr_to_idx c (obj (fp * page_size c) size k) = k * (size / 8) /\
  0 <= k * (size / 8) < 32768 /\
  idx_to_ptr (fp * page_size c) (k * (size / 8)) = obj (fp * page_size c) size k /\
  Z.ldiff (obj (fp * page_size c) size k) (page_size c - 1) = fp * page_size c.
Proof.
  intros Hc Hk Hu. apply class_geom in Hc. destruct Hc as [g_size0 g_size9 g_pages0 g_page0 g_pow0 g_page9 g_count0 g_fit0 g_bitmap0 g_list0]. destruct (g_list0 Hu) as (-> & Hs).
  pose proof (Z.div_mod size 8 ltac:(lia)) as E8. rewrite g_size9 in E8.
  set (st := size / 8) in *. set (ps := page_size c) in *. unfold obj.
  assert (0 <= k * size) by nia. assert (k * size + size <= ps) by nia.
  assert (Hmod : (fp * ps + k * size) mod ps = k * size).
  { rewrite Z.add_comm, Z.mod_add, Z.mod_small by lia. reflexivity. }
  split; [|split; [|split]].
  - unfold ptr_to_idx. fold ps. rewrite land_pow2_mod' by assumption. rewrite Hmod.
    rewrite Z.shiftr_div_pow2 by lia. change (2 ^ 3) with 8.
    replace (k * size / 8) with (k * st) by (rewrite E8; replace (k * (8 * st + 0)) with (k * st * 8) by lia; now rewrite Z.div_mul).
    unfold u16. apply Z.mod_small. nia.
  - nia.
  - unfold idx_to_ptr. rewrite Z.shiftl_mul_pow2 by lia. change (2 ^ 3) with 8. lia.
  - rewrite ldiff_pow2' by assumption. rewrite Hmod. lia.
Qed.

(** ** The list representation *)

(** [L] are the objects on the freelist, in the order they are popped. *)
Inductive chain (m : memory) (start me : Z) : Z -> Z -> list Z -> Prop :=
| chain_end ec : 0 <= ec <= me -> chain m start me k_list_end ec []
| chain_host fl ec rest : fl <> k_list_end -> 0 <= ec <= me ->
    chain m start me (m (idx_to_ptr start fl)) me rest ->
    chain m start me fl ec
      (map (fun i => idx_to_ptr start (m (idx_to_ptr start fl + 2 * (ec - i)))) (zseq 0 (Z.to_nat ec))
       ++ idx_to_ptr start fl :: rest).

Lemma chain_end_inv m start me ec L : chain m start me k_list_end ec L -> L = [].
Proof. intros H. inversion H; subst; [reflexivity|congruence]. Qed.

Lemma chain_ec m start me fl ec L : chain m start me fl ec L -> 0 <= ec <= me.
Proof. intros H. inversion H; assumption. Qed.

Lemma zseq_map_ext {A} (f g : Z -> A) n : forall i,
  (forall j, i <= j < i + Z.of_nat n -> f j = g j) -> map f (zseq i n) = map g (zseq i n).
Proof.
  induction n as [|n IH]; intros i H; cbn [zseq map]; [reflexivity|].
  rewrite (H i) by lia. f_equal. apply IH. intros; apply H; lia.
Qed.

Lemma zseq_map_off {A} (f : Z -> A) n d : forall i, map f (zseq (i + d) n) = map (fun x => f (x + d)) (zseq i n).
Proof.
  induction n as [|n IH]; intros i; cbn [zseq map]; [reflexivity|].
  f_equal. rewrite <- IH. do 2 f_equal. lia.
Qed.

Lemma chain_frame m m' start me size fl ec L : 0 <= me -> 2 * me < size ->
  chain m start me fl ec L ->
  (forall p a, In p L -> p <= a < p + size -> m' a = m a) ->
  chain m' start me fl ec L.
Proof.
  intros Hme Hsz H. induction H as [ec He|fl ec rest Hne Hec H IH]; intros Hf; [constructor; assumption|].
  assert (Hh : forall a, idx_to_ptr start fl <= a < idx_to_ptr start fl + size -> m' a = m a).
  { intros a Ha. apply (Hf (idx_to_ptr start fl)); [|assumption]. apply in_or_app. right. left. reflexivity. }
  rewrite (zseq_map_ext _ (fun i => idx_to_ptr start (m' (idx_to_ptr start fl + 2 * (ec - i))))).
  - constructor; [assumption|assumption|]. rewrite Hh by lia. apply IH.
    intros p a Hp. apply Hf. apply in_or_app. right. right. assumption.
  - intros j Hj. rewrite Hh by lia. reflexivity.
Qed.

Lemma pop_loop_spec m start size : 
  0 <= max_embed size < 65536 -> 
  forall fuel fl ec n L, chain m start (max_embed size) fl ec L -> 0 <= n <= Z.of_nat fuel ->
  exists fl' ec', list_pop_loop fuel m start size fl ec n = (firstn (Z.to_nat n) L, fl', ec') /\
    chain m start (max_embed size) fl' ec' (skipn (Z.to_nat n) L).
Proof.
  intros Hme. induction fuel as [|fuel IH]; intros fl ec n L Hch Hn; cbn [list_pop_loop].
  - replace n with 0 by lia. cbn. eauto.
  - destruct (Z.leb_spec n 0) as [Hn0|Hn0].
    { replace n with 0 by lia. cbn. eauto. }
    destruct Hch as [ec He|fl ec rest Hne Hec Hch].
    { change (k_list_end =? k_list_end) with true. cbv iota. rewrite firstn_nil, skipn_nil.
      exists k_list_end, ec. split; [reflexivity|constructor; assumption]. }
    replace (fl =? k_list_end) with false by lia.
    set (host := idx_to_ptr start fl) in *.
    set (es := map (fun i => idx_to_ptr start (m (host + 2 * (ec - i)))) (zseq 0 (Z.to_nat ec))).
    assert (Hlen : length es = Z.to_nat ec) by (subst es; rewrite map_length, zseq_length; reflexivity).
    destruct (Z.ltb_spec n ec) as [Hlt|Hge].
    + replace (n - n =? 0) with true by lia.
      exists fl, (ec - n). split.
      * f_equal. f_equal. rewrite firstn_app. rewrite Hlen.
        replace (Z.to_nat n - Z.to_nat ec)%nat with 0%nat by lia. rewrite firstn_O, app_nil_r.
        subst es. rewrite firstn_map, zseq_firstn by lia. reflexivity.
      * rewrite skipn_app. rewrite Hlen. replace (Z.to_nat n - Z.to_nat ec)%nat with 0%nat by lia. rewrite skipn_O.
        assert (E : skipn (Z.to_nat n) es =
          map (fun i => idx_to_ptr start (m (host + 2 * (ec - n - i)))) (zseq 0 (Z.to_nat (ec - n)))).
        { subst es. replace (Z.to_nat ec) with (Z.to_nat n + Z.to_nat (ec - n))%nat by lia.
          rewrite zseq_app, map_app, skipn_app, map_length, zseq_length.
          rewrite Nat.sub_diag, skipn_O, skipn_all2 by (rewrite map_length, zseq_length; lia). cbn [app].
          rewrite zseq_map_off. apply zseq_map_ext. intros j Hj. do 3 f_equal. lia. }
        rewrite E. constructor; [assumption|lia|assumption].
    + destruct (Z.eqb_spec (n - ec) 0) as [He|He].
      * exists fl, (ec - ec). assert (n = ec) by lia. subst n. split.
        -- f_equal. f_equal. rewrite firstn_app, Hlen, Nat.sub_diag, firstn_O, app_nil_r.
           rewrite firstn_all2 by lia. reflexivity.
        -- rewrite skipn_app, Hlen, Nat.sub_diag, skipn_O, skipn_all2 by lia. cbn [app].
           replace (ec - ec) with 0 by lia.
           change (host :: rest) with (map (fun i => idx_to_ptr start (m (host + 2 * (0 - i)))) (zseq 0 (Z.to_nat 0)) ++ host :: rest).
           constructor; [assumption|lia|assumption].
      * unfold u16. rewrite Z.mod_small by lia.
        destruct (IH (m host) (max_embed size) (n - ec - 1) rest Hch ltac:(lia)) as (fl' & ec' & -> & Hch').
        exists fl', ec'. split.
        -- f_equal. f_equal. fold es. rewrite firstn_app, Hlen, (firstn_all2 es) by lia. f_equal.
           replace (Z.to_nat n - Z.to_nat ec)%nat with (S (Z.to_nat (n - ec - 1))) by lia. reflexivity.
        -- rewrite skipn_app, Hlen, skipn_all2 by lia. cbn [app].
           replace (Z.to_nat n - Z.to_nat ec)%nat with (S (Z.to_nat (n - ec - 1))) by lia. cbn [skipn]. assumption.
Qed.

(** One push onto the freelist: the common step of ListPushBatch and
    BuildFreelist. *)
Definition push_one (m : memory) (start size fl ec p idx : Z) : memory * Z * Z :=
  if negb (fl =? k_list_end) && negb (ec =? max_embed size)
  then (upd m (idx_to_ptr start fl + 2 * (ec + 1)) idx, fl, ec + 1)
  else (upd m p fl, idx, 0).

(** Objects are separated: different list elements do not share memory. *)
Definition separate (size : Z) (L : list Z) : Prop :=
  forall p q, In p L -> In q L -> p <> q -> p + size <= q \/ q + size <= p.

Lemma push_one_spec m start size fl ec L p idx m' fl' ec' :
  0 <= max_embed size -> 2 * max_embed size < size - 1 ->
  chain m start (max_embed size) fl ec L ->
  NoDup (p :: L) -> separate size (p :: L) ->
  idx <> k_list_end -> idx_to_ptr start idx = p ->
  push_one m start size fl ec p idx = (m', fl', ec') ->
  chain m' start (max_embed size) fl' ec' (p :: L) /\
  fl' <> k_list_end /\ 0 <= ec' <= max_embed size /\
  (forall a, (forall q, In q (p :: L) -> ~ (q <= a < q + size)) -> m' a = m a).
Proof.
  intros Hme Hsz Hch Hnd Hsep Hidx Hp E. unfold push_one in E.
  inversion Hnd as [|? ? HpL HndL]; subst x l.
  destruct (Z.eqb_spec fl k_list_end) as [He|He]; cbn [negb andb] in E.
  - injection E as <- <- <-. subst fl. apply chain_end_inv in Hch. subst L.
    split; [|split; [assumption|split; [lia|]]].
    + replace [p] with (map (fun i => idx_to_ptr start (upd m p k_list_end (idx_to_ptr start idx + 2 * (0 - i))))
        (zseq 0 (Z.to_nat 0)) ++ idx_to_ptr start idx :: []) by (change (Z.to_nat 0) with 0%nat; cbn [zseq map app]; rewrite Hp; reflexivity).
      constructor; [assumption|lia|]. rewrite Hp. unfold upd. rewrite Z.eqb_refl. constructor. lia.
    + intros a Ha. unfold upd. destruct (Z.eqb_spec a p) as [->|]; [|reflexivity].
      exfalso. apply (Ha p); [left; reflexivity|lia].
  - assert (Hec : 0 <= ec <= max_embed size) by (inversion Hch; [congruence|assumption]).
    destruct (Z.eqb_spec ec (max_embed size)) as [Hf|Hf]; cbn [negb andb] in E.
    + injection E as <- <- <-. split; [|split; [assumption|split; [lia|]]].
      * replace (p :: L) with (map (fun i => idx_to_ptr start (upd m p fl (idx_to_ptr start idx + 2 * (0 - i))))
          (zseq 0 (Z.to_nat 0)) ++ idx_to_ptr start idx :: L) by (change (Z.to_nat 0) with 0%nat; cbn [zseq map app]; rewrite Hp; reflexivity).
        constructor; [assumption|lia|]. rewrite Hp. unfold upd at 2. rewrite Z.eqb_refl.
        subst ec. apply (chain_frame m) with size; [lia|lia|assumption|].
        intros q a Hq Ha. unfold upd. destruct (Z.eqb_spec a p) as [->|]; [|reflexivity].
        exfalso. destruct (Hsep p q (or_introl eq_refl) (or_intror Hq)); [congruence|lia|lia].
      * intros a Ha. unfold upd. destruct (Z.eqb_spec a p) as [->|]; [|reflexivity].
        exfalso. apply (Ha p); [left; reflexivity|lia].
    + injection E as <- <- <-. inversion Hch as [|fl1 ec1 rest Hne Hec1 Hrest]; subst; [congruence|].
      set (host := idx_to_ptr start fl) in *.
      set (m' := upd m (host + 2 * (ec + 1)) idx).
      split; [|split; [assumption|split; [lia|]]].
      * assert (E1 : idx_to_ptr start idx :: map (fun i => idx_to_ptr start (m (host + 2 * (ec - i)))) (zseq 0 (Z.to_nat ec)) ++ host :: rest =
                map (fun i => idx_to_ptr start (m' (host + 2 * (ec + 1 - i)))) (zseq 0 (Z.to_nat (ec + 1))) ++ host :: rest).
        { replace (Z.to_nat (ec + 1)) with (S (Z.to_nat ec)) by lia. cbn [zseq map app]. f_equal; [|f_equal].
          - f_equal. unfold m', upd. replace (host + 2 * (ec + 1 - 0) =? host + 2 * (ec + 1)) with true by lia. reflexivity.
          - rewrite (zseq_map_off _ _ 1 0). apply zseq_map_ext. intros j Hj. unfold m', upd.
            replace (host + 2 * (ec + 1 - (j + 1)) =? host + 2 * (ec + 1)) with false by lia. do 3 f_equal. lia. }
        rewrite E1. constructor; [assumption|lia|]. fold host.
        assert (Hhost : m' host = m host) by (unfold m', upd; replace (host =? host + 2 * (ec + 1)) with false by lia; reflexivity).
        rewrite Hhost. apply (chain_frame m) with size; [lia|lia|assumption|].
        intros q a Hq Ha. unfold m', upd. destruct (Z.eqb_spec a (host + 2 * (ec + 1))) as [->|]; [|reflexivity].
        exfalso. assert (q <> host).
        { intros ->. apply NoDup_remove_2 in HndL. apply HndL. apply in_or_app. auto. }
        destruct (Hsep q host) as [Hs|Hs]; [right; apply in_or_app; right; right; assumption|
          right; apply in_or_app; right; left; reflexivity|assumption|lia|lia].
      * intros a Ha. unfold m', upd. destruct (Z.eqb_spec a (host + 2 * (ec + 1))) as [->|]; [|reflexivity].
        exfalso. apply (Ha host); [right; apply in_or_app; right; left; reflexivity|lia].
Qed.

(** ** The cache *)

Definition cache_list (start : Z) (ca : Z -> Z) (cs : Z) : list Z :=
  map (fun r => idx_to_ptr start (ca (cs - r - 1))) (zseq 0 (Z.to_nat cs)).

Lemma cache_list_snoc start ca cs i : 0 <= cs ->
  cache_list start (upd ca cs i) (cs + 1) = idx_to_ptr start i :: cache_list start ca cs.
Proof.
  intros H. unfold cache_list. replace (Z.to_nat (cs + 1)) with (S (Z.to_nat cs)) by lia.
  cbn [zseq map]. f_equal.
  - unfold upd. replace (cs + 1 - 0 - 1 =? cs) with true by lia. reflexivity.
  - rewrite (zseq_map_off _ _ 1 0). apply zseq_map_ext. intros j Hj. unfold upd.
    replace (cs + 1 - (j + 1) - 1 =? cs) with false by lia. do 2 f_equal. lia.
Qed.

Lemma cache_fill_list start idxs : forall ca cs, 0 <= cs ->
  cache_list start (cache_fill ca cs idxs) (cs + Z.of_nat (length idxs)) =
  rev (map (idx_to_ptr start) idxs) ++ cache_list start ca cs.
Proof.
  induction idxs as [|i idxs IH]; intros ca cs H; cbn [cache_fill length map rev].
  - replace (cs + Z.of_nat 0) with cs by lia. reflexivity.
  - replace (cs + Z.of_nat (S (length idxs))) with (cs + 1 + Z.of_nat (length idxs)) by lia.
    rewrite IH by lia. rewrite cache_list_snoc by assumption. rewrite <- app_assoc. reflexivity.
Qed.

Lemma cache_list_pop start ca cs n : 0 <= n <= cs ->
  map (fun r => idx_to_ptr start (ca (cs - r - 1))) (zseq 0 (Z.to_nat n)) = firstn (Z.to_nat n) (cache_list start ca cs) /\
  cache_list start ca (cs - n) = skipn (Z.to_nat n) (cache_list start ca cs).
Proof.
  intros H. unfold cache_list. split.
  - rewrite firstn_map, zseq_firstn by lia. reflexivity.
  - replace (Z.to_nat cs) with (Z.to_nat n + Z.to_nat (cs - n))%nat by lia.
    rewrite zseq_app, map_app, skipn_app, map_length, zseq_length, Nat.sub_diag, skipn_O.
    rewrite skipn_all2 by (rewrite map_length, zseq_length; lia). cbn [app].
    rewrite zseq_map_off. apply zseq_map_ext. intros j Hj. do 2 f_equal. lia.
Qed.

Lemma cache_list_length start ca cs : length (cache_list start ca cs) = Z.to_nat cs.
Proof. unfold cache_list. now rewrite map_length, zseq_length. Qed.
