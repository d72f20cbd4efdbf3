(** Properties C04 - C08: the entry points. *)
From Verif Require Import Base SizeMap SizeMapProofs SizeMapProofs2 Tables SizeMapProps FrontApi FrontApiProofs.

(** ** Specification *)

(** The number of bytes an allocation of [size] bytes aligned to [al] occupies:
    the best fitting object size or, for requests no class serves, a whole
    number of pages. *)
Definition usable_spec (c : cfg) (t : list sci) (al size x : Z) : Prop :=
  (al <= page_size c /\ size <= max_size c /\ best_fit (table_sizes c t) al size x) \/
  ((page_size c < al \/ max_size c < size) /\
   size <= x /\ 0 < x /\ (page_size c | x) /\ x - page_size c < Z.max size 1).

(** What the layers below the entry points guarantee about an outcome: the
    address is new, and an allocation too large for the address space fails. *)
Definition outcome_ok (w : world) (c : cfg) (size : Z) (o : outcome) : Prop :=
  match o with
  | OutOfMemory => True
  | Plain a _ | Sampled a _ | Guarded a _ =>
      a <> 0 /\ heap w a = None /\ size + page_size c <= two64
  end.

(** ** C04 *)

Lemma alloc_usable c active full t m p ret size o a b n :
  configured c active full t m -> policy_ok c p -> 0 <= size -> size + page_size c <= two64 ->
  fast_alloc c m p ret size o = AllocOk a b n ->
  exists x, usable_spec c t (align p) size x /\
    if is_guarded b then get_size m b = size /\ n = size else get_size m b = x /\ n = x.
Proof.
  intros Hcf Hp Hs Hb. pose proof Hcf as (Hc & _).
  pose proof (page_size_pos c Hc) as Hps.
  unfold fast_alloc.
  destruct (lookup_cases c active full t m p size Hcf Hp Hs)
    as [(Ha & Hx & cl & E & Hcl & Hbf)|(Hx & E)]; rewrite E.
  - intros H. exists (class_to_size m cl). split; [left; auto|].
    destruct o; inversion H; subst; clear H; cbn.
    + unfold get_size, get_size_and_sampled. cbn.
      replace (cl =? 0) with false by lia. cbn. auto.
    + auto.
    + auto.
  - intros H. exists (length_in_bytes c (Z.max (bytes_to_length_ceil c size) 1)). split.
    + right. split; [assumption|].
      destruct (ceil_bytes c size Hc Hs Hb) as (C1 & C2 & C3 & C4).
      destruct (Z.le_gt_cases 1 (bytes_to_length_ceil c size)) as [H1|H1].
      * rewrite Z.max_l by lia. split; [lia|]. split; [rewrite C1; nia|]. split; [assumption|lia].
      * assert (size = 0) by nia. subst size. rewrite Z.max_r by lia.
        unfold length_in_bytes. rewrite wrap64_small by (unfold two64; lia).
        split; [lia|]. split; [lia|]. split; [apply Z.divide_factor_r|lia].
    + destruct o; inversion H; subst; clear H; cbn; auto.
Qed.

Lemma nallocx_usable c active full t m numa size flags :
  configured c active full t m -> 0 <= numa < numa_parts c -> 0 <= size -> size + page_size c <= two64 ->
  (page_size c < 2 ^ Z.land flags 63 -> 0 < size) ->
  exists x, nallocx c m numa size flags = Some x /\ usable_spec c t (2 ^ Z.land flags 63) size x.
Proof.
  intros Hcf Hn Hs Hb Hz. pose proof Hcf as (Hc & _).
  pose proof (page_size_pos c Hc) as Hps.
  assert (Hfl : 0 <= Z.land flags 63) by (change 63 with (Z.ones 6); rewrite Z.land_ones by lia; apply Z.mod_pos_bound; reflexivity).
  assert (Hpg : 0 < size -> page_size c < 2 ^ Z.land flags 63 \/ max_size c < size ->
     usable_spec c t (2 ^ Z.land flags 63) size (length_in_bytes c (bytes_to_length_ceil c size))).
  { intros H0 Hx. right. split; [assumption|].
    destruct (ceil_bytes c size Hc Hs Hb) as (C1 & C2 & C3 & C4).
    split; [lia|]. split; [lia|]. split; [assumption|lia]. }
  assert (Hmx : 0 < max_size c) by (destruct (cfg_ok_facts c Hc) as ((? & _) & _); lia).
  unfold nallocx. destruct (Z.eqb_spec flags 0) as [->|Hne]; cbn [negb].
  - change (2 ^ Z.land 0 63) with 1 in *.
    destruct (lookup_cases c active full t m (cpp_policy c numa) size Hcf (cpp_policy_ok c numa Hc Hn) Hs)
      as [(Ha & Hx & cl & E & Hcl & Hbf)|(Hx & E)]; rewrite E; eexists; (split; [reflexivity|]).
    + left. cbn [align cpp_policy] in Hbf. repeat split; try lia; apply Hbf.
    + apply Hpg; cbn [align cpp_policy] in Hx; [lia|lia].
  - unfold nallocx_slow. rewrite Z.shiftl_mul_pow2, Z.mul_1_l by assumption.
    assert (Hok : policy_ok c (align_as (cpp_policy c numa) (2 ^ Z.land flags 63))).
    { apply align_as_ok; [apply cpp_policy_ok; assumption|]. exists (Z.land flags 63). auto. }
    destruct (lookup_cases c active full t m _ size Hcf Hok Hs)
      as [(Ha & Hx & cl & E & Hcl & Hbf)|(Hx & E)]; rewrite E; eexists; (split; [reflexivity|]).
    + left. cbn [align align_as] in *. repeat split; try lia; apply Hbf.
    + cbn [align align_as] in Hx. apply Hpg; [|assumption].
      destruct Hx as [Hx|Hx]; [auto|lia].
Qed.

Lemma usable_spec_unique c t al size x y : cfg_ok c ->
  usable_spec c t al size x -> usable_spec c t al size y -> x = y.
Proof.
  intros Hc. pose proof (page_size_pos c Hc) as Hps.
  intros [(A1 & A2 & A3)|(A1 & A2 & A3 & (i & A4) & A5)] [(B1 & B2 & B3)|(B1 & B2 & B3 & (j & B4) & B5)]; try lia.
  - eapply best_fit_unique; eassumption.
  - subst x y. assert (i = j) by nia. congruence.
Qed.

(** nallocx tells the usable size of every allocation with the same alignment,
    whatever its hot/cold and partition placement and whichever of malloc,
    operator new or an aligned variant makes it; the flags are the base-2
    logarithm of the alignment (0 for plain operator new, 4 for malloc). *)
Theorem nallocx_matches_allocation : forall c active full t m numa p ret size flags o a b n,
  configured c active full t m -> 0 <= numa < numa_parts c -> policy_ok c p ->
  align p = 2 ^ Z.land flags 63 ->
  0 <= size -> size + page_size c <= two64 -> (page_size c < align p -> 0 < size) ->
  fast_alloc c m p ret size o = AllocOk a b n -> is_guarded b = false ->
  exists x, nallocx c m numa size flags = Some x /\
    size <= x /\ usable_spec c t (align p) size x /\ get_size m b = x /\ n = x.
Proof.
  intros c active full t m numa p ret size flags o a b n Hcf Hn Hp Hal Hs Hb Hz Ha Hg.
  pose proof Hcf as (Hc & _).
  rewrite Hal in Hz.
  destruct (nallocx_usable c active full t m numa size flags Hcf Hn Hs Hb Hz) as (x & E & Hx).
  destruct (alloc_usable _ _ _ _ _ _ _ _ _ _ _ _ Hcf Hp Hs Hb Ha) as (y & Hy & H).
  rewrite Hg in H. destruct H as (H1 & H2). rewrite Hal in Hy |- *.
  assert (x = y) by (eapply usable_spec_unique; eassumption). subst y.
  exists x. split; [exact E|].
  split; [|split; [exact Hx|split; congruence]].
  destruct Hx as [(_ & _ & (_ & Hq & _))|(_ & Hq & _)]; exact Hq.
Qed.
Print Assumptions nallocx_matches_allocation.

(** Plain malloc aligns to 16 bytes while nallocx(size, 0) does not: its answer
    is then only a lower bound of what malloc hands out ... *)
Theorem nallocx_bounds_malloc : forall c active full t m numa numa' size o a b n,
  configured c active full t m -> 0 <= numa < numa_parts c -> 0 <= numa' < numa_parts c ->
  0 <= size -> size + page_size c <= two64 ->
  fast_alloc c m (malloc_policy c numa') false size o = AllocOk a b n -> is_guarded b = false ->
  exists x, nallocx c m numa size 0 = Some x /\ size <= x <= get_size m b /\
            nallocx c m numa size 4 = Some (get_size m b).
Proof.
  intros c active full t m numa numa' size o a b n Hcf Hn Hn' Hs Hb Ha Hg.
  pose proof Hcf as (Hc & _). pose proof (page_size_pos c Hc) as Hps.
  destruct (nallocx_usable c active full t m numa size 0 Hcf Hn Hs Hb) as (x & E & Hx).
  { change (2 ^ Z.land 0 63) with 1. lia. }
  destruct (nallocx_matches_allocation c active full t m numa (malloc_policy c numa') false size 4 o a b n
     Hcf Hn (malloc_policy_ok c numa' Hc Hn') eq_refl Hs Hb ltac:(cbn; lia) Ha Hg)
    as (y & E4 & Hy1 & Hy2 & Hy3 & _).
  exists x. split; [exact E|]. rewrite Hy3. split; [|exact E4].
  change (2 ^ Z.land 0 63) with 1 in Hx. cbn [align malloc_policy] in Hy2. clear - Hx Hy2 Hps.
  destruct Hx as [(A1 & A2 & (A3 & A4 & A5 & A6))|(A1 & A2 & A3 & (i & A4) & A5)];
    destruct Hy2 as [(B1 & B2 & (B3 & B4 & B5 & B6))|(B1 & B2 & B3 & (j & B4) & B5)]; try lia.
  - split; [assumption|]. apply A6; [assumption|assumption|apply Z.divide_1_l].
  - subst x y. split; [lia|]. apply Z.mul_le_mono_nonneg_r; [lia|].
    assert ((i - 1) * page_size c < j * page_size c) by lia. nia.
Qed.
Print Assumptions nallocx_bounds_malloc.

(** ... and can be smaller: with a shipped table nallocx(8, 0) is 8 but
    malloc(8) hands out 16 bytes.  (nallocx is documented as "the real size of
    the allocation that would result from the equivalent malloc function call".) *)
Theorem nallocx_malloc_refuted :
  exists c t m, configured c false false t m /\
    nallocx c m 0 8 0 = Some 8 /\
    forall o a b n, fast_alloc c m (malloc_policy c 0) false 8 o = AllocOk a b n ->
      is_guarded b = false -> 16 <= get_size m b.
Proof.
  set (c := cfg13 1 1).
  assert (Hc : cfg_ok c) by (exists 1, 1; split; [lia|auto]).
  assert (Hin : In t_def_8_13 (tables (page_shift c))) by (cbn; tauto).
  destruct (shipped_tables_accepted c _ Hc Hin) as (Hv & Hf).
  destruct (accepted_table_initialises c false false _ Hc Hf Hv) as (m & Em).
  exists c, t_def_8_13, m. assert (Hcf : configured c false false t_def_8_13 m) by (repeat split; assumption).
  split; [exact Hcf|].
  destruct (nallocx_usable c false false _ m 0 8 0 Hcf ltac:(cbn; lia) ltac:(lia)) as (x & E & Hx).
  { unfold two64, page_size. cbn. lia. } { lia. }
  change (2 ^ Z.land 0 63) with 1 in Hx.
  assert (Hx8 : x = 8).
  { destruct Hx as [(_ & _ & (X1 & X2 & X3 & X4))|(H & _)].
    - assert (x <= 8); [|lia]. apply X4; [|lia|apply Z.divide_1_l]. left. reflexivity.
    - exfalso. change (page_size c) with 8192 in H. change (max_size c) with 262144 in H. lia. }
  split; [congruence|]. intros o a b n Ha Hg.
  destruct (alloc_usable c false false _ m (malloc_policy c 0) false 8 o a b n Hcf
              (malloc_policy_ok c 0 Hc ltac:(cbn; lia)) ltac:(lia)) as (y & Hy & H).
  { unfold two64, page_size. cbn. lia. } { exact Ha. }
  rewrite Hg in H. destruct H as (-> & _). cbn [align malloc_policy] in Hy.
  destruct Hy as [(_ & _ & (Y1 & Y2 & (j & ->) & Y4))|(H & _)]; [lia|].
  exfalso. change (page_size c) with 8192 in H. change (max_size c) with 262144 in H. lia.
Qed.
Print Assumptions nallocx_malloc_refuted.

(** Without the two provisos the agreement fails: a guarded sample has exactly
    the requested number of usable bytes, and a zero-byte over-aligned request
    occupies a page although nallocx says 0. *)
Theorem nallocx_guarded_refuted :
  exists c t m o b a n x, configured c false false t m /\
    fast_alloc c m (cpp_policy c 0) false 7 o = AllocOk a b n /\
    nallocx c m 0 7 0 = Some x /\ get_size m b < x.
Proof.
  set (c := cfg13 1 1).
  assert (Hc : cfg_ok c) by (exists 1, 1; split; [lia|auto]).
  assert (Hin : In t_def_8_13 (tables (page_shift c))) by (cbn; tauto).
  destruct (shipped_tables_accepted c _ Hc Hin) as (Hv & Hf).
  destruct (accepted_table_initialises c false false _ Hc Hf Hv) as (m & Em).
  assert (Hcf : configured c false false t_def_8_13 m) by (repeat split; assumption).
  assert (Hp : policy_ok c (cpp_policy c 0)) by (apply cpp_policy_ok; [assumption|cbn; lia]).
  destruct (lookup_cases c false false _ m _ 7 Hcf Hp ltac:(lia)) as [(_ & _ & cl & E & Hcl & Hbf)|(H & _)].
  2:{ exfalso. change (page_size c) with 8192 in H. change (max_size c) with 262144 in H. cbn in H. lia. }
  exists c, t_def_8_13, m, (Guarded 8192 (fun _ => 0)).
  do 2 eexists. exists 7, (class_to_size m cl).
  split; [exact Hcf|]. split; [unfold fast_alloc; rewrite E; reflexivity|].
  split; [unfold nallocx; cbn [Z.eqb negb]; rewrite E; reflexivity|].
  cbn [get_size get_size_and_sampled fst b_class b_sample Z.eqb negb s_guarded s_requested].
  destruct Hbf as (B1 & B2 & _). apply table_sizes_in in B1; [|assumption|assumption].
  destruct B1 as (k & Hk & Ek).
  pose proof (so_mod8 _ _ _ (valid_sizes_ok c _ Hc Hf Hv) k ltac:(lia)) as H8. cbv beta in H8.
  rewrite Ek in H8. unfold get_size, get_size_and_sampled. cbn. dlia.
Qed.
Print Assumptions nallocx_guarded_refuted.

Theorem nallocx_zero_overaligned_refuted :
  exists c t m, configured c false false t m /\ nallocx c m 0 0 14 = Some 0 /\
    forall o a b n,
      fast_alloc c m (align_as (cpp_policy c 0) (2 ^ 14)) false 0 o = AllocOk a b n -> get_size m b = 8192.
Proof.
  set (c := cfg13 1 1).
  assert (Hc : cfg_ok c) by (exists 1, 1; split; [lia|auto]).
  assert (Hin : In t_def_8_13 (tables (page_shift c))) by (cbn; tauto).
  destruct (shipped_tables_accepted c _ Hc Hin) as (Hv & Hf).
  destruct (accepted_table_initialises c false false _ Hc Hf Hv) as (m & Em).
  exists c, t_def_8_13, m. split; [repeat split; assumption|]. split; [reflexivity|].
  intros o a b n H. destruct o; inversion H; reflexivity.
Qed.
Print Assumptions nallocx_zero_overaligned_refuted.

(** ** C05 *)

(** calloc on a product that does not fit: null, ENOMEM, nothing reached the
    allocator. *)
Theorem calloc_overflow : forall bi c m numa w n elem o,
  u64 n -> u64 elem -> two64 <= n * elem ->
  api_calloc bi c m numa w n elem o = Some (0, World (heap w) ENOMEM (trace w)).
Proof.
  intros bi c m numa w n elem o Hn He Hov. unfold api_calloc.
  rewrite multiply_overflow_spec by assumption.
  replace (n * elem <? two64) with false by lia. reflexivity.
Qed.
Print Assumptions calloc_overflow.

(** calloc on a product that fits: one request of exactly n*elem bytes, and on
    success a block whose first n*elem bytes are zero. *)
Theorem calloc_exact : forall bi c active full t m numa w n elem o,
  configured c active full t m -> 0 <= numa < numa_parts c ->
  u64 n -> u64 elem -> n * elem < two64 -> outcome_ok w c (n * elem) o ->
  exists r w', api_calloc bi c m numa w n elem o = Some (r, w') /\
    trace w' = EvAlloc (n * elem) 16 :: trace w /\
    (r = 0 /\ errno w' = ENOMEM /\ heap w' = heap w \/
     r <> 0 /\ heap w r = None /\ exists b, heap w' r = Some b /\
       n * elem <= get_size m b /\
       (forall i, 0 <= i < n * elem -> b_data b i = 0) /\
       (forall q, q <> r -> heap w' q = heap w q)).
Proof.
  intros bi c active full t m numa w n elem o Hcf Hnu Hn He Hlt Ho.
  pose proof Hcf as (Hc & _).
  assert (H0 : 0 <= n * elem) by (unfold u64 in *; nia).
  unfold api_calloc. rewrite multiply_overflow_spec by assumption.
  replace (n * elem <? two64) with true by lia. set (s := n * elem) in *. clearbody s.
  unfold w_alloc.
  pose proof (malloc_policy_ok c numa Hc Hnu) as Hp.
  destruct (fast_alloc c m (malloc_policy c numa) false s o) as [| |a b k] eqn:E.
  - exfalso. unfold fast_alloc in E.
    destruct (lookup_cases c active full t m _ s Hcf Hp H0)
      as [(_ & _ & cl & E1 & _)|(_ & E1)]; rewrite E1 in E; destruct o; discriminate.
  - cbn [obind]. change (0 =? 0) with true. cbv iota. do 2 eexists. split; [reflexivity|].
    split; [reflexivity|]. left. auto.
  - assert (Ha : a <> 0 /\ heap w a = None /\ s + page_size c <= two64).
    { unfold fast_alloc in E.
      destruct (lookup_cases c active full t m _ s Hcf Hp H0)
        as [(_ & _ & cl & E1 & _)|(_ & E1)]; rewrite E1 in E; destruct o; inversion E; subst; exact Ho. }
    destruct Ha as (Ha & Hfr & Hbd).
    destruct (alloc_usable _ _ _ _ _ _ _ _ _ _ _ _ Hcf Hp H0 Hbd E) as (x & Hx & HH).
    cbn [obind]. replace (a =? 0) with false by lia.
    unfold write_data. cbn [heap errno trace]. rewrite upd_same. do 2 eexists. split; [reflexivity|].
    split; [reflexivity|]. right. split; [exact Ha|]. split; [exact Hfr|].
    cbn [heap]. eexists. split; [apply upd_same|].
    assert (Hge : s <= x) by (destruct Hx as [(_ & _ & (_ & H & _))|(_ & H & _)]; exact H).
    split.
    { change (s <= get_size m b). destruct (is_guarded b); lia. }
    split.
    + intros i Hi. unfold set_data, zero_fill. cbn. replace ((0 <=? i) && (i <? s)) with true by lia. reflexivity.
    + intros q Hq. rewrite !upd_other by assumption. reflexivity.
Qed.
Print Assumptions calloc_exact.

(** reallocarray: the same check, and otherwise realloc of the exact product. *)
Theorem reallocarray_exact : forall bi c m numa w ptr n elem ws o,
  u64 n -> u64 elem ->
  api_reallocarray bi c m numa w ptr n elem ws o =
  if n * elem <? two64 then api_realloc c m numa w ptr (n * elem) ws o
  else Some (0, World (heap w) ENOMEM (trace w)).
Proof.
  intros bi c m numa w ptr n elem ws o Hn He. unfold api_reallocarray, api_realloc.
  rewrite multiply_overflow_spec by assumption.
  destruct (n * elem <? two64); reflexivity.
Qed.
Print Assumptions reallocarray_exact.
