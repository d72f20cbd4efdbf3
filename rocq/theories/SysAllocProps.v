(** C26: the address space the system layer hands out.  C42: giving memory back. *)
From Verif Require Import Base SizeMap FrontApi FrontApiProofs SysAlloc HugeAddressMap HugeAddressMapProps HugeAllocator HugeAllocatorProps HugeCache HugeCacheProps Hpaa HpaaProofs HpaaProps HpaaExamples.

(** ** Specification *)
(** All bytes of the range carry the tag. *)
Definition tagged (t : Z) (r : Z * Z) : Prop := forall b, in_rng r b -> get_memory_tag b = t.
(** The part of the address space that the kernel maps for programs. *)
Definition user_space (r : Z * Z) : Prop := 0 < fst r /\ fst r + snd r <= 2 ^ 47.
(** What the kernel does: it maps where nothing of ours is mapped ([M]), within the user's part; with MAP_FIXED_NOREPLACE,
    only where it was asked to.  The other condition says that RandomMmapHint's loop has ended. *)
Definition kernel_ok (fixed : bool) (M : list (Z * Z)) (tag : Z) (e : senv) : Prop :=
  (forall i size al, 0 < size <= 2 ^ 42 -> 0 < al <= 2 ^ 42 -> random_hint size al tag (e_rnd e i size al) <> 0) /\
  forall i h n r, e_map e i h n = Some r -> (fixed = true -> r = h) /\ user_space (r, n) /\ forall m, In m M -> disj (r, n) m.

(** Histories.  [M]: our mappings; [G]: what was handed out, with the tag asked for. *)
Inductive sa_reach (fixed : bool) (ps mm : Z) : sysalloc -> list (Z * Z) -> list (Z * (Z * Z)) -> Prop :=
| sr_start : sa_reach fixed ps mm sa_init [] []
| sr_alloc s M G bytes al tag e res s' m : sa_reach fixed ps mm s M G -> 0 < bytes < two64 -> (al = 0 \/ is_pow2 al) -> al < two64 -> is_tag tag -> kernel_ok fixed M tag e ->
    sys_allocate fixed ps mm s bytes al tag e = Some (res, s', m) ->
    sa_reach fixed ps mm s' (m ++ M) (match res with Some r => (tag, r) :: G | None => G end)
| sr_mmap s M G size al tag e res s' : sa_reach fixed ps mm s M G -> 0 < size <= 2 ^ 42 -> is_pow2 al -> al <= 2 ^ 42 -> is_tag tag -> kernel_ok fixed M tag e ->
    mmap_aligned fixed s size al tag e = Some (res, s') ->
    sa_reach fixed ps mm s' (match res with Some p => (p, size) :: M | None => M end) (match res with Some p => (tag, (p, size)) :: G | None => G end)
| sr_discard s M G : sa_reach fixed ps mm s M G -> sa_reach fixed ps mm (discard_regions s) M G.

(** ** Tags *)
Lemma tag_div x : get_memory_tag x = (x / 2 ^ 42) mod 8.
Proof. rewrite get_memory_tag_land, Z.shiftr_div_pow2 by lia. change 7 with (2 ^ 3 - 1). rewrite land_pow2_mod by lia. reflexivity. Qed.
Lemma tag_same_block x y : x / 2 ^ 42 = y / 2 ^ 42 -> get_memory_tag x = get_memory_tag y.
Proof. rewrite !tag_div. congruence. Qed.
Lemma div_mono x y : x <= y -> x / 2 ^ 42 <= y / 2 ^ 42.
Proof. intros H. apply Z.div_le_mono; lia. Qed.
Lemma tag_ends p n t : 0 < n <= 2 ^ 42 -> get_memory_tag p = t -> get_memory_tag (p + n - 1) = t -> tagged t (p, n).
Proof.
  intros Hn H1 H2 b (Hb1 & Hb2). cbn [fst snd] in *. rewrite <- H1. apply tag_same_block. pose proof (div_mono p b Hb1). pose proof (div_mono b (p + n - 1) ltac:(lia)).
  assert (H3 : (p + n - 1) / 2 ^ 42 <= p / 2 ^ 42 + 1). { replace (p / 2 ^ 42 + 1) with ((p + 1 * 2 ^ 42) / 2 ^ 42) by (apply Z.div_add; lia). apply div_mono. lia. }
  rewrite tag_div in H1, H2. assert (H4 : (p + n - 1) / 2 ^ 42 <> p / 2 ^ 42 + 1); [|lia]. intros E. rewrite E in H2. clear - H1 H2.
  set (q := p / 2 ^ 42) in *. pose proof (Z.mod_pos_bound q 8 ltac:(lia)). rewrite Z.add_mod in H2 by lia. rewrite H1 in H2. change (1 mod 8) with 1 in H2.
  destruct (Z.eq_dec t 7) as [->|]; [discriminate H2|]. rewrite Z.mod_small in H2 by lia. lia.
Qed.
Lemma tagged_sub t r r' : tagged t r -> (forall b, in_rng r' b -> in_rng r b) -> tagged t r'.
Proof. intros H Hs b Hb. apply H, Hs, Hb. Qed.

Lemma is_tag_range t : is_tag t -> 0 <= t < 8.
Proof. unfold is_tag, tag_sampled, tag_sampled_p1, tag_cold, tag_metadata, tag_normal_p0, tag_normal_p1. cbn [In]. lia. Qed.

(** ** RandomMmapHint *)
Lemma bit_ceil_spec x : 0 < x <= 2 ^ 42 -> exists k, 0 <= k <= 42 /\ sa_bit_ceil x = 2 ^ k /\ x <= 2 ^ k.
Proof.
  intros Hx. unfold sa_bit_ceil. exists (Z.log2_up x). pose proof (Z.log2_up_nonneg x). split; [|split; [reflexivity|]].
  - split; [assumption|]. apply Z.log2_up_le_pow2; lia.
  - destruct (Z.eq_dec x 1) as [->|]; [cbn; lia|]. apply Z.log2_up_spec. lia.
Qed.
Lemma pow2_le_divide a b : is_pow2 a -> is_pow2 b -> a <= b -> (a | b).
Proof. exact (is_pow2_divide a b). Qed.
Lemma testbit_7 i : 0 <= i -> Z.testbit 7 i = (i <? 3).
Proof. intros Hi. change 7 with (Z.ones 3). destruct (Z.ltb_spec i 3); [rewrite Z.ones_spec_low by lia|rewrite Z.ones_spec_high by lia]; reflexivity. Qed.
Lemma testbit_small t i : 0 <= t < 8 -> 3 <= i -> Z.testbit t i = false.
Proof. intros Ht Hi. rewrite <- (Z.mod_small t (2 ^ 3)) by (change (2 ^ 3) with 8; lia). apply Z.mod_pow2_bits_high. lia. Qed.
Lemma pow2_ones k : 2 ^ k - 1 = Z.ones k.
Proof. rewrite Z.ones_equiv. lia. Qed.
Lemma random_hint_spec size al tag r : 0 < size <= 2 ^ 42 -> 0 < al <= 2 ^ 42 -> 0 <= tag < 8 -> let h := random_hint size al tag r in
  0 <= h < 2 ^ 47 /\ get_memory_tag h = tag /\ exists k, 0 <= k <= 42 /\ (2 ^ k | h) /\ size <= 2 ^ k /\ al <= 2 ^ k.
Proof.
  intros Hs Ha Ht. destruct (bit_ceil_spec (Z.max al size) ltac:(clear - Hs Ha; lia)) as (k & Hk & Ek & Hm). unfold random_hint. cbv zeta. rewrite Ek.
  change (kAddressBits - 1) with 47. rewrite !pow2_ones. change kTagMask with (Z.shiftl 7 42). change tag_shift with 42. set (h := Z.lor _ _).
  assert (Hb : forall i, 0 <= i -> Z.testbit h i = ((Z.testbit r i && (i <? 47)) && negb (i <? k)) && negb ((42 <=? i) && (i <? 45)) || ((42 <=? i) && Z.testbit tag (i - 42))).
  { intros i Hi. unfold h. rewrite Z.lor_spec, !Z.ldiff_spec, Z.land_spec, !Z.testbit_ones, !Z.shiftl_spec by lia. destruct (Z.leb_spec 0 i); [|lia]. cbn [andb].
    destruct (Z.leb_spec 42 i).
    - rewrite testbit_7 by lia. destruct (Z.ltb_spec (i - 42) 3), (Z.ltb_spec i 45); try lia; reflexivity.
    - rewrite !(Z.testbit_neg_r _ (i - 42)) by lia. cbn [andb]. rewrite orb_false_r. reflexivity. }
  assert (H0 : 0 <= h). { unfold h. apply Z.lor_nonneg. split; [|apply Z.shiftl_nonneg; lia]. apply Z.ldiff_nonneg. left. apply Z.ldiff_nonneg. left. apply Z.land_nonneg. right. rewrite Z.ones_equiv. pose proof (Z.pow_pos_nonneg 2 47). lia. }
  split; [split; [assumption|]|split].
  - assert (E : h mod 2 ^ 47 = h); [|rewrite <- E; apply Z.mod_pos_bound; lia]. rewrite <- land_pow2_mod, pow2_ones by lia. apply Z.bits_inj'. intros i Hi. rewrite Z.land_spec, Hb, Z.testbit_ones by lia.
    destruct (Z.leb_spec 0 i); [|lia]. destruct (Z.ltb_spec i 47); cbn [andb]; [rewrite andb_true_r; reflexivity|]. rewrite !andb_false_r. cbn [andb orb]. rewrite (testbit_small tag) by lia. rewrite andb_false_r. reflexivity.
  - rewrite get_memory_tag_land. apply Z.bits_inj'. intros i Hi. rewrite Z.land_spec, Z.shiftr_spec, Hb, testbit_7 by lia. replace (i + 42 - 42) with i by lia.
    destruct (Z.leb_spec 42 (i + 42)); [|lia]. destruct (Z.ltb_spec i 3), (Z.ltb_spec (i + 42) 45); [|lia|lia|]; cbn [andb negb].
    + rewrite ?andb_false_r, ?andb_true_r. reflexivity.
    + rewrite andb_false_r, testbit_small by lia. reflexivity.
  - exists k. split; [assumption|]. split; [|lia]. apply Z.mod_divide; [pose proof (Z.pow_pos_nonneg 2 k); lia|]. rewrite <- land_pow2_mod, pow2_ones by lia. apply Z.bits_inj'. intros i Hi.
    rewrite Z.land_spec, Hb, Z.testbit_ones, Z.bits_0 by lia. destruct (Z.leb_spec 0 i); [|lia]. cbn [andb]. destruct (Z.ltb_spec i k); cbn [andb negb]; [|apply andb_false_r].
    rewrite !andb_false_r. destruct (Z.leb_spec 42 i); [lia|]. reflexivity.
Qed.

(** ** Mapping *)
(** A hint is good for a mapping: aligned and with the tag throughout. *)
Definition good_hint (size al tag h : Z) : Prop := 0 < h /\ (al | h) /\ tagged tag (h, size) /\ h + size - 1 < 2 ^ 48 + 2 ^ 42.
Lemma random_hint_good size al tag r : 0 < size <= 2 ^ 42 -> is_pow2 al -> al <= 2 ^ 42 -> 0 <= tag < 8 -> random_hint size al tag r <> 0 -> (al | random_hint size al tag r) /\ 0 < random_hint size al tag r /\ tagged tag (random_hint size al tag r, size).
Proof.
  intros Hs Ha Hal Ht Hz. pose proof (is_pow2_pos _ Ha) as Ha0. destruct (random_hint_spec size al tag r Hs ltac:(clear - Ha0 Hal; lia) Ht) as (Hr & Htag & k & Hk & Hd & Hsk & Hak).
  set (h := random_hint size al tag r) in *. split; [|split; [lia|]].
  - apply Z.divide_trans with (2 ^ k); [|assumption]. apply is_pow2_divide; [assumption|exists k; split; [lia|reflexivity]|assumption].
  - intros b (Hb1 & Hb2). cbn [fst snd] in *. rewrite <- Htag. apply tag_same_block. destruct Hd as (q & Hq). assert (E : 2 ^ 42 = 2 ^ k * 2 ^ (42 - k)) by (rewrite <- Z.pow_add_r by lia; f_equal; lia).
    assert (P1 : 0 < 2 ^ k) by (apply Z.pow_pos_nonneg; lia). assert (P2 : 0 < 2 ^ (42 - k)) by (apply Z.pow_pos_nonneg; lia).
    rewrite E, <- !Z.div_div by lia. f_equal. rewrite Hq, Z.div_mul by lia. symmetry. apply (Z.div_unique_pos b (2 ^ k) q (b - q * 2 ^ k)); lia.
Qed.

(** The kernel refused: every attempt, or (without MAP_FIXED_NOREPLACE) to map anything at all. *)
Definition refused_all (fixed : bool) (size : Z) (e : senv) : Prop :=
  (forall i, (i < 1000)%nat -> exists h, e_map e i h size <> Some h) \/ (fixed = false /\ exists i h, e_map e i h size = None).

Lemma map_loop_ok fixed M size al tag e : 0 < size <= 2 ^ 42 -> is_pow2 al -> al <= 2 ^ 42 -> 0 <= tag < 8 -> kernel_ok fixed M tag e -> forall fuel i next,
  (al | next) -> 0 < next -> tagged tag (next, size) ->
  exists res next', map_loop fuel i fixed next size al tag e = Some (res, next') /\ 0 < next' /\
  match res with
  | Some p => (al | p) /\ tagged tag (p, size) /\ user_space (p, size) /\ (forall m, In m M -> disj (p, size) m)
  | None => (forall j, (i <= j < i + fuel)%nat -> exists h, e_map e j h size <> Some h) \/ (fixed = false /\ exists j h, e_map e j h size = None)
  end.
Proof.
  intros Hs Ha Hal Ht (Kr & Km). pose proof (is_pow2_pos _ Ha) as Ha0. assert (Hal2 : 0 < al <= 2 ^ 42) by (clear - Ha0 Hal; lia). induction fuel as [|fuel IH]; intros i next Hd Hn Htg; cbn [map_loop].
  - exists None, next. split; [reflexivity|]. split; [assumption|]. left. intros j Hj. lia.
  - assert (Et : get_memory_tag next = tag) by (apply Htg; split; cbn [fst snd]; lia). rewrite Et, Z.eqb_refl. cbn [negb].
    destruct (random_hint_good size al tag (e_rnd e (S i) size al) Hs Ha Hal Ht (Kr (S i) size al Hs Hal2)) as (Rd & Rp & Rt).
    destruct (IH (S i) _ Rd Rp Rt) as (res & next' & E & En & Hres). destruct (e_map e i next size) as [r|] eqn:Em.
    + destruct (Km _ _ _ _ Em) as (Kf & Ku & Kd). destruct (Z.eqb_spec r next) as [->|Hne].
      * destruct Ku as (U1 & U2). cbn [fst snd] in *. assert (E1 : next + size <=? 2 ^ kAddressBits = true) by (apply Z.leb_le; change kAddressBits with 48; lia).
        assert (E2 : Z.land next (al - 1) =? 0 = true) by (apply Z.eqb_eq; rewrite land_pow2_mod' by assumption; apply Z.mod_divide; [lia|assumption]). rewrite E1, E2. cbn [andb].
        exists (Some next), (next + size). split; [reflexivity|]. split; [lia|]. split; [assumption|]. split; [assumption|]. split; [split; assumption|assumption].
      * destruct fixed; [exfalso; auto|]. exists res, next'. split; [assumption|]. split; [assumption|]. destruct res as [p|]; [assumption|]. destruct Hres as [Hres|Hres]; [left|right; assumption].
        intros j Hj. destruct (Nat.eq_dec j i) as [->|]; [exists next; rewrite Em; congruence|apply Hres; lia].
    + destruct fixed.
      * exists res, next'. split; [assumption|]. split; [assumption|]. destruct res as [p|]; [assumption|]. destruct Hres as [Hres|(Hc & _)]; [left|discriminate].
        intros j Hj. destruct (Nat.eq_dec j i) as [->|]; [exists next; rewrite Em; discriminate|apply Hres; lia].
      * exists None, next. split; [reflexivity|]. split; [assumption|]. right. split; [reflexivity|]. eauto.
Qed.

Lemma mmap_aligned_ok fixed M s size al tag e : 0 <= sa_next s tag -> 0 < size <= 2 ^ 42 -> is_pow2 al -> al <= 2 ^ 42 -> 0 <= tag < 8 -> kernel_ok fixed M tag e ->
  exists res s', mmap_aligned fixed s size al tag e = Some (res, s') /\ sa_region s' = sa_region s /\ (forall t, sa_next s' t = sa_next s t \/ 0 < sa_next s' t) /\
  match res with
  | Some p => (al | p) /\ tagged tag (p, size) /\ user_space (p, size) /\ (forall m, In m M -> disj (p, size) m)
  | None => refused_all fixed size e
  end.
Proof.
  intros Hnx Hs Ha Hal Ht K. unfold mmap_aligned. pose proof (is_pow2_pos _ Ha) as Ha0. change kTagMask with (7 * 2 ^ 42). destruct (Z.leb_spec size (7 * 2 ^ 42)); [|lia]. destruct (Z.leb_spec al (7 * 2 ^ 42)); [|lia]. cbn [andb negb].
  assert (Hal2 : 0 < al <= 2 ^ 42) by (clear - Ha0 Hal; lia). pose proof (random_hint_good size al tag _ Hs Ha Hal Ht (proj1 K 0%nat size al Hs Hal2)) as Hg0.
  match goal with |- context [map_loop 1000 0 fixed ?n] => set (nx := n) end.
  assert (Hg : (al | nx) /\ 0 < nx /\ tagged tag (nx, size)).
  { unfold nx. destruct (Z.eqb_spec (sa_next s tag) 0) as [Hz|Hz]; cbn [orb]; [assumption|].
    destruct (Z.eqb_spec (Z.land (sa_next s tag) (al - 1)) 0) as [E1|E1]; cbn [negb orb]; [|assumption].
    destruct (Z.eqb_spec (get_memory_tag (sa_next s tag)) tag) as [E2|E2]; cbn [negb orb]; [|assumption].
    destruct (Z.eqb_spec (get_memory_tag (sa_next s tag + size - 1)) tag) as [E3|E3]; cbn [negb orb]; [|assumption].
    split; [|split; [lia|apply tag_ends; assumption]]. rewrite land_pow2_mod' in E1 by assumption. apply Z.mod_divide; [lia|assumption]. }
  destruct Hg as (G1 & G2 & G3). destruct (map_loop_ok fixed M size al tag e Hs Ha Hal Ht K 1000 0 nx G1 G2 G3) as (res & next' & E & En & Hres). rewrite E. cbn [obind].
  eexists res, _. split; [reflexivity|]. split; [reflexivity|]. split.
  - intros t. cbn [sa_next]. destruct (Z.eq_dec t tag) as [->|]; [rewrite upd_same; right; assumption|rewrite upd_other by assumption; left; reflexivity].
  - destruct res; [assumption|]. destruct Hres as [Hres|Hres]; [left|right; assumption]. intros i Hi. apply Hres. lia.
Qed.

(** ** Regions *)
Lemma kHuge_pow2 : is_pow2 kHuge.
Proof. exists 21. split; [lia|reflexivity]. Qed.
Lemma round_up_spec n a : is_pow2 a -> 0 < n -> n + a <= two64 -> let m := round_up n a in n <= m < n + a /\ (a | m).
Proof.
  intros Ha Hn Hb. pose proof (is_pow2_pos _ Ha) as Ha0. unfold round_up, round_down. rewrite wrap64_small by lia. rewrite ldiff_pow2' by assumption. pose proof (Z.mod_pos_bound (n + a - 1) a Ha0). cbv zeta. split; [lia|].
  exists ((n + a - 1) / a). rewrite (Z.div_mod (n + a - 1) a) at 1 by lia. lia.
Qed.
Lemma round_up_id n a : is_pow2 a -> 0 < n -> n + a <= two64 -> (a | n) -> round_up n a = n.
Proof.
  intros Ha Hn Hb (q & Hq). pose proof (is_pow2_pos _ Ha) as Ha0. destruct (round_up_spec n a Ha Hn Hb) as (H1 & (q' & H2)). rewrite H2 in *. subst n. assert (q' = q); [|congruence]. nia.
Qed.

Lemma region_alloc_ok r request al ok : 0 <= fst r -> 0 <= snd r -> fst r + snd r <= 2 ^ 47 -> 0 < request <= 2 ^ 42 -> is_pow2 al -> al <= 2 ^ 42 ->
  match region_alloc r request al ok with
  | (Some (p, n), r') => fst r <= p /\ p + n = fst r + snd r /\ request <= n /\ (Z.max al kHuge | p) /\ r' = (fst r, p - fst r) /\
      p = Z.ldiff (fst r + snd r - round_up request kHuge) (Z.max al kHuge - 1)
  | (None, r') => r' = r /\ (ok = false \/ Z.ldiff (fst r + snd r - round_up request kHuge) (Z.max al kHuge - 1) < fst r)
  end.
Proof.
  intros H1 H2 H3 Hr Ha Hal. unfold region_alloc. destruct (round_up_spec request kHuge kHuge_pow2 ltac:(lia) ltac:(unfold kHuge, two64; lia)) as (U1 & U2). destruct (Z.ltb_spec (round_up request kHuge) request); [lia|].
  set (size := round_up request kHuge) in *. set (al' := Z.max al kHuge). assert (Ha' : is_pow2 al') by (unfold al', Z.max; destruct (al ?= kHuge); (exact Ha || exact kHuge_pow2)). pose proof (is_pow2_pos _ Ha') as Ha0.
  set (fin := fst r + snd r) in *. destruct (Z_lt_le_dec fin size) as [Hlt|Hle].
  - assert (E : wrap64 (fin - size) = fin - size + two64). { unfold wrap64. symmetry. apply (Z.mod_unique_pos _ _ (-1)); unfold two64, kHuge in *; lia. }
    rewrite E. destruct (Z.ltb_spec fin (fin - size + two64)); [|unfold two64, kHuge in *; lia]. split; [reflexivity|]. right.
    rewrite ldiff_pow2' by assumption. pose proof (Z.mod_pos_bound (fin - size) al' Ha0). lia.
  - rewrite wrap64_small by (unfold two64; lia). destruct (Z.ltb_spec fin (fin - size)); [lia|]. destruct (Z.ltb_spec (Z.ldiff (fin - size) (al' - 1)) (fst r)) as [Hs|Hs]; [auto|].
    destruct ok; [|auto]. pose proof (Z.mod_pos_bound (fin - size) al' Ha0). rewrite ldiff_pow2' in * by assumption.
    split; [assumption|]. split; [lia|]. split; [lia|]. split; [|split; [f_equal; lia|reflexivity]].
    exists ((fin - size) / al'). rewrite (Z.div_mod (fin - size) al') at 1 by lia. lia.
Qed.
Lemma round_up_le n a b : is_pow2 a -> 0 < n -> n + a <= two64 -> (a | b) -> n <= b -> round_up n a <= b.
Proof. intros Ha Hn Hb (q & ->) Hle. pose proof (is_pow2_pos _ Ha) as Ha0. destruct (round_up_spec n a Ha Hn Hb) as (H1 & (q' & H2)). rewrite H2 in *. destruct (Z_le_gt_dec q' q) as [H|H]; [clear - H Ha0; nia|]. assert (q * a + a <= q' * a) by (clear - H Ha0; nia). lia. Qed.
Lemma ldiff_mult x a : is_pow2 a -> (a | x) -> Z.ldiff x (a - 1) = x.
Proof. intros Ha Hd. pose proof (is_pow2_pos _ Ha). rewrite ldiff_pow2' by assumption. assert (Ha1 : a <> 0) by lia. rewrite (proj2 (Z.mod_divide x a Ha1) Hd). lia. Qed.
Lemma ldiff_ge x a y : is_pow2 a -> (a | y) -> y <= x -> y <= Z.ldiff x (a - 1).
Proof.
  intros Ha (q & ->) Hle. pose proof (is_pow2_pos _ Ha). rewrite ldiff_pow2' by assumption. pose proof (Z.mod_pos_bound x a). pose proof (Z.div_mod x a). assert (q <= x / a) by (apply Z.div_le_lower_bound; lia). nia.
Qed.
Lemma tagged_disj t t' r r' : 0 < snd r -> 0 < snd r' -> tagged t r -> tagged t' r' -> t <> t' -> disj r r'.
Proof.
  intros H1 H2 T1 T2 Ht. unfold disj. destruct (Z_le_gt_dec (fst r + snd r) (fst r')); [left; assumption|]. destruct (Z_le_gt_dec (fst r' + snd r') (fst r)); [right; assumption|].
  exfalso. apply Ht. rewrite <- (T1 (Z.max (fst r) (fst r'))), <- (T2 (Z.max (fst r) (fst r'))) by (unfold in_rng; lia). reflexivity.
Qed.
Definition inside (r m : Z * Z) : Prop := fst m <= fst r /\ fst r + snd r <= fst m + snd m.
Lemma disj_inside r m r' : disj r' m -> inside r m -> 0 <= snd r -> disj r' r.
Proof. unfold disj, inside. lia. Qed.

(** ** The invariant *)
Record sa_inv (s : sysalloc) (M : list (Z * Z)) (G : list (Z * (Z * Z))) : Prop := {
  i_next : forall t, 0 <= sa_next s t;
  i_user : forall m, In m M -> user_space m;
  i_dM : ForallOrdPairs disj M;
  i_reg : forall t r, sa_region s t = Some r -> 0 <= snd r /\ (kHuge | fst r + snd r) /\ (forall g, In g G -> disj r (snd g)) /\
    exists n, In (fst r, n) M /\ 0 < n /\ snd r <= n /\ tagged t (fst r, n);
  i_G : forall g, In g G -> 0 < snd (snd g) /\ tagged (fst g) (snd g) /\ exists m, In m M /\ inside (snd g) m;
  i_dG : ForallOrdPairs disj (map snd G) }.

Lemma inv_init : sa_inv sa_init [] [].
Proof. constructor; try (intros; contradiction); try (intros; discriminate); try constructor; intros; cbn; lia. Qed.
Lemma inv_discard s M G : sa_inv s M G -> sa_inv (discard_regions s) M G.
Proof. intros I. destruct I. constructor; try assumption. intros t r E. discriminate E. Qed.
Lemma inv_next s s' M G : sa_inv s M G -> sa_region s' = sa_region s -> (forall t, sa_next s' t = sa_next s t \/ 0 < sa_next s' t) -> sa_inv s' M G.
Proof.
  intros I Er En. destruct I. constructor; try assumption.
  - intros t. specialize (i_next0 t). destruct (En t); lia.
  - rewrite Er. assumption.
Qed.
Lemma inv_unset s M G t : sa_inv s M G -> sa_inv (set_region s t None) M G.
Proof.
  intros I. destruct I. constructor; try assumption. intros t' r E. cbn [sa_region set_region] in E. destruct (Z.eq_dec t' t) as [->|]; [rewrite upd_same in E; discriminate|].
  rewrite upd_other in E by assumption. auto.
Qed.
(** A new mapping. *)
Lemma inv_map s M G m : sa_inv s M G -> user_space m -> (forall m', In m' M -> disj m m') -> sa_inv s (m :: M) G.
Proof.
  intros I Hu Hd. destruct I. constructor; try assumption.
  - intros m' [<-|Hm]; auto.
  - apply fop_cons; assumption.
  - intros t r E. destruct (i_reg0 t r E) as (A & B & C & n & D & F). split; [assumption|]. split; [assumption|]. split; [assumption|]. exists n. split; [right; assumption|assumption].
  - intros g Hg. destruct (i_G0 g Hg) as (A & B & m' & C & D). split; [assumption|]. split; [assumption|]. exists m'. split; [right; assumption|assumption].
Qed.
(** A region of its own for the tag: the mapping is new, nothing of it is handed out. *)
Lemma inv_region s M G t p n : sa_inv s M G -> In (p, n) M -> 0 < n -> (kHuge | p + n) -> tagged t (p, n) -> (forall g, In g G -> disj (p, n) (snd g)) -> sa_inv (set_region s t (Some (p, n))) M G.
Proof.
  intros I Hm Hn Hh Ht Hd. destruct I. constructor; try assumption. intros t' r E. cbn [sa_region set_region] in E. destruct (Z.eq_dec t' t) as [->|].
  - rewrite upd_same in E. injection E as <-. cbn [fst snd]. split; [lia|]. split; [assumption|]. split; [assumption|]. exists n. split; [assumption|]. split; [lia|]. split; [lia|assumption].
  - rewrite upd_other in E by assumption. auto.
Qed.
(** Memory is taken from the end of the region of the tag. *)
Lemma inv_take s M G t r p n : sa_inv s M G -> sa_region s t = Some r -> fst r <= p -> p + n = fst r + snd r -> 0 < n -> (kHuge | p) ->
  sa_inv (set_region s t (Some (fst r, p - fst r))) M ((t, (p, n)) :: G) /\ (forall g, In g G -> disj (p, n) (snd g)) /\ tagged t (p, n) /\ user_space (p, n).
Proof.
  intros I E Hp He Hn Hh. destruct I. destruct (i_reg0 t r E) as (A & B & C & N & D & D1 & D2 & D3).
  assert (Hd : forall g, In g G -> disj (p, n) (snd g)). { intros g Hg. pose proof (C g Hg) as Hc. unfold disj in *. cbn [fst snd]. destruct (i_G0 g Hg) as (Hpos & _). lia. }
  assert (Ht : tagged t (p, n)). { apply (tagged_sub t _ _ D3). intros b (Hb1 & Hb2). unfold in_rng. cbn [fst snd] in *. lia. }
  pose proof (i_user0 _ D) as (U1 & U2). cbn [fst snd] in U1, U2. split; [|split; [assumption|split; [assumption|split; cbn [fst snd]; lia]]]. constructor; try assumption.
  - intros t' r' E'. cbn [sa_region set_region] in E'. destruct (Z.eq_dec t' t) as [->|Ht'].
    + rewrite upd_same in E'. injection E' as <-. cbn [fst snd]. split; [lia|]. split; [replace (fst r + (p - fst r)) with p by lia; assumption|]. split.
      * intros g [<-|Hg]; [unfold disj; cbn [fst snd]; lia|]. pose proof (C g Hg) as Hc. destruct (i_G0 g Hg) as (Hpos & _). unfold disj in *. cbn [fst snd]. lia.
      * exists N. split; [assumption|]. split; [assumption|]. split; [lia|assumption].
    + rewrite upd_other in E' by assumption. destruct (i_reg0 t' r' E') as (A' & B' & C' & N' & F' & F1' & F2' & F3'). split; [assumption|]. split; [assumption|]. split; [|eauto].
      intros g [<-|Hg]; [|auto]. cbn [snd]. pose proof (tagged_disj t' t (fst r', N') (fst r, N) F1' D1 F3' D3 Ht') as Hdd. unfold disj in *. cbn [fst snd] in *. lia.
  - intros g [<-|Hg]; [|auto]. cbn [fst snd]. split; [assumption|]. split; [assumption|]. exists (fst r, N). split; [assumption|]. split; cbn [fst snd]; lia.
  - cbn [map]. apply fop_cons; [|assumption]. intros x Hx. apply in_map_iff in Hx. destruct Hx as (g & <- & Hg). apply Hd. assumption.
Qed.
(** A whole new mapping is handed out. *)
Lemma inv_whole s M G t m : sa_inv s M G -> user_space m -> 0 < snd m -> (forall m', In m' M -> disj m m') -> tagged t m -> sa_inv s (m :: M) ((t, m) :: G) /\ (forall g, In g G -> disj m (snd g)).
Proof.
  intros I Hu Hn Hd Ht. pose proof (inv_map s M G m I Hu Hd) as J. destruct I.
  assert (Hg : forall g, In g G -> disj m (snd g)). { intros g Hg. destruct (i_G0 g Hg) as (A & _ & m' & B & C). apply (disj_inside _ m'); [auto|assumption|lia]. }
  split; [|assumption]. destruct J. constructor; try assumption.
  - intros t' r E. destruct (i_reg0 t' r E) as (A & B & C & N & D & D1 & D2 & D3). destruct (i_reg1 t' r E) as (A1 & B1 & C1 & Dx). split; [assumption|]. split; [assumption|]. split; [|assumption].
    intros g [<-|Hg']; [|auto]. cbn [snd]. pose proof (Hd _ D) as Hdd. unfold disj in *. cbn [fst snd] in *. lia.
  - intros g [<-|Hg']; [|auto]. cbn [fst snd]. split; [assumption|]. split; [assumption|]. exists m. split; [left; reflexivity|split; lia].
  - cbn [map]. apply fop_cons; [|assumption]. intros x Hx. apply in_map_iff in Hx. destruct Hx as (g & <- & Hg'). apply Hg. assumption.
Qed.

(** The sizes: a system page is a power of two and not larger than a hugepage; address space is taken in powers of two of
    hugepages, of at most 2^42 bytes. *)
Definition sys_sizes (ps mm : Z) : Prop := is_pow2 ps /\ ps <= kHuge /\ is_pow2 mm /\ kHuge <= mm <= 2 ^ 42.

Definition served (tag al : Z) (G : list (Z * (Z * Z))) (bytes p n : Z) : Prop :=
  bytes <= n /\ (kHuge | p) /\ (kHuge | n) /\ (0 < al -> (al | p)) /\ tagged tag (p, n) /\ user_space (p, n) /\ forall g, In g G -> disj (p, n) (snd g).

Lemma from_region_ok fixed ps mm s M G request al tag e : sys_sizes ps mm -> sa_inv s M G -> 0 < request -> is_pow2 al -> is_tag tag -> kernel_ok fixed M tag e ->
  exists res s' m, allocate_from_region fixed mm s request al tag e = Some (res, s', m) /\
    sa_inv s' (m ++ M) (match res with Some r => (tag, r) :: G | None => G end) /\
    match res with
    | Some (p, n) => served tag al G request p n
    | None => 2 ^ 42 < request \/ 2 ^ 42 < al \/ (exists size, refused_all fixed size e) \/ e_create e = false \/ e_prot e true = false \/ e_prot e false = false
    end.
Proof.
  intros (Hps & Hps2 & Hmm & Hm2) I Hr Ha Ht K. pose proof (is_tag_range _ Ht) as Ht8. pose proof (is_pow2_pos _ Ha) as Ha0. unfold allocate_from_region. change (Z.shiftl 1 tag_shift) with (2 ^ 42).
  destruct (Z.ltb_spec (2 ^ 42) request) as [L1|L1]; cbn [orb]; [eexists _, _, _; split; [reflexivity|]; split; [assumption|]; left; assumption|].
  destruct (Z.ltb_spec (2 ^ 42) al) as [L2|L2]; cbn [orb]; [eexists _, _, _; split; [reflexivity|]; split; [assumption|]; right; left; assumption|].
  assert (H64 : request + kHuge <= two64) by (clear - L1; unfold kHuge, two64; lia).
  assert (Hhd : (kHuge | 2 ^ 42)) by (exists (2 ^ 21); reflexivity).
  destruct (round_up_spec request kHuge kHuge_pow2 Hr H64) as (U1 & U2). pose proof (round_up_le request kHuge (2 ^ 42) kHuge_pow2 Hr H64 Hhd L1) as U3.
  assert (Ha' : is_pow2 (Z.max al kHuge)) by (unfold Z.max; destruct (al ?= kHuge); (exact Ha || exact kHuge_pow2)).
  assert (Hal : (al | Z.max al kHuge)) by (apply is_pow2_divide; [assumption|assumption|lia]).
  assert (Hhl : (kHuge | Z.max al kHuge)) by (apply is_pow2_divide; [apply kHuge_pow2|assumption|lia]).
  assert (Hal42 : Z.max al kHuge <= 2 ^ 42) by (clear - L2; unfold kHuge; lia).
  destruct ((mm <? request) || (mm <? al)) eqn:Eb.
  - destruct (Z.ltb_spec (round_up request kHuge) request); [lia|]. set (size := round_up request kHuge) in *. set (al' := Z.max al kHuge) in *.
    destruct (mmap_aligned_ok fixed M s size al' tag e (i_next _ _ _ I tag) ltac:(lia) Ha' Hal42 Ht8 K) as (res & s' & E & Er & En & Hres). rewrite E. cbn [obind].
    pose proof (inv_next s s' M G I Er En) as I'. destruct res as [ptr|]; [|eexists _, _, _; split; [reflexivity|]; split; [assumption|]; right; right; left; eauto].
    destruct Hres as (R1 & R2 & R3 & R4). destruct (e_create e) eqn:Ec; [|eexists _, _, _; split; [reflexivity|]; split; [assumption|]; do 3 right; left; reflexivity].
    pose proof R3 as (U4 & U5). cbn [fst snd] in U4, U5.
    pose proof (region_alloc_ok (ptr, size) size al' (e_prot e true) ltac:(cbn [fst]; lia) ltac:(cbn [snd]; lia) ltac:(cbn [fst snd]; lia) ltac:(lia) Ha' Hal42) as Hra. cbn [fst snd] in Hra.
    assert (Es : round_up size kHuge = size) by (apply round_up_id; [apply kHuge_pow2|lia|unfold kHuge, two64; clear - U3; lia|assumption]). rewrite Es in Hra. replace (ptr + size - size) with ptr in Hra by lia.
    assert (Em : Z.max al' kHuge = al') by (unfold al'; lia). rewrite Em, (ldiff_mult ptr al' Ha' R1) in Hra.
    destruct (region_alloc (ptr, size) size al' (e_prot e true)) as ([(p, n)|], r').
    + destruct Hra as (A1 & A2 & A3 & A4 & A5 & A6). subst p. assert (n = size) as -> by lia. rewrite !Z.eqb_refl. cbn [andb].
      destruct (inv_whole s' M G tag (ptr, size) I' R3 ltac:(cbn [snd]; lia) R4 R2) as (I2 & Hdg). eexists _, _, _. split; [reflexivity|]. split; [exact I2|].
      split; [lia|]. split; [apply Z.divide_trans with al'; assumption|]. split; [assumption|]. split; [intros _; apply Z.divide_trans with al'; assumption|]. auto.
    + destruct Hra as (_ & [Hok|Hlt]); [|lia]. eexists _, _, _. split; [reflexivity|]. split; [apply inv_map; assumption|]. do 4 right. left. assumption.
  - apply orb_false_iff in Eb. destruct Eb as (Eb1 & Eb2). apply Z.ltb_ge in Eb1, Eb2.
    set (first := match sa_region s tag with Some r => _ | None => _ end).
    assert (Hf : exists res s1, first = (res, s1) /\ match res with Some (p, n) => sa_inv s1 M ((tag, (p, n)) :: G) /\ served tag al G request p n | None => sa_inv s1 M G end).
    { unfold first. destruct (sa_region s tag) as [r|] eqn:Erg; [|eexists _, _; split; [reflexivity|assumption]]. destruct (i_reg _ _ _ I tag r Erg) as (A & B & C & N & D & D1 & D2 & D3). pose proof (i_user _ _ _ I _ D) as (V1 & V2). cbn [fst snd] in V1, V2.
      pose proof (region_alloc_ok r request al (e_prot e true) ltac:(lia) A ltac:(lia) ltac:(lia) Ha L2) as Hra. destruct (region_alloc r request al (e_prot e true)) as ([(p, n)|], r').
      - destruct Hra as (A1 & A2 & A3 & A4 & A5 & A6). subst r'. assert (Hhp : (kHuge | p)) by (apply Z.divide_trans with (Z.max al kHuge); assumption).
        destruct (inv_take s M G tag r p n I Erg A1 A2 ltac:(lia) Hhp) as (I2 & Hdg & Htg & Hus). eexists _, _. split; [reflexivity|]. split; [assumption|].
        split; [assumption|]. split; [assumption|]. split; [|split; [intros _; apply Z.divide_trans with (Z.max al kHuge); assumption|auto]].
        rewrite <- A2 in B. replace n with (p + n - p) by lia. apply Z.divide_sub_r; assumption.
      - destruct Hra as (-> & _). eexists _, _. split; [reflexivity|]. clear - I Erg. destruct I. constructor; try assumption. intros t r' E. cbn [sa_region set_region] in E. destruct (Z.eq_dec t tag) as [->|]; [rewrite upd_same in E; injection E as <-; auto|rewrite upd_other in E by assumption; auto]. }
    destruct Hf as (res & s1 & Ef & Hres). rewrite Ef. destruct res as [(p, n)|]; [destruct Hres as (I2 & Hsv); eexists _, _, _; split; [reflexivity|]; split; assumption|].
    destruct (mmap_aligned_ok fixed M s1 mm mm tag e (i_next _ _ _ Hres tag) ltac:(unfold kHuge in *; lia) Hmm ltac:(lia) Ht8 K) as (res & s' & E & Er & En & Hm). rewrite E. cbn [obind].
    pose proof (inv_next s1 s' M G Hres Er En) as I'. destruct res as [ptr|]; [|eexists _, _, _; split; [reflexivity|]; split; [assumption|]; right; right; left; eauto].
    destruct Hm as (R1 & R2 & R3 & R4). destruct (e_create e) eqn:Ec; [|eexists _, _, _; split; [reflexivity|]; split; [apply inv_unset; assumption|]; do 3 right; left; reflexivity].
    pose proof R3 as (U4 & U5). cbn [fst snd] in U4, U5. assert (Hmm0 : 0 < mm) by (unfold kHuge in Hm2; lia).
    assert (Hhm : (kHuge | mm)) by (apply is_pow2_divide; [apply kHuge_pow2|assumption|lia]).
    pose proof (inv_map s' M G (ptr, mm) I' R3 R4) as I2.
    assert (Hdg : forall g, In g G -> disj (ptr, mm) (snd g)). { intros g Hg. destruct (i_G _ _ _ I g Hg) as (A & _ & m' & B & C). apply (disj_inside _ m'); [auto|assumption|lia]. }
    assert (Hhe : (kHuge | ptr + mm)) by (apply Z.divide_add_r; [apply Z.divide_trans with mm; assumption|assumption]).
    pose proof (inv_region s' _ G tag ptr mm I2 (or_introl eq_refl) Hmm0 Hhe R2 Hdg) as I3.
    pose proof (region_alloc_ok (ptr, mm) request al (e_prot e false) ltac:(cbn [fst]; lia) ltac:(cbn [snd]; lia) ltac:(cbn [fst snd]; lia) ltac:(lia) Ha L2) as Hra. cbn [fst snd] in Hra.
    assert (Haml : (Z.max al kHuge | ptr)). { apply Z.divide_trans with mm; [|assumption]. apply is_pow2_divide; [assumption|assumption|lia]. }
    pose proof (round_up_le request kHuge mm kHuge_pow2 Hr H64 Hhm Eb1) as Hru.
    pose proof (ldiff_ge (ptr + mm - round_up request kHuge) (Z.max al kHuge) ptr Ha' Haml ltac:(lia)) as Hge.
    destruct (region_alloc (ptr, mm) request al (e_prot e false)) as ([(p, n)|], r').
    + destruct Hra as (A1 & A2 & A3 & A4 & A5 & A6). subst r'. assert (Hhp : (kHuge | p)) by (apply Z.divide_trans with (Z.max al kHuge); assumption).
      assert (Esr : sa_region (set_region s' tag (Some (ptr, mm))) tag = Some (ptr, mm)) by (cbn [sa_region set_region]; apply upd_same).
      destruct (inv_take _ _ G tag (ptr, mm) p n I3 Esr A1 A2 ltac:(lia) Hhp) as (I4 & Hdg2 & Htg & Hus). eexists _, _, _. split; [reflexivity|]. split.
      * clear - I4. cbn [fst snd] in I4. destruct I4. constructor; try assumption. intros t r E. apply i_reg0. cbn [sa_region set_region] in *. destruct (Z.eq_dec t tag) as [->|]; [rewrite upd_same in *; assumption|rewrite !upd_other in * by assumption; assumption].
      * split; [assumption|]. split; [assumption|]. split; [|split; [intros _; apply Z.divide_trans with (Z.max al kHuge); assumption|auto]].
        rewrite <- A2 in Hhe. replace n with (p + n - p) by lia. apply Z.divide_sub_r; assumption.
    + destruct Hra as (-> & [Hok|Hlt]); [|lia]. eexists _, _, _. split; [reflexivity|]. split; [exact I3|]. do 5 right. assumption.
Qed.

Lemma sys_allocate_ok fixed ps mm s M G bytes al tag e : sys_sizes ps mm -> sa_inv s M G -> 0 < bytes < two64 -> (al = 0 \/ is_pow2 al) -> al < two64 -> is_tag tag -> kernel_ok fixed M tag e ->
  exists res s' m, sys_allocate fixed ps mm s bytes al tag e = Some (res, s', m) /\
    sa_inv s' (m ++ M) (match res with Some r => (tag, r) :: G | None => G end) /\
    match res with
    | Some (p, n) => served tag al G bytes p n
    | None => 2 ^ 42 < bytes \/ 2 ^ 42 < al \/ (exists size, refused_all fixed size e) \/ e_create e = false \/ e_prot e true = false \/ e_prot e false = false
    end.
Proof.
  intros Hz I Hb Ha Ha64 Ht K. pose proof Hz as (Hps & Hps2 & _). pose proof (is_pow2_pos _ Hps) as Hps0. unfold sys_allocate. set (al' := Z.max al ps).
  assert (Ha' : is_pow2 al') by (unfold al'; destruct Ha as [->|Ha]; [rewrite Z.max_r by lia; assumption|unfold Z.max; destruct (al ?= ps); assumption]).
  assert (Hda : 0 < al -> (al | al')) by (intros H0; destruct Ha as [->|Ha]; [lia|apply is_pow2_divide; [assumption|assumption|lia]]).
  assert (Hle : 2 ^ 42 < al' -> 2 ^ 42 < al) by (clear - Hps2; unfold al', kHuge in *; lia).
  destruct (Z.ltb_spec (wrap64 (bytes + al')) bytes) as [Hw|Hw].
  - eexists _, _, _. split; [reflexivity|]. split; [assumption|]. destruct (Z_lt_le_dec (2 ^ 42) bytes); [left; assumption|]. right. left. apply Hle. destruct (Z_lt_le_dec (2 ^ 42) al'); [assumption|]. exfalso.
    pose proof (is_pow2_pos _ Ha'). rewrite wrap64_small in Hw by (unfold two64; lia). lia.
  - destruct (from_region_ok fixed ps mm s M G bytes al' tag e Hz I ltac:(lia) Ha' Ht K) as (res & s' & m & E & I2 & Hres). rewrite E. cbn [obind].
    destruct res as [(p, n)|]; [|eexists _, _, _; split; [reflexivity|]; split; [assumption|]; destruct Hres as [Hres|[Hres|Hres]]; [left; assumption|right; left; auto|right; right; assumption]].
    destruct Hres as (S1 & S2 & S3 & S4 & S5 & (S6 & S6') & S7). cbn [fst snd] in S6, S6'.
    assert (E1 : Z.shiftr (p + n - 1) kAddressBits =? 0 = true) by (apply Z.eqb_eq; rewrite Z.shiftr_div_pow2 by (unfold kAddressBits; lia); apply Z.div_small; change (2 ^ kAddressBits) with (2 ^ 48); lia).
    assert (E2 : get_memory_tag p =? tag = true) by (apply Z.eqb_eq; apply S5; split; cbn [fst snd]; lia). rewrite E1, E2. cbn [andb].
    eexists _, _, _. split; [reflexivity|]. split; [assumption|]. split; [assumption|]. split; [assumption|]. split; [assumption|]. split; [|split; [assumption|split; [split; assumption|assumption]]].
    intros H0. apply Z.divide_trans with al'; [auto|]. apply S4. pose proof (is_pow2_pos _ Ha'). assumption.
Qed.
Lemma sa_reach_inv fixed ps mm s M G : sys_sizes ps mm -> sa_reach fixed ps mm s M G -> sa_inv s M G.
Proof.
  intros Hz H. induction H as [|s M G bytes al tag e res s' m H IH Hb Ha Ha64 Ht K E|s M G size al tag e res s' H IH Hs Ha Hal Ht K E|s M G H IH].
  - apply inv_init.
  - destruct (sys_allocate_ok fixed ps mm s M G bytes al tag e Hz IH Hb Ha Ha64 Ht K) as (res' & s'' & m' & E' & I & _). rewrite E in E'. injection E' as <- <- <-. assumption.
  - destruct (mmap_aligned_ok fixed M s size al tag e (i_next _ _ _ IH tag) Hs Ha Hal (is_tag_range _ Ht) K) as (res' & s'' & E' & Er & En & Hres). rewrite E in E'. injection E' as <- <-.
    pose proof (inv_next s s' M G IH Er En) as I. destruct res as [p|]; [|assumption]. destruct Hres as (R1 & R2 & R3 & R4). apply (inv_whole s' M G tag (p, size)); cbn [snd]; auto; lia.
  - apply inv_discard. assumption.
Qed.

(** ** Theorems *)

(** A request for address space, of any size and alignment and for any tag, never fails a check.  It gives at least as
    many bytes as asked for, in whole hugepages, aligned as asked for; every byte carries the tag; and nothing of it was
    handed out before.  It fails only if more than 2^42 bytes or alignment are asked for, or the kernel refuses. *)
Theorem system_allocate : forall fixed ps mm s M G bytes al tag e, sys_sizes ps mm -> sa_reach fixed ps mm s M G ->
  0 < bytes < two64 -> (al = 0 \/ is_pow2 al) -> al < two64 -> is_tag tag -> kernel_ok fixed M tag e ->
  exists res s' m, sys_allocate fixed ps mm s bytes al tag e = Some (res, s', m) /\
  match res with
  | Some (p, n) => bytes <= n /\ (kHuge | p) /\ (kHuge | n) /\ (0 < al -> (al | p)) /\ tagged tag (p, n) /\ user_space (p, n) /\ (forall g, In g G -> disj (p, n) (snd g))
  | None => 2 ^ 42 < bytes \/ 2 ^ 42 < al \/ (exists size, refused_all fixed size e) \/ e_create e = false \/ e_prot e true = false \/ e_prot e false = false
  end.
Proof.
  intros fixed ps mm s M G bytes al tag e Hz H Hb Ha Ha64 Ht K. destruct (sys_allocate_ok fixed ps mm s M G bytes al tag e Hz (sa_reach_inv _ _ _ _ _ _ Hz H) Hb Ha Ha64 Ht K) as (res & s' & m & E & _ & Hres).
  exists res, s', m. split; [assumption|]. destruct res as [(p, n)|]; exact Hres.
Qed.
Print Assumptions system_allocate.

(** Likewise for the ranges reserved with MmapAligned, of at most 2^42 bytes. *)
Theorem system_mmap_aligned : forall fixed ps mm s M G size al tag e, sys_sizes ps mm -> sa_reach fixed ps mm s M G ->
  0 < size <= 2 ^ 42 -> is_pow2 al -> al <= 2 ^ 42 -> is_tag tag -> kernel_ok fixed M tag e ->
  exists res s', mmap_aligned fixed s size al tag e = Some (res, s') /\
  match res with
  | Some p => (al | p) /\ tagged tag (p, size) /\ user_space (p, size) /\ (forall g, In g G -> disj (p, size) (snd g))
  | None => refused_all fixed size e
  end.
Proof.
  intros fixed ps mm s M G size al tag e Hz H Hs Ha Hal Ht K. pose proof (sa_reach_inv _ _ _ _ _ _ Hz H) as I.
  destruct (mmap_aligned_ok fixed M s size al tag e (i_next _ _ _ I tag) Hs Ha Hal (is_tag_range _ Ht) K) as (res & s' & E & _ & _ & Hres). exists res, s'. split; [assumption|].
  destruct res as [p|]; [|assumption]. destruct Hres as (R1 & R2 & R3 & R4). split; [assumption|]. split; [assumption|]. split; [assumption|].
  intros g Hg. destruct (i_G _ _ _ I g Hg) as (A & _ & m' & B & C). apply (disj_inside _ m'); [auto|assumption|lia].
Qed.
Print Assumptions system_mmap_aligned.

(** All that was ever handed out: apart from each other, with the right tag, in the user's part of the address space. *)
Theorem system_grants : forall fixed ps mm s M G, sys_sizes ps mm -> sa_reach fixed ps mm s M G ->
  ForallOrdPairs disj (map snd G) /\ forall t r, In (t, r) G -> 0 < snd r /\ tagged t r /\ user_space r.
Proof.
  intros fixed ps mm s M G Hz H. pose proof (sa_reach_inv _ _ _ _ _ _ Hz H) as I. split; [apply (i_dG _ _ _ I)|]. intros t r Hr. destruct (i_G _ _ _ I _ Hr) as (A & B & m & C & D1 & D2). cbn [fst snd] in *.
  split; [assumption|]. split; [assumption|]. pose proof (i_user _ _ _ I _ C) as (U1 & U2). split; lia.
Qed.
Print Assumptions system_grants.

(** What is asked of the system by the page heap of a tag satisfies what the page heap assumes of it (HugeAllocatorProps):
    in hugepages, it is as long as asked for, does not start at 0, and was not handed out before, to any page heap. *)
Definition hugepages_of (r : Z * Z) : Z * Z := (fst r / kHuge, snd r / kHuge).
Definition heap_grants (G : list (Z * (Z * Z))) : list hrange := map (fun g => hugepages_of (snd g)) G.
Theorem system_serves_page_heaps : forall fixed ps mm s M G n tag e p bytes s' m, sys_sizes ps mm -> sa_reach fixed ps mm s M G ->
  (forall t r, In (t, r) G -> (kHuge | fst r) /\ (kHuge | snd r)) -> 0 < n -> n * kHuge < two64 -> is_tag tag -> kernel_ok fixed M tag e ->
  sys_allocate fixed ps mm s (n * kHuge) kHuge tag e = Some (Some (p, bytes), s', m) ->
  bytes mod kHuge = 0 /\ os_ok (heap_grants G) n (Some (hugepages_of (p, bytes))).
Proof.
  intros fixed ps mm s M G n tag e p bytes s' m Hz H Hg Hn Hb Ht K E. assert (HH : 0 < kHuge) by (unfold kHuge; lia).
  destruct (system_allocate fixed ps mm s M G (n * kHuge) kHuge tag e Hz H ltac:(nia) (or_intror kHuge_pow2) ltac:(unfold kHuge, two64; lia) Ht K) as (res & s'' & m' & E' & Hres). rewrite E in E'. injection E' as <- <- <-.
  destruct Hres as (S1 & S2 & S3 & _ & _ & (S6 & S6') & S7). cbn [fst snd] in S6, S6'. split; [apply Z.mod_divide; [lia|assumption]|]. intros g [= <-]. unfold hugepages_of. cbn [fst snd].
  destruct S2 as (a & ->), S3 as (b & ->). rewrite !Z.div_mul by lia. split; [nia|]. split; [nia|]. intros q (Hq1 & Hq2) (r & Hr & Hq). cbn [fst snd] in *. unfold heap_grants in Hr. apply in_map_iff in Hr. destruct Hr as ((t, r0) & <- & Hr).
  destruct (Hg t r0 Hr) as ((c & Hc) & (d & Hd)). specialize (S7 _ Hr). unfold disj in S7. unfold in_range in Hq. cbn [fst snd hugepages_of] in *. rewrite Hc, Hd, !Z.div_mul in * by lia. nia.
Qed.
Print Assumptions system_serves_page_heaps.

(** ** Classification: what the predicates say depends only on the tag, so every byte of a range says the same. *)
Theorem classification : forall t r b, is_tag t -> tagged t r -> in_rng r b ->
  (is_normal_memory b = true <-> t = tag_normal_p0 \/ t = tag_normal_p1) /\ (is_sampled_memory b = true <-> t = tag_sampled \/ t = tag_sampled_p1) /\
  (get_memory_tag b = tag_cold <-> t = tag_cold) /\
  (forall c, partition_from_pointer c b = (if normal_parts c =? 1 then 0 else if t =? tag_normal_p1 then 1 else 0)) /\
  (forall c, t = tag_normal_p0 \/ t = tag_normal_p1 -> partition_from_pointer_fast c b = partition_from_pointer c b).
Proof.
  intros t r b Ht Htg Hb. pose proof (Htg b Hb) as E. unfold is_normal_memory, is_sampled_memory, partition_from_pointer, partition_from_pointer_fast. rewrite E. clear - Ht.
  unfold is_tag, tag_sampled, tag_sampled_p1, tag_cold, tag_metadata, tag_normal_p0, tag_normal_p1 in *. cbn [In] in Ht.
  destruct Ht as [<-|[<-|[<-|[<-|[<-|[<-|[]]]]]]]; cbn; repeat split; intros; try destruct (normal_parts c =? 1); try reflexivity; try discriminate; try lia; auto; try tauto.
Qed.
Print Assumptions classification.

(** ** Giving memory back *)
(** The whole pages within a range. *)
Definition whole_pages (ps start len s n : Z) : Prop :=
  (ps | s) /\ (ps | n) /\ start <= s /\ 0 < n /\ s + n <= start + len /\ forall q, (ps | q) -> start <= q -> q + ps <= start + len -> s <= q /\ q + ps <= s + n.
(** Which advice goes with which preference. *)
Definition allowed (pref : mpref) (a : advice) : Prop :=
  match a with
  | ARemove => True
  | AFree => pref = PrefFreeAndDontNeed \/ pref = PrefFreeOnly
  | ADontNeed | ADontNeedLocked => pref = PrefDontNeed \/ pref = PrefFreeAndDontNeed
  end.

Lemma release_pages_sys_ok ps pref s n round e : is_pow2 ps -> (ps | s) -> (ps | n) -> 0 <= s -> 0 < n -> s + n < two64 ->
  let '(st, calls) := release_pages_sys ps pref s n round e in
  calls <> [] /\ (forall a s' n', In (a, s', n') calls -> s' = s /\ n' = n /\ allowed pref a) /\
  (st = RSuccess -> exists a, In (a, s, n) calls /\ m_adv e round a = true) /\
  (st = RRetry -> forall a, In (a, s, n) calls -> a <> AFree -> m_adv e round a = false).
Proof.
  intros Hps Hs Hn H0 H1 H2. pose proof (is_pow2_pos _ Hps) as Hp0. unfold release_pages_sys. rewrite wrap64_small by lia.
  assert (E1 : Z.land s (ps - 1) =? 0 = true) by (apply Z.eqb_eq; rewrite land_pow2_mod' by assumption; apply Z.mod_divide; [lia|assumption]).
  assert (E2 : Z.land (s + n) (ps - 1) =? 0 = true) by (apply Z.eqb_eq; rewrite land_pow2_mod' by assumption; apply Z.mod_divide; [lia|apply Z.divide_add_r; assumption]).
  rewrite E1, E2. cbn [negb orb]. destruct (m_adv e round ARemove) eqn:Er.
  - split; [discriminate|]. split; [intros a s' n' [[= <- <- <-]|[]]; repeat split|]. split; [intros _; exists ARemove; split; [left; reflexivity|assumption]|discriminate].
  - destruct pref, (m_locked e) eqn:El; cbn [andb app negb]; destruct (m_adv e round AFree) eqn:Ef, (m_adv e round ADontNeed) eqn:Ed, (m_adv e round ADontNeedLocked) eqn:Edl;
      (split; [discriminate|]); (split; [intros a s' n'; cbn [In]; intros Hin; repeat (destruct Hin as [Hin|Hin]; [injection Hin as <- <- <-; cbn [allowed]; auto|]); contradiction|]);
      (split; [intros Est; try discriminate Est|intros Est; try discriminate Est; intros a; cbn [In]; intros Hin Hna; repeat (destruct Hin as [Hin|Hin]; [injection Hin as <-; congruence|]); contradiction]);
      ((exists AFree; split; [cbn [In]; tauto|assumption]) || (exists ADontNeed; split; [cbn [In]; tauto|assumption]) || (exists ADontNeedLocked; split; [cbn [In]; tauto|assumption])).
Qed.

(** Giving back a range touches only the whole pages in it, all of them at once, and calls nothing if there are none; it
    reports success only if the kernel accepted; it counts an error if and only if the kernel was asked and refused; it
    uses only what the preference allows. *)
Theorem system_release : forall ps pref start len e ok calls unlocked errors, is_pow2 ps -> 0 <= start -> 0 <= len -> start + len + ps <= two64 ->
  sys_release ps pref start len e = (ok, calls, unlocked, errors) ->
  (forall a s n, In (a, s, n) calls -> whole_pages ps start len s n /\ allowed pref a) /\
  (forall s n, In (s, n) unlocked -> whole_pages ps start len s n) /\
  (calls = [] <-> forall q, (ps | q) -> start <= q -> start + len < q + ps) /\
  (ok = true -> exists a s n round, In (a, s, n) calls /\ m_adv e round a = true) /\
  errors = (if ok then 0 else match calls with [] => 0 | _ => 1 end).
Proof.
  intros ps pref start len e ok calls unlocked errors Hps Hs Hl Hb E. pose proof (is_pow2_pos _ Hps) as Hp0. unfold sys_release in E. rewrite !wrap64_small in E by lia.
  rewrite !ldiff_pow2' in E by assumption. set (ns := start + ps - 1 - (start + ps - 1) mod ps) in *. set (ne := start + len - (start + len) mod ps) in *.
  assert (A1 : (ps | ns)) by (exists ((start + ps - 1) / ps); unfold ns; rewrite (Z.div_mod (start + ps - 1) ps) at 1 by lia; lia).
  assert (A2 : (ps | ne)) by (exists ((start + len) / ps); unfold ne; rewrite (Z.div_mod (start + len) ps) at 1 by lia; lia).
  pose proof (Z.mod_pos_bound (start + ps - 1) ps Hp0) as B1. pose proof (Z.mod_pos_bound (start + len) ps Hp0) as B2.
  assert (C1 : start <= ns < start + ps) by (unfold ns; lia). assert (C2 : ne <= start + len < ne + ps) by (unfold ne; lia). clearbody ns ne.
  assert (Hq : forall q, (ps | q) -> start <= q -> q + ps <= start + len -> ns <= q /\ q + ps <= ne).
  { intros q (k & ->) Hq1 Hq2. destruct A1 as (k1 & ->), A2 as (k2 & ->). split.
    - destruct (Z_le_gt_dec k1 k) as [H|H]; [clear - H Hp0; nia|]. assert (k * ps + ps <= k1 * ps) by (clear - H Hp0; nia). lia.
    - destruct (Z_le_gt_dec (k + 1) k2) as [H|H]; [clear - H Hp0; nia|]. assert (k2 * ps <= k * ps) by (clear - H Hp0; nia). lia. }
  destruct (Z.leb_spec ne ns) as [Hle|Hlt].
  - injection E as <- <- <- <-. split; [intros a s n []|]. split; [intros s n []|]. split; [|split; [discriminate|reflexivity]]. split; [|reflexivity]. intros _ q Hq0 Hq1.
    destruct (Z_lt_le_dec (start + len) (q + ps)) as [|Hc]; [assumption|]. destruct (Hq q Hq0 Hq1 Hc). lia.
  - assert (A3 : (ps | ne - ns)) by (apply Z.divide_sub_r; assumption).
    assert (Hw : whole_pages ps start len ns (ne - ns)). { split; [assumption|]. split; [assumption|]. split; [lia|]. split; [lia|]. split; [lia|]. intros q Q1 Q2 Q3. destruct (Hq q Q1 Q2 Q3). lia. }
    assert (Hne : (forall q, (ps | q) -> start <= q -> start + len < q + ps) -> False). { intros Hc. specialize (Hc ns A1 ltac:(lia)). destruct A1 as (k1 & ->), A2 as (k2 & ->). assert (k1 < k2) by (clear - Hlt Hp0; nia). assert (k1 * ps + ps <= k2 * ps) by (clear - H Hp0; nia). lia. }
    pose proof (release_pages_sys_ok ps pref ns (ne - ns) false e Hps A1 A3 ltac:(lia) ltac:(lia) ltac:(lia)) as R1. destruct (release_pages_sys ps pref ns (ne - ns) false e) as (st1, c1). destruct R1 as (R1a & R1b & R1c & _).
    pose proof (release_pages_sys_ok ps pref ns (ne - ns) true e Hps A1 A3 ltac:(lia) ltac:(lia) ltac:(lia)) as R2. destruct (release_pages_sys ps pref ns (ne - ns) true e) as (st2, c2). destruct R2 as (R2a & R2b & R2c & _).
    assert (Hc1 : forall a s n, In (a, s, n) c1 -> whole_pages ps start len s n /\ allowed pref a) by (intros a s n Hin; destruct (R1b a s n Hin) as (-> & -> & Ha); auto).
    assert (Hc2 : forall a s n, In (a, s, n) c2 -> whole_pages ps start len s n /\ allowed pref a) by (intros a s n Hin; destruct (R2b a s n Hin) as (-> & -> & Ha); auto).
    destruct c1 as [|x1 c1]; [contradiction|].
    assert (Hc12 : forall a s n, In (a, s, n) ((x1 :: c1) ++ c2) -> whole_pages ps start len s n /\ allowed pref a) by (intros a s n Hin; apply in_app_iff in Hin; destruct Hin; auto).
    assert (Hu : forall s n, In (s, n) [(ns, ne - ns)] -> whole_pages ps start len s n) by (intros s n [[= <- <-]|[]]; assumption).
    destruct st1; [| |destruct (m_unlock e); [destruct st2|]]; injection E as <- <- <- <-; (split; [assumption|]); (split; [assumption || (intros s n [])|]); (split; [split; [discriminate|intros Hc; destruct (Hne Hc)]|]);
      (split; [try discriminate|reflexivity]).
    + intros _. destruct (R1c eq_refl) as (a & Ha & Hm). exists a, ns, (ne - ns), false. auto.
    + intros _. destruct (R2c eq_refl) as (a & Ha & Hm). exists a, ns, (ne - ns), true. split; [change (x1 :: c1 ++ c2) with ((x1 :: c1) ++ c2); apply in_app_iff; right; assumption|assumption].
Qed.
Print Assumptions system_release.

(** ** The page heaps of all tags together *)
(** The hugepages that page heap [t] was granted come from the system, which was asked for tag [t]. *)
Definition served_by (G : list (Z * (Z * Z))) (t : Z) (Gt : list hrange) : Prop :=
  forall x, In x (hps Gt) -> exists r, In (t, r) G /\ fst r <= x * kHuge /\ x * kHuge + kHuge <= fst r + snd r.
(** The bytes of a live range of pages of [pg] bytes. *)
Definition bytes (pg : Z) (s : span) : Z * Z := (sp_page s * pg, sp_len s * pg).
Theorem page_heaps_together : forall P K pg sub fixed ps mm s M G (A : Z -> hpaa) (L : Z -> list span) H FL Gt,
  1 < P -> 0 < K -> 0 < pg -> P * pg = kHuge -> sys_sizes ps mm -> sa_reach fixed ps mm s M G ->
  (forall t, is_tag t -> hp_reach P K sub (A t) (L t) (H t) (FL t) (Gt t) /\ served_by G t (Gt t)) ->
  (forall t x, is_tag t -> In x (L t) -> tagged t (bytes pg x) /\ user_space (bytes pg x)) /\
  (forall t, is_tag t -> ForallOrdPairs disj (map (bytes pg) (L t))) /\
  (forall t1 t2 x1 x2, is_tag t1 -> is_tag t2 -> t1 <> t2 -> In x1 (L t1) -> In x2 (L t2) -> disj (bytes pg x1) (bytes pg x2)).
Proof.
  intros P K pg sub fixed ps mm s M G A L H FL Gt HP HK Hpg Hkh Hz Hs Hh. destruct (system_grants fixed ps mm s M G Hz Hs) as (_ & Hg).
  assert (H1 : forall t x, is_tag t -> In x (L t) -> tagged t (bytes pg x) /\ (forall b, in_rng (bytes pg x) b -> 0 < b < 2 ^ 47)).
  { intros t x Ht Hx. destruct (Hh t Ht) as (Hr & Hsv). destruct (live_ranges_disjoint P K sub (A t) (L t) (H t) (FL t) (Gt t) HP HK Hr) as (_ & Hl). destruct (Hl x Hx) as (Hlen & Hq).
    assert (Hb : forall b, in_rng (bytes pg x) b -> get_memory_tag b = t /\ 0 < b < 2 ^ 47).
    { intros b (Hb1 & Hb2). unfold bytes in *. cbn [fst snd] in *. pose proof (Z.div_mod b pg ltac:(lia)) as Eb. pose proof (Z.mod_pos_bound b pg Hpg) as Mb. set (q := b / pg) in *.
      assert (Q : sp_page x <= q < sp_page x + sp_len x) by (split; [apply Z.div_le_lower_bound; lia|apply Z.div_lt_upper_bound; lia]). destruct (Hsv _ (Hq q Q)) as (r & Hr1 & Hr2 & Hr3).
      pose proof (Z.div_mod q P ltac:(lia)) as Eq. pose proof (Z.mod_pos_bound q P ltac:(lia)) as Mq. set (y := q / P) in *. destruct (Hg t r Hr1) as (_ & Ht2 & U1 & U2).
      assert (Hin : fst r <= b < fst r + snd r). { rewrite <- Hkh in Hr2, Hr3. assert (E1 : y * (P * pg) = (q - q mod P) * pg) by (rewrite Eq at 1; ring). assert (0 <= (q mod P) * pg) by nia. assert ((q mod P) * pg + pg <= P * pg) by nia. lia. }
      split; [apply Ht2; exact Hin|lia]. }
    split; [intros b Hb'; apply Hb; assumption|intros b Hb'; apply Hb; assumption]. }
  assert (Hpos : forall t x, is_tag t -> In x (L t) -> 0 < snd (bytes pg x)).
  { intros t x Ht Hx. destruct (Hh t Ht) as (Hr & _). destruct (live_ranges_disjoint P K sub (A t) (L t) (H t) (FL t) (Gt t) HP HK Hr) as (_ & Hl). destruct (Hl x Hx) as (Hlen & _). cbn [bytes snd]. nia. }
  split; [|split].
  - intros t x Ht Hx. destruct (H1 t x Ht Hx) as (T1 & T2). split; [assumption|]. pose proof (Hpos t x Ht Hx). split.
    + apply T2. split; lia.
    + assert (fst (bytes pg x) + snd (bytes pg x) - 1 < 2 ^ 47) by (apply T2; split; lia). lia.
  - intros t Ht. destruct (Hh t Ht) as (Hr & _). destruct (live_ranges_disjoint P K sub (A t) (L t) (H t) (FL t) (Gt t) HP HK Hr) as (Hd & _).
    clear Hr. induction (L t) as [|x l IH]; [constructor|]. cbn [map] in *. apply fop_cons_inv in Hd. destruct Hd as (Hd1 & Hd2). apply fop_cons; [|auto]. intros y Hy. apply in_map_iff in Hy. destruct Hy as (z & <- & Hz').
    specialize (Hd1 (rng z) (in_map rng l z Hz')). unfold disj, rng, bytes in *. cbn [fst snd] in *. clear - Hd1 Hpg. nia.
  - intros t1 t2 x1 x2 Ht1 Ht2 Hne Hx1 Hx2. apply (tagged_disj t1 t2); eauto; apply H1; assumption.
Qed.
Print Assumptions page_heaps_together.

(** ** What MmapAligned's own check allows is too much.  It admits up to 7 * 2^42 bytes, but beyond 2^42 bytes no
    address range can have one tag. *)
Theorem mmap_aligned_large_refuted : exists ps mm s M G size al tag e p s' b, sys_sizes ps mm /\ sa_reach true ps mm s M G /\ size <= kTagMask /\ is_pow2 al /\ is_tag tag /\
  (forall i h n r, e_map e i h n = Some r -> r = h /\ user_space (r, n) /\ forall m, In m M -> disj (r, n) m) /\
  mmap_aligned true s size al tag e = Some (Some p, s') /\ in_rng (p, size) b /\ get_memory_tag b <> tag.
Proof.
  exists 4096, (2 ^ 30), sa_init, [], [], (2 ^ 43), kHuge, tag_normal_p0, (SEnv (fun _ _ _ => 0) (fun _ h n => if (h =? 2 ^ 44) && (n =? 2 ^ 43) then Some h else None) true (fun _ => true)).
  exists (2 ^ 44). eexists. exists (2 ^ 44 + 2 ^ 42). split; [split; [exists 12; lia|split; [unfold kHuge; lia|split; [exists 30; lia|unfold kHuge; lia]]]|]. split; [constructor|]. split; [vm_compute; discriminate|]. split; [apply kHuge_pow2|].
  split; [cbn; tauto|]. split.
  - intros i h n r. cbn [e_map]. destruct (Z.eqb_spec h (2 ^ 44)) as [->|]; [|discriminate]. destruct (Z.eqb_spec n (2 ^ 43)) as [->|]; [|discriminate]. intros [= <-]. split; [reflexivity|]. split; [split; cbn [fst snd]; lia|]. intros m [].
  - split; [vm_compute; reflexivity|]. split; [split; cbn [fst snd]; lia|]. vm_compute. discriminate.
Qed.
Print Assumptions mmap_aligned_large_refuted.

(** ** An example: a kernel that maps at one place only, when asked to. *)
Definition ex_kernel (r h0 n0 : Z) : senv := SEnv (fun _ _ _ => r) (fun _ h n => if (h =? h0) && (n =? n0) then Some h else None) true (fun _ => true).
Lemma ex_kernel_ok M tag r h0 n0 : is_tag tag -> (forall size al, 0 < size <= 2 ^ 42 -> 0 < al <= 2 ^ 42 -> random_hint size al tag r <> 0) ->
  user_space (h0, n0) -> (forall m, In m M -> disj (h0, n0) m) -> kernel_ok true M tag (ex_kernel r h0 n0).
Proof.
  intros Ht Hr Hu Hd. split; [intros i size al Hs Ha; apply Hr; assumption|]. intros i h n r'. cbn [e_map ex_kernel]. destruct (Z.eqb_spec h h0) as [->|]; [|discriminate]. destruct (Z.eqb_spec n n0) as [->|]; [|discriminate].
  intros [= <-]. auto.
Qed.
Lemma hint_tag_nonzero tag r size al : 0 < tag -> random_hint size al tag r <> 0.
Proof. intros Ht H. unfold random_hint in H. apply Z.lor_eq_0_iff in H. destruct H as (_ & H). rewrite Z.shiftl_mul_pow2 in H by (unfold tag_shift; lia). assert (0 < 2 ^ tag_shift) by (unfold tag_shift; lia). nia. Qed.
Definition sa_st (d : sysalloc) (o : option (option (Z * Z) * sysalloc * list (Z * Z))) : sysalloc := match o with Some (_, s, _) => s | None => d end.
Lemma ex_alloc s M G bytes al tag r h0 n0 res m : sa_reach true 4096 (2 ^ 30) s M G -> 0 < bytes < two64 -> is_pow2 al -> al < two64 -> is_tag tag -> 0 < tag -> user_space (h0, n0) -> (forall x, In x M -> disj (h0, n0) x) ->
  match sys_allocate true 4096 (2 ^ 30) s bytes al tag (ex_kernel r h0 n0) with Some (res', _, m') => res' = Some res /\ m' = m | None => False end ->
  sa_reach true 4096 (2 ^ 30) (sa_st s (sys_allocate true 4096 (2 ^ 30) s bytes al tag (ex_kernel r h0 n0))) (m ++ M) ((tag, res) :: G).
Proof.
  intros Hs Hb Ha Hal Ht Ht0 Hu Hd He. destruct (sys_allocate true 4096 (2 ^ 30) s bytes al tag (ex_kernel r h0 n0)) as [((res', s'), m')|] eqn:E; [|contradiction]. destruct He as (-> & ->). cbn [sa_st].
  apply (sr_alloc true 4096 (2 ^ 30) s M G bytes al tag (ex_kernel r h0 n0) (Some res) s' m Hs Hb (or_intror Ha) Hal Ht); [|assumption].
  apply ex_kernel_ok; try assumption. intros size al' _ _. apply hint_tag_nonzero. assumption.
Qed.
Example ex_sizes : sys_sizes 4096 (2 ^ 30).
Proof. split; [exists 12; lia|split; [unfold kHuge; lia|split; [exists 30; lia|unfold kHuge; lia]]]. Qed.
(** A hugepage for ordinary objects; 3 MiB aligned to 4 MiB from the same region; 2 GiB mapped for itself; a hugepage for
    cold objects, with another tag. *)
Definition ex_r : Z := 2 ^ 45 + 5 * 2 ^ 31 + 777.
Definition ex_h0 : Z := 2 ^ 45 + 2 ^ 44 + 10 * 2 ^ 30.
Definition ex_h1 : Z := 2 ^ 45 + 2 ^ 44 + 2 ^ 34.
Definition ex_h2 : Z := 2 ^ 45 + 2 ^ 43 + 10 * 2 ^ 30.
Definition exs1 : sysalloc := sa_st sa_init (sys_allocate true 4096 (2 ^ 30) sa_init kHuge kHuge tag_normal_p0 (ex_kernel ex_r ex_h0 (2 ^ 30))).
Definition exs2 : sysalloc := sa_st exs1 (sys_allocate true 4096 (2 ^ 30) exs1 (3 * 2 ^ 20) (2 ^ 22) tag_normal_p0 (ex_kernel ex_r ex_h1 (2 ^ 30))).
Definition exs3 : sysalloc := sa_st exs2 (sys_allocate true 4096 (2 ^ 30) exs2 (2 ^ 31) kHuge tag_normal_p0 (ex_kernel ex_r (ex_h0 + 2 ^ 30) (2 ^ 31))).
Definition exs4 : sysalloc := sa_st exs3 (sys_allocate true 4096 (2 ^ 30) exs3 kHuge kHuge tag_cold (ex_kernel ex_r ex_h2 (2 ^ 30))).
Definition exg1 : list (Z * (Z * Z)) := [(tag_normal_p0, (ex_h0 + 2 ^ 30 - kHuge, kHuge))].
Definition exg2 : list (Z * (Z * Z)) := (tag_normal_p0, (ex_h0 + 2 ^ 30 - 8 * 2 ^ 20, 6 * 2 ^ 20)) :: exg1.
Definition exg3 : list (Z * (Z * Z)) := (tag_normal_p0, (ex_h0 + 2 ^ 30, 2 ^ 31)) :: exg2.
Definition exg4 : list (Z * (Z * Z)) := (tag_cold, (ex_h2 + 2 ^ 30 - kHuge, kHuge)) :: exg3.
Lemma exs1_reach : sa_reach true 4096 (2 ^ 30) exs1 [(ex_h0, 2 ^ 30)] exg1.
Proof.
  apply (ex_alloc sa_init [] [] kHuge kHuge tag_normal_p0 ex_r ex_h0 (2 ^ 30) (ex_h0 + 2 ^ 30 - kHuge, kHuge) [(ex_h0, 2 ^ 30)]);
    [constructor|unfold kHuge, two64; lia|apply kHuge_pow2|unfold kHuge, two64; lia|cbn; tauto|unfold tag_normal_p0; lia|vm_compute; split; [reflexivity|discriminate]|intros x []|vm_compute; split; reflexivity].
Qed.
Lemma exs4_reach : sa_reach true 4096 (2 ^ 30) exs4 [(ex_h2, 2 ^ 30); (ex_h0 + 2 ^ 30, 2 ^ 31); (ex_h0, 2 ^ 30)] exg4.
Proof.
  assert (R2 : sa_reach true 4096 (2 ^ 30) exs2 [(ex_h0, 2 ^ 30)] exg2).
  { apply (ex_alloc exs1 [(ex_h0, 2 ^ 30)] exg1 (3 * 2 ^ 20) (2 ^ 22) tag_normal_p0 ex_r ex_h1 (2 ^ 30) (ex_h0 + 2 ^ 30 - 8 * 2 ^ 20, 6 * 2 ^ 20) []);
      [apply exs1_reach|unfold two64; lia|exists 22; lia|unfold two64; lia|cbn; tauto|unfold tag_normal_p0; lia|vm_compute; split; [reflexivity|discriminate]| |vm_compute; split; reflexivity].
    intros x [<-|[]]. vm_compute. right. discriminate. }
  assert (R3 : sa_reach true 4096 (2 ^ 30) exs3 [(ex_h0 + 2 ^ 30, 2 ^ 31); (ex_h0, 2 ^ 30)] exg3).
  { apply (ex_alloc exs2 [(ex_h0, 2 ^ 30)] exg2 (2 ^ 31) kHuge tag_normal_p0 ex_r (ex_h0 + 2 ^ 30) (2 ^ 31) (ex_h0 + 2 ^ 30, 2 ^ 31) [(ex_h0 + 2 ^ 30, 2 ^ 31)]);
      [exact R2|unfold two64; lia|apply kHuge_pow2|unfold kHuge, two64; lia|cbn; tauto|unfold tag_normal_p0; lia|vm_compute; split; [reflexivity|discriminate]| |vm_compute; split; reflexivity].
    intros x [<-|[]]. vm_compute. right. discriminate. }
  apply (ex_alloc exs3 [(ex_h0 + 2 ^ 30, 2 ^ 31); (ex_h0, 2 ^ 30)] exg3 kHuge kHuge tag_cold ex_r ex_h2 (2 ^ 30) (ex_h2 + 2 ^ 30 - kHuge, kHuge) [(ex_h2, 2 ^ 30)]);
    [exact R3|unfold kHuge, two64; lia|apply kHuge_pow2|unfold kHuge, two64; lia|cbn; tauto|unfold tag_cold; lia|vm_compute; split; [reflexivity|discriminate]| |vm_compute; split; reflexivity].
  intros x [<-|[<-|[]]]; vm_compute; left; discriminate.
Qed.
Example exs4_disjoint : ForallOrdPairs disj (map snd exg4).
Proof. apply (system_grants true 4096 (2 ^ 30) exs4 _ exg4 ex_sizes exs4_reach). Qed.
(** The next request meets the hypotheses of [system_allocate] and [system_serves_page_heaps]. *)
Example exs4_next : exists s' m, sys_allocate true 4096 (2 ^ 30) exs4 kHuge kHuge tag_normal_p1 (ex_kernel ex_r (2 ^ 45 + 2 ^ 44 + 2 ^ 43 + 10 * 2 ^ 30) (2 ^ 30)) = Some (Some (2 ^ 45 + 2 ^ 44 + 2 ^ 43 + 11 * 2 ^ 30 - kHuge, kHuge), s', m).
Proof. eexists. eexists. vm_compute. reflexivity. Qed.
(** A range with two whole pages in it; the kernel does not know MADV_REMOVE for it, and frees it. *)
Example ex_release : sys_release 4096 PrefFreeOnly 5000 12000 (MEnv (fun _ a => match a with AFree => true | _ => false end) true false)
  = (true, [(ARemove, 8192, 8192); (AFree, 8192, 8192)], [], 0).
Proof. reflexivity. Qed.
(** Locked memory: refused, unlocked, then accepted. *)
Example ex_release_locked : sys_release 4096 PrefDontNeed 5000 12000 (MEnv (fun round a => match a with ADontNeed => round | _ => false end) true false)
  = (true, [(ARemove, 8192, 8192); (ADontNeed, 8192, 8192); (ARemove, 8192, 8192); (ADontNeed, 8192, 8192)], [(8192, 8192)], 0).
Proof. reflexivity. Qed.
(** The page heap of HpaaExamples.v, for sampled objects, on hugepages 64 to 71, and one for cold objects that has
    nothing yet; pages of 8 KiB. *)
Definition ex_low : senv := SEnv (fun _ size al => if (size =? 2 ^ 24) && (al =? kHuge) then 2 ^ 27 else 2 ^ 45) (fun _ h n => if (h =? 2 ^ 27) && (n =? 2 ^ 24) then Some h else None) true (fun _ => true).
Lemma hint_high size al : 0 < size <= 2 ^ 42 -> 0 < al <= 2 ^ 42 -> random_hint size al 0 (2 ^ 45) <> 0.
Proof.
  intros Hs Ha H. assert (B : Z.testbit (random_hint size al 0 (2 ^ 45)) 45 = true).
  { unfold random_hint. destruct (bit_ceil_spec (Z.max al size) ltac:(lia)) as (k & Hk & -> & _). rewrite Z.lor_spec, !Z.ldiff_spec, (pow2_ones k), (Z.ones_spec_high k) by lia. reflexivity. }
  rewrite H in B. discriminate B.
Qed.
Lemma ex_low_reach : exists s, sa_reach true 4096 (2 ^ 30) s [(2 ^ 27, 2 ^ 24)] [(tag_sampled, (2 ^ 27, 2 ^ 24))].
Proof.
  eexists. refine (sr_mmap true 4096 (2 ^ 30) sa_init [] [] (2 ^ 24) kHuge tag_sampled ex_low (Some (2 ^ 27)) _ (sr_start _ _ _) ltac:(lia) kHuge_pow2 ltac:(unfold kHuge; lia) ltac:(cbn; tauto) _ _).
  - split.
    + intros i size al Hs Ha. cbn [e_rnd ex_low]. destruct (Z.eqb_spec size (2 ^ 24)) as [->|]; cbn [andb]; [|apply hint_high; assumption]. destruct (Z.eqb_spec al kHuge) as [->|]; [vm_compute; discriminate|apply hint_high; assumption].
    + intros i h n r. cbn [e_map ex_low]. destruct (Z.eqb_spec h (2 ^ 27)) as [->|]; [|discriminate]. destruct (Z.eqb_spec n (2 ^ 24)) as [->|]; [|discriminate]. intros [= <-]. split; [reflexivity|]. split; [split; cbn [fst snd]; lia|]. intros m [].
  - vm_compute. reflexivity.
Qed.
Example ex_heaps : exists s M G A L H FL Gt, sa_reach true 4096 (2 ^ 30) s M G /\ L tag_sampled = ex_live /\
  forall t, is_tag t -> hp_reach 256 4 true (A t) (L t) (H t) (FL t) (Gt t) /\ served_by G t (Gt t).
Proof.
  destruct ex_low_reach as (s & Hs). exists s, [(2 ^ 27, 2 ^ 24)], [(tag_sampled, (2 ^ 27, 2 ^ 24))], (fun t => if t =? 0 then ex6 else hp_init ex_t0 true), (fun t => if t =? 0 then ex_live else []), (fun _ => []), (fun _ => []), (fun t => if t =? 0 then [(64, 8)] else []).
  split; [exact Hs|]. split; [reflexivity|]. intros t Ht. destruct (Z.eqb_spec t 0) as [->|Hne].
  - split; [exact ex6_reach|]. intros x Hx. exists (2 ^ 27, 2 ^ 24). split; [left; reflexivity|]. unfold hps in Hx. cbn [flat_map app] in Hx. apply in_app_iff in Hx. destruct Hx as [Hx|[]]. apply pages_of_In in Hx. unfold kHuge, in_range in *. cbn [fst snd] in *. lia.
  - split; [constructor|]. intros x [].
Qed.
