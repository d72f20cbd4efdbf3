(** Properties C06, C07 and C08: aligned entry points, realloc, sized delete. *)
From Verif Require Import Base SizeMap SizeMapProofs SizeMapProofs2 Tables SizeMapProps FrontApi FrontApiProofs FrontApiProps.

(** ** Specification *)

(** Where the layers below put a block: an object of a class sits at a multiple
    of the object size inside a page-aligned span, a page allocation starts at
    a multiple of the number of pages that covers the alignment (the argument
    do_malloc_pages passes to the page heap), a sampled small object gets its
    own page-aligned span and a guarded one an address aligned as asked. *)
Definition placed (c : cfg) (m : sizemap) (p : policy) (size : Z) (o : outcome) : Prop :=
  match get_size_class c m p size with
  | Small cl =>
    match o with
    | OutOfMemory => True
    | Plain a _ => exists st i, (page_size c | st) /\ a = st + i * class_to_size m cl
    | Sampled a _ => (page_size c | a)
    | Guarded a _ => (align p | a)
    end
  | _ =>
    match o with
    | OutOfMemory => True
    | Plain a _ | Sampled a _ | Guarded a _ => (bytes_to_length_ceil c (align p) * page_size c | a)
    end
  end.

(** One request of at least [size] bytes with alignment [al] reaches the
    allocator; either it fails with ENOMEM and the heap is as before, or the
    result is a new block with that alignment and at least [size] usable bytes. *)
Definition allocated (m : sizemap) (w w' : world) (size al r : Z) : Prop :=
  (exists size', size <= size' /\ trace w' = EvAlloc size' al :: trace w) /\
  (r = 0 /\ errno w' = ENOMEM /\ heap w' = heap w \/
   r <> 0 /\ heap w r = None /\ (al | r) /\
   (exists b, heap w' r = Some b /\ size <= get_size m b) /\
   (forall q, q <> r -> heap w' q = heap w q)).

(** Nothing reached the allocator and the heap is as before. *)
Definition rejected (w w' : world) : Prop := heap w' = heap w /\ trace w' = trace w.

(** ** Allocation through an entry point *)

Lemma w_alloc_sizes c active full t m p ret w size o :
  configured c active full t m -> policy_ok c p -> 0 <= size -> outcome_ok w c size o ->
  exists r n w', w_alloc c m p ret w size o = Some (r, n, w') /\
    trace w' = EvAlloc size (align p) :: trace w /\
    (r = 0 /\ n = 0 /\ errno w' = ENOMEM /\ heap w' = heap w \/
     r <> 0 /\ heap w r = None /\ errno w' = errno w /\
     (exists b, heap w' = upd (heap w) r (Some b) /\ size <= get_size m b /\ n = get_size m b /\
                (snd (get_size_and_sampled m b) = false -> 0 < get_size m b))).
Proof.
  intros Hcf Hp Hs Ho. pose proof Hcf as (Hc & Hf & Hv & Hm).
  unfold w_alloc.
  destruct (fast_alloc c m p ret size o) as [| |a b k] eqn:E.
  - exfalso. unfold fast_alloc in E.
    destruct (lookup_cases c active full t m _ size Hcf Hp Hs)
      as [(_ & _ & cl & E1 & _)|(_ & E1)]; rewrite E1 in E; destruct o; discriminate.
  - do 3 eexists. split; [reflexivity|]. split; [reflexivity|]. left. auto.
  - assert (Ha : a <> 0 /\ heap w a = None /\ size + page_size c <= two64).
    { unfold fast_alloc in E.
      destruct (lookup_cases c active full t m _ size Hcf Hp Hs)
        as [(_ & _ & cl & E1 & _)|(_ & E1)]; rewrite E1 in E; destruct o; inversion E; subst; exact Ho. }
    destruct Ha as (Ha & Hfr & Hbd).
    destruct (alloc_usable _ _ _ _ _ _ _ _ _ _ _ _ Hcf Hp Hs Hbd E) as (x & Hx & HH).
    assert (Hge : size <= x) by (destruct Hx as [(_ & _ & (_ & H & _))|(_ & H & _)]; exact H).
    do 3 eexists. split; [reflexivity|]. split; [reflexivity|]. right.
    split; [exact Ha|]. split; [exact Hfr|]. split; [reflexivity|].
    exists b. split; [reflexivity|].
    assert (Hk : k = get_size m b /\ size <= get_size m b) by (destruct (is_guarded b); lia).
    destruct Hk as (Hk & Hsz). split; [assumption|]. split; [assumption|].
    intros Hns. assert (Hgf : is_guarded b = false).
    { unfold is_guarded, get_size_and_sampled in *. unfold fast_alloc in E.
      destruct (get_size_class c m p size); [| |discriminate];
        destruct o; inversion E; subst; cbn in *; try reflexivity; discriminate. }
    rewrite Hgf in HH. destruct HH as (-> & _).
    destruct Hx as [(_ & _ & (B1 & _))|(_ & _ & H & _)]; [|exact H].
    apply table_sizes_in in B1; [|assumption|assumption]. destruct B1 as (j & Hj & <-).
    apply (so_pos _ _ _ (valid_sizes_ok c t Hc Hf Hv) j Hj).
Qed.

Lemma placed_aligned c active full t m p ret size o a b k :
  configured c active full t m -> policy_ok c p -> 0 <= size -> placed c m p size o ->
  fast_alloc c m p ret size o = AllocOk a b k -> (align p | a).
Proof.
  intros Hcf Hp Hs Hpl E. pose proof Hcf as (Hc & _).
  pose proof (page_size_pos c Hc) as Hps.
  destruct (cfg_ok_facts c Hc) as (_ & _ & _ & _ & _ & Hpow & _).
  unfold placed in Hpl. unfold fast_alloc in E.
  destruct (lookup_cases c active full t m p size Hcf Hp Hs)
    as [(Hal & Hsx & cl & E1 & _ & (_ & _ & Hdv & _))|(_ & E1)]; rewrite E1 in E, Hpl.
  - assert (Hdp : (align p | page_size c)) by (apply is_pow2_divide; [apply Hp|assumption|assumption]).
    destruct o; inversion E; subst.
    + destruct Hpl as (st & i & Hst & ->). apply Z.divide_add_r.
      * eapply Z.divide_trans; eassumption.
      * apply Z.divide_mul_r. assumption.
    + eapply Z.divide_trans; eassumption.
    + assumption.
  - assert (Hdv : (align p | bytes_to_length_ceil c (align p) * page_size c)).
    { pose proof (is_pow2_pos _ (proj1 Hp)) as Hap.
      rewrite ceil_spec by (assumption || lia).
      destruct (Z.le_gt_cases (align p) (page_size c)) as [Hal|Hal].
      - apply Z.divide_mul_r. apply is_pow2_divide; [apply Hp|assumption|assumption].
      - destruct (is_pow2_divide (page_size c) (align p) Hpow (proj1 Hp) ltac:(lia)) as (q & Hq).
        rewrite Hq. replace (q * page_size c + page_size c - 1) with ((page_size c - 1) + q * page_size c) by lia.
        rewrite Z.div_add, (Z.div_small (page_size c - 1)) by lia. rewrite Z.add_0_l. apply Z.divide_refl. }
    destruct o; inversion E; subst; eapply Z.divide_trans; eassumption.
Qed.

Lemma w_alloc_spec c active full t m p ret w size o :
  configured c active full t m -> policy_ok c p -> 0 <= size -> outcome_ok w c size o ->
  placed c m p size o ->
  exists r n w', w_alloc c m p ret w size o = Some (r, n, w') /\
    trace w' = EvAlloc size (align p) :: trace w /\
    (r = 0 /\ n = 0 /\ errno w' = ENOMEM /\ heap w' = heap w \/
     r <> 0 /\ heap w r = None /\ errno w' = errno w /\ (align p | r) /\
     (exists b, heap w' = upd (heap w) r (Some b) /\ size <= get_size m b /\ n = get_size m b /\
                (snd (get_size_and_sampled m b) = false -> 0 < get_size m b))).
Proof.
  intros Hcf Hp Hs Ho Hpl.
  destruct (w_alloc_sizes c active full t m p ret w size o Hcf Hp Hs Ho)
    as (r & n & w' & E & Htr & H).
  do 3 eexists. split; [exact E|]. split; [exact Htr|].
  destruct H as [H|(H1 & H2 & H3 & H4)]; [left; exact H|right].
  repeat (split; [assumption|]). split; [|assumption].
  unfold w_alloc in E. destruct (fast_alloc c m p ret size o) eqn:Ef; inversion E; subst; [contradiction|].
  eapply placed_aligned; eassumption.
Qed.

Lemma entry_allocated c active full t m p ret w size o r n w' s0 :
  configured c active full t m -> policy_ok c p -> 0 <= size -> outcome_ok w c size o ->
  placed c m p size o -> s0 <= size -> w_alloc c m p ret w size o = Some (r, n, w') ->
  allocated m w w' s0 (align p) r.
Proof.
  intros Hcf Hp Hs Ho Hpl Hle E.
  destruct (w_alloc_spec c active full t m p ret w size o Hcf Hp Hs Ho Hpl)
    as (r1 & n1 & w1 & E1 & Htr & H).
  rewrite E1 in E. inversion E; subst. split; [exists size; auto|].
  destruct H as [(-> & -> & H2 & H3)|(H1 & H2 & _ & H3 & (b & Hb & Hsz & _))]; [left; auto|right].
  split; [assumption|]. split; [assumption|]. split; [assumption|].
  split; [exists b; rewrite Hb, upd_same; split; [reflexivity|lia]|].
  intros q Hq. rewrite Hb, upd_other by assumption. reflexivity.
Qed.

Lemma w_alloc_total c active full t m p ret w size o :
  configured c active full t m -> policy_ok c p -> 0 <= size ->
  exists r n w', w_alloc c m p ret w size o = Some (r, n, w').
Proof.
  intros Hcf Hp Hs. unfold w_alloc, fast_alloc.
  destruct (lookup_cases c active full t m _ size Hcf Hp Hs)
    as [(_ & _ & cl & E1 & _)|(_ & E1)]; rewrite E1; destruct o; eauto.
Qed.

(** ** C06 *)

(** posix_memalign stores a result and returns 0 exactly when it allocates. *)
Theorem posix_memalign_spec : forall c active full t m numa w al size o,
  configured c active full t m -> 0 <= numa < numa_parts c ->
  u64 al -> u64 size -> outcome_ok w c size o ->
  placed c m (align_as (malloc_policy c numa) al) size o ->
  exists code out w', api_posix_memalign c m numa w al size o = Some (code, out, w') /\
    if (al mod 8 =? 0) && has_single_bit al
    then (code = ENOMEM /\ out = None /\ allocated m w w' size al 0) \/
         (exists r, r <> 0 /\ code = 0 /\ out = Some r /\ allocated m w w' size al r)
    else code = EINVAL /\ out = None /\ rejected w w'.
Proof.
  intros c active full t m numa w al size o Hcf Hn Hal Hs Ho Hpl. pose proof Hcf as (Hc & _).
  unfold api_posix_memalign.
  destruct (al mod 8 =? 0); cbn [negb orb andb].
  2:{ do 3 eexists. split; [reflexivity|]. repeat split. }
  destruct (has_single_bit al) eqn:Eb; cbn [negb].
  2:{ do 3 eexists. split; [reflexivity|]. repeat split. }
  apply has_single_bit_spec in Eb.
  pose proof (align_as_ok c _ al (malloc_policy_ok c numa Hc Hn) Eb) as Hp.
  destruct (w_alloc_total c active full t m _ false w size o Hcf Hp (proj1 Hs)) as (r & n & w' & E).
  rewrite E. cbn [obind].
  pose proof (entry_allocated _ _ _ _ _ _ _ _ _ _ _ _ _ size Hcf Hp (proj1 Hs) Ho Hpl (Z.le_refl _) E) as HA.
  cbn [align align_as] in HA.
  destruct (Z.eqb_spec r 0) as [->|Hr]; do 3 eexists; (split; [reflexivity|]).
  - left. auto.
  - right. exists r. auto.
Qed.
Print Assumptions posix_memalign_spec.

(** The test posix_memalign and aligned_alloc apply is "power of two". *)
Theorem alignment_check_exact : forall al, has_single_bit al = true <-> is_pow2 al.
Proof. exact has_single_bit_spec. Qed.
Print Assumptions alignment_check_exact.

Theorem aligned_alloc_spec : forall c active full t m numa w al size o,
  configured c active full t m -> 0 <= numa < numa_parts c ->
  u64 al -> u64 size -> outcome_ok w c size o ->
  placed c m (align_as (malloc_policy c numa) al) size o ->
  exists r w', api_aligned_alloc c m numa w al size o = Some (r, w') /\
    if has_single_bit al then allocated m w w' size al r
    else r = 0 /\ errno w' = EINVAL /\ rejected w w'.
Proof.
  intros c active full t m numa w al size o Hcf Hn Hal Hs Ho Hpl. pose proof Hcf as (Hc & _).
  unfold api_aligned_alloc.
  destruct (has_single_bit al) eqn:Eb; cbn [negb].
  2:{ do 2 eexists. split; [reflexivity|]. repeat split. }
  apply has_single_bit_spec in Eb.
  pose proof (align_as_ok c _ al (malloc_policy_ok c numa Hc Hn) Eb) as Hp.
  destruct (w_alloc_total c active full t m _ false w size o Hcf Hp (proj1 Hs)) as (r & n & w' & E).
  rewrite E. cbn [obind]. do 2 eexists. split; [reflexivity|].
  apply (entry_allocated _ _ _ _ _ _ _ _ _ _ _ _ _ size Hcf Hp (proj1 Hs) Ho Hpl (Z.le_refl _) E).
Qed.
Print Assumptions aligned_alloc_spec.

(** aligned_alloc_at_least also reports the usable size. *)
Theorem aligned_alloc_at_least_spec : forall c active full t m numa w al size o,
  configured c active full t m -> 0 <= numa < numa_parts c ->
  u64 al -> u64 size -> outcome_ok w c size o ->
  placed c m (align_as (malloc_policy c numa) al) size o ->
  exists r n w', api_aligned_alloc_at_least c m numa w al size o = Some (r, n, w') /\
    if has_single_bit al
    then allocated m w w' size al r /\
         (r <> 0 -> exists b, heap w' r = Some b /\ n = get_size m b /\ size <= n)
    else r = 0 /\ n = 0 /\ errno w' = EINVAL /\ rejected w w'.
Proof.
  intros c active full t m numa w al size o Hcf Hn Hal Hs Ho Hpl. pose proof Hcf as (Hc & _).
  unfold api_aligned_alloc_at_least.
  destruct (has_single_bit al) eqn:Eb; cbn [negb].
  2:{ do 3 eexists. split; [reflexivity|]. repeat split. }
  apply has_single_bit_spec in Eb.
  pose proof (align_as_ok c _ al (malloc_policy_ok c numa Hc Hn) Eb) as Hp.
  destruct (w_alloc_spec c active full t m _ true w size o Hcf Hp (proj1 Hs) Ho Hpl)
    as (r & n & w' & E & Htr & H).
  rewrite E. do 3 eexists. split; [reflexivity|]. split.
  - apply (entry_allocated _ _ _ _ _ _ _ _ _ _ _ _ _ size Hcf Hp (proj1 Hs) Ho Hpl (Z.le_refl _) E).
  - intros Hr. destruct H as [(H & _)|(_ & _ & _ & _ & (b & Hb & Hsz & Hnn & _))]; [contradiction|].
    exists b. rewrite Hb, upd_same. split; [reflexivity|]. lia.
Qed.
Print Assumptions aligned_alloc_at_least_spec.

(** memalign honours a power of two.  What is missing from the full claim: it
    does not reject other alignments (next theorem). *)
Theorem memalign_spec_partial : forall c active full t m numa w al size o,
  configured c active full t m -> 0 <= numa < numa_parts c ->
  is_pow2 al -> u64 size -> outcome_ok w c size o ->
  placed c m (align_as (malloc_policy c numa) al) size o ->
  exists r w', api_memalign c m numa w al size o = Some (r, w') /\ allocated m w w' size al r.
Proof.
  intros c active full t m numa w al size o Hcf Hn Hal Hs Ho Hpl. pose proof Hcf as (Hc & _).
  unfold api_memalign.
  pose proof (align_as_ok c _ al (malloc_policy_ok c numa Hc Hn) Hal) as Hp.
  destruct (w_alloc_total c active full t m _ false w size o Hcf Hp (proj1 Hs)) as (r & n & w' & E).
  rewrite E. cbn [obind]. do 2 eexists. split; [reflexivity|].
  apply (entry_allocated _ _ _ _ _ _ _ _ _ _ _ _ _ size Hcf Hp (proj1 Hs) Ho Hpl (Z.le_refl _) E).
Qed.
Print Assumptions memalign_spec_partial.

(** memalign(24, 300000) allocates, and at an address that is not a multiple of
    24: the alignment is not checked. *)
Theorem memalign_unchecked_refuted :
  exists c t m w al size o r w', configured c false false t m /\ ~ is_pow2 al /\
    outcome_ok w c size o /\ placed c m (align_as (malloc_policy c 0) al) size o /\
    api_memalign c m 0 w al size o = Some (r, w') /\ r <> 0 /\
    trace w' <> trace w /\ ~ (al | r).
Proof.
  set (c := cfg13 1 1).
  assert (Hc : cfg_ok c) by (exists 1, 1; split; [lia|auto]).
  assert (Hin : In t_def_8_13 (tables (page_shift c))) by (cbn; tauto).
  destruct (shipped_tables_accepted c _ Hc Hin) as (Hv & Hf).
  destruct (accepted_table_initialises c false false _ Hc Hf Hv) as (m & Em).
  exists c, t_def_8_13, m, (World (fun _ => None) 0 []), 24, 300000, (Plain 8192 (fun _ => 0)), 8192.
  eexists. split; [repeat split; assumption|].
  split. { intros H. apply has_single_bit_spec in H. discriminate. }
  split. { split; [lia|]. split; [reflexivity|]. unfold two64, page_size. cbn. lia. }
  split. { cbv beta iota delta [placed]. change (get_size_class c m (align_as (malloc_policy c 0) 24) 300000) with NotSmall.
           cbv iota. exists 1. reflexivity. }
  split; [reflexivity|]. split; [lia|]. split; [discriminate|].
  intros (q & Hq). lia.
Qed.
Print Assumptions memalign_unchecked_refuted.

(** valloc: [sys] is the system page size, a power of two. *)
Theorem valloc_spec : forall c active full t m numa sys w size o,
  configured c active full t m -> 0 <= numa < numa_parts c ->
  is_pow2 sys -> u64 size -> outcome_ok w c size o ->
  placed c m (align_as (malloc_policy c numa) sys) size o ->
  exists r w', api_valloc c m numa sys w size o = Some (r, w') /\ allocated m w w' size sys r.
Proof.
  intros c active full t m numa sys w size o Hcf Hn Hal Hs Ho Hpl. pose proof Hcf as (Hc & _).
  unfold api_valloc.
  pose proof (align_as_ok c _ sys (malloc_policy_ok c numa Hc Hn) Hal) as Hp.
  destruct (w_alloc_total c active full t m _ false w size o Hcf Hp (proj1 Hs)) as (r & n & w' & E).
  rewrite E. cbn [obind]. do 2 eexists. split; [reflexivity|].
  apply (entry_allocated _ _ _ _ _ _ _ _ _ _ _ _ _ size Hcf Hp (proj1 Hs) Ho Hpl (Z.le_refl _) E).
Qed.
Print Assumptions valloc_spec.

(** pvalloc rounds the size up to whole pages.  What is missing from the full
    claim: the rounding wraps for the largest sizes (next theorem). *)
Lemma pvalloc_size_spec sys size : is_pow2 sys -> sys <= 2 ^ 63 -> 0 <= size -> size + sys <= two64 ->
  size <= pvalloc_size sys size /\ (sys | pvalloc_size sys size) /\ 0 < pvalloc_size sys size /\
  pvalloc_size sys size < Z.max size 1 + sys.
Proof.
  intros Hp Hmx Hs Hb. pose proof (is_pow2_pos _ Hp) as H0. unfold pvalloc_size.
  set (s := if size =? 0 then sys else size).
  assert (Hs1 : 0 < s <= two64 - sys).
  { subst s. change two64 with (2 ^ 63 * 2) in *. destruct (Z.eqb_spec size 0); lia. }
  assert (Hs2 : size <= s /\ (s = size \/ (s = sys /\ size = 0))) by (subst s; destruct (Z.eqb_spec size 0); lia).
  clearbody s.
  rewrite wrap64_small by lia. rewrite (ldiff_pow2' _ _ Hp).
  pose proof (Z.div_mod (s + sys - 1) sys ltac:(lia)) as Hd.
  pose proof (Z.mod_pos_bound (s + sys - 1) sys H0) as Hr.
  set (q := (s + sys - 1) / sys) in *. set (r := (s + sys - 1) mod sys) in *. clearbody q r.
  assert (E : s + sys - 1 - r = q * sys) by lia.
  split; [lia|]. split; [exists q; assumption|]. split; [lia|].
  destruct Hs2 as (_ & [Es|(-> & ->)]); [lia|].
  assert (q <= 1) by nia. assert (q * sys <= sys) by nia. lia.
Qed.

Theorem pvalloc_spec_partial : forall c active full t m numa sys w size o,
  configured c active full t m -> 0 <= numa < numa_parts c ->
  is_pow2 sys -> sys <= 2 ^ 63 -> 0 <= size -> size + sys <= two64 ->
  outcome_ok w c (pvalloc_size sys size) o ->
  placed c m (align_as (malloc_policy c numa) sys) (pvalloc_size sys size) o ->
  (sys | pvalloc_size sys size) /\ 0 < pvalloc_size sys size /\
  exists r w', api_pvalloc c m numa sys w size o = Some (r, w') /\ allocated m w w' size sys r.
Proof.
  intros c active full t m numa sys w size o Hcf Hn Hal Hmx Hs Hb Ho Hpl. pose proof Hcf as (Hc & _).
  destruct (pvalloc_size_spec sys size Hal Hmx Hs Hb) as (P1 & P2 & P3 & _).
  split; [assumption|]. split; [assumption|].
  unfold api_pvalloc.
  pose proof (align_as_ok c _ sys (malloc_policy_ok c numa Hc Hn) Hal) as Hp.
  assert (H0 : 0 <= pvalloc_size sys size) by lia.
  destruct (w_alloc_total c active full t m _ false w _ o Hcf Hp H0) as (r & n & w' & E).
  rewrite E. cbn [obind]. do 2 eexists. split; [reflexivity|].
  apply (entry_allocated _ _ _ _ _ _ _ _ _ _ _ _ _ size Hcf Hp H0 Ho Hpl P1 E).
Qed.
Print Assumptions pvalloc_spec_partial.

(** pvalloc(SIZE_MAX): the rounding wraps to 0 and the call asks the allocator
    for 0 bytes instead of failing. *)
Theorem pvalloc_wraps_refuted : forall sys size, is_pow2 sys -> 1 < sys -> sys <= 2 ^ 63 ->
  two64 - sys < size < two64 ->
  pvalloc_size sys size = 0 /\
  forall c active full t m w numa o, configured c active full t m -> 0 <= numa < numa_parts c ->
    exists r w', api_pvalloc c m numa sys w size o = Some (r, w') /\ trace w' = EvAlloc 0 sys :: trace w.
Proof.
  intros sys size Hp H1 Hmx Hs.
  assert (E : pvalloc_size sys size = 0).
  { unfold pvalloc_size. change two64 with (2 ^ 63 * 2) in Hs. replace (size =? 0) with false by lia.
    change (2 ^ 63 * 2) with two64 in Hs.
    unfold wrap64. replace (size + sys - 1) with ((size + sys - 1 - two64) + 1 * two64) by lia.
    rewrite Z.mod_add by (unfold two64; lia).
    rewrite Z.mod_small by (split; [lia|]; change two64 with (2 ^ 63 * 2) in *; lia).
    rewrite (ldiff_pow2' _ _ Hp). rewrite Z.mod_small by lia. lia. }
  split; [exact E|]. intros c active full t m w numa o Hcf Hn. pose proof Hcf as (Hc & _).
  pose proof (align_as_ok c _ sys (malloc_policy_ok c numa Hc Hn) Hp) as Hpo.
  unfold api_pvalloc. rewrite E.
  destruct (w_alloc_total c active full t m _ false w 0 o Hcf Hpo ltac:(lia)) as (r & n & w' & E1).
  rewrite E1. cbn [obind]. do 2 eexists. split; [reflexivity|].
  unfold w_alloc in E1. destruct (fast_alloc _ _ _ _ _ _); inversion E1; reflexivity.
Qed.
Print Assumptions pvalloc_wraps_refuted.
