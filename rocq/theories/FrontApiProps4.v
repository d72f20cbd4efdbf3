(** Property C08, continued: free_sized after realloc of an over-aligned block. *)
From Verif Require Import Base SizeMap SizeMapProofs SizeMapProofs2 Tables SizeMapProps FrontApi FrontApiProofs FrontApiProps FrontApiProps2 FrontApiProps3.

(** Two policies of the malloc family that differ in alignment only: classes of the same
    size are the same class. *)
Lemma same_size_same_class c active full t m p p' s s' cl cl' :
  configured c active full t m -> policy_ok c p -> policy_ok c p' -> 0 <= s -> 0 <= s' ->
  get_size_class c m p s = Small cl -> get_size_class c m p' s' = Small cl' ->
  policy_block c active full p s = policy_block c active full p' s' ->
  class_to_size m cl = class_to_size m cl' -> cl = cl'.
Proof.
  intros Hcf Hp Hp' Hs Hs' E E' Hb Hx. pose proof Hcf as (Hc & Hf & Hv & Hm).
  destruct (lookup_cases c active full t m p s Hcf Hp Hs) as [(A & B & _)|(_ & K)]; [|congruence].
  destruct (lookup_cases c active full t m p' s' Hcf Hp' Hs') as [(A' & B' & _)|(_ & K)]; [|congruence].
  destruct (init_ok c active full t Hc Hf Hv) as (m' & Em & Hmo). assert (m' = m) by congruence. subst m'.
  destruct (get_size_class_spec c active full t m p s Hc Hf Hv Hmo Hp A ltac:(lia)) as (r & k & Hr & Hk & R1 & G1 & _).
  destruct (get_size_class_spec c active full t m p' s' Hc Hf Hv Hmo Hp' A' ltac:(lia)) as (r' & k' & Hr' & Hk' & R2 & G2 & _).
  destruct (cfg_ok_facts c Hc) as (_ & Hnb & _).
  assert (r = r') by (apply (Z.mul_reg_l _ _ (num_base c)); lia). subst r'.
  assert (cl = num_base c * r + k) by congruence. assert (cl' = num_base c * r + k') by congruence. subst cl cl'.
  rewrite !(mo_size _ _ _ _ _ Hmo) in Hx by lia. pose proof (valid_sizes_ok c t Hc Hf Hv) as Hok.
  f_equal. destruct (Z.lt_trichotomy k k') as [L|[L|L]]; [|exact L|]; exfalso.
  - pose proof (so_incr _ _ _ Hok k' ltac:(lia)) as I. pose proof (so_mono _ _ _ Hok k (k' - 1) ltac:(lia) ltac:(lia) ltac:(lia)) as J. cbn in I, J. lia.
  - pose proof (so_incr _ _ _ Hok k ltac:(lia)) as I. pose proof (so_mono _ _ _ Hok k' (k - 1) ltac:(lia) ltac:(lia) ltac:(lia)) as J. cbn in I, J. lia.
Qed.

(** free_sized(p, size) of an object that realloc left in place gives it back to the class
    it came from, whether it was grown or shrunk, whatever alignment up to a page it
    was allocated with and whichever CPU runs realloc and free_sized ([numa], [numa']). *)
Theorem free_sized_after_realloc : forall c active full numa_active t m p s cl w ptr b numa size ws o numa',
  configured c active full t m -> partitions_ok c active full numa_active ->
  policy_ok c p -> numa_partition p < numa_active -> alloc_new p = false ->
  0 <= s -> get_size_class c m p s = Small cl ->
  user_pointer ptr -> (8 | ptr) ->
  memory_tag_from_size_class c (active_partitions c active numa_active) cl = Some (get_memory_tag ptr) ->
  heap w ptr = Some b -> b_class b = cl -> cl <> 0 ->
  0 <= numa < numa_parts c -> 0 <= numa' < numa_parts c -> 0 < size -> size + page_size c <= two64 ->
  api_realloc c m numa w ptr size ws o = Some (ptr, w) ->
  do_free_with_size c m (malloc_policy c numa') ptr size = FreeClass cl.
Proof.
  intros c active full na t m p s cl w ptr b numa size ws o numa' Hcf Hpt Hp Hnp Han Hs E Hu H8 Htag Hh Hbc Hcl Hn Hn' Hz Hb2 Hre.
  pose proof Hcf as (Hc & _). unfold user_pointer in Hu.
  set (p0 := Policy 16 true false false (sec_partition p) (numa_partition p)).
  assert (Hp0 : policy_ok c p0).
  { destruct Hp as (_ & P2 & P3 & _). split; [exists 4; split; [lia|reflexivity]|]. split; [exact P2|]. split; [exact P3|]. discriminate. }
  assert (Hcold : is_cold p = false).
  { destruct Hp as (_ & _ & _ & P4). destruct (is_cold p); [|reflexivity]. rewrite P4 in Han by reflexivity. discriminate. }
  (* realloc stayed in place: the new size is served by as many bytes *)
  assert (X : exists q, policy_ok c q /\ align q = 16 /\
    match get_size_class c m q size with
    | Small cl' => class_to_size m cl' = class_to_size m cl
    | NotSmall => length_in_bytes c (bytes_to_length_ceil c size) = class_to_size m cl
    | LookupUB => False end).
  { exists (in_partition c (malloc_policy c numa) (partition_from_pointer c ptr)).
    assert (Q : 0 <= partition_from_pointer c ptr).
    { unfold partition_from_pointer. repeat match goal with |- context [if ?x then _ else _] => destruct x end; lia. }
    split; [apply in_partition_ok; [assumption|apply malloc_policy_ok; assumption|exact Q]|]. split; [reflexivity|].
    unfold api_realloc, do_realloc in Hre. replace (ptr =? 0) with false in Hre by lia. replace (size =? 0) with false in Hre by lia.
    rewrite Hh in Hre. cbn [obind] in Hre. unfold get_size_and_sampled in Hre. rewrite Hbc in Hre.
    replace (cl =? 0) with false in Hre by lia. cbn [negb] in Hre.
    assert (T : forall q, (let? (a, _, w') := w_alloc c m q false w size o in
        if a =? 0 then Some (0, w')
        else let w' := write_data w' a (fun d => mem_copy d (b_data b) (if class_to_size m cl <? size then class_to_size m cl else size)) in
             let? w' := w_free w' ptr in Some (a, w')) = Some (ptr, w) -> False).
    { intros q H. unfold w_alloc in H. destruct (fast_alloc c m q false size o) as [| |a b' n]; cbn [obind] in H; [discriminate| |].
      - injection H as H _. lia.
      - destruct (a =? 0); [injection H as H _; lia|]. cbv zeta in H.
        match type of H with obind (w_free ?x ptr) _ = _ => destruct (w_free x ptr) as [w2|] eqn:F end; cbn [obind] in H; [|discriminate].
        injection H as _ ->. unfold w_free, write_data in F. cbn [heap] in F. rewrite upd_same in F. cbn [heap trace] in F.
        replace (ptr =? 0) with false in F by lia.
        match type of F with match ?x with _ => _ end = _ => destruct x end; [|discriminate].
        injection F as F. apply (f_equal trace) in F. cbn [trace] in F. apply (f_equal (@length event)) in F. cbn [length] in F. lia. }
    destruct (get_size_class c m _ size) as [|cl'|]; cbn [obind] in Hre; [| |discriminate].
    - destruct (negb (length_in_bytes c (bytes_to_length_ceil c size) =? class_to_size m cl)) eqn:D; [exfalso; eapply T; exact Hre|].
      apply negb_false_iff in D. lia.
    - destruct (negb (class_to_size m cl' =? class_to_size m cl)) eqn:D; [exfalso; eapply T; exact Hre|].
      apply negb_false_iff in D. lia. }
  destruct X as (q & Hq & Aq & X).
  destruct (lookup_cases c active full t m p s Hcf Hp Hs) as [(_ & _ & cl1 & E1 & _ & (I1 & _))|(_ & K)]; [|congruence].
  assert (cl1 = cl) by congruence. subst cl1. clear E1.
  assert (Mx : class_to_size m cl <= max_size c).
  { destruct Hcf as (_ & Hf & Hv & _). apply table_sizes_in in I1; [|assumption|assumption]. destruct I1 as (j & Hj & Ej).
    pose proof (so_max _ _ _ (valid_sizes_ok c t Hc Hf Hv) j Hj) as M. cbn in M. lia. }
  destruct (lookup_cases c active full t m q size Hcf Hq ltac:(lia)) as [(_ & Sx & cl1 & E1 & _ & B1)|([K|K] & E1)]; rewrite E1 in X.
  2:{ pose proof (page_size_pos c Hc). lia. }
  2:{ destruct (ceil_bytes c size Hc ltac:(lia) Hb2) as (C1 & C2 & _). lia. }
  rewrite Aq, X in B1.
  destruct (lookup_cases c active full t m p0 size Hcf Hp0 ltac:(lia)) as [(_ & _ & cl0 & E0 & _ & B0)|([K|K] & _)].
  2:{ pose proof (page_size_pos c Hc). cbn in K. lia. }
  2: lia.
  change (align p0) with 16 in B0.
  assert (class_to_size m cl0 = class_to_size m cl).
  { destruct B0 as (b1 & b2 & b3 & b4), B1 as (c1 & c2 & c3 & c4). apply Z.le_antisymm; [apply b4|apply c4]; assumption. }
  assert (cl0 = cl).
  { apply (same_size_same_class c active full t m p0 p size s); try assumption; [lia|].
    unfold policy_block, reg_base. cbn [is_cold alloc_new sec_partition numa_partition p0]. rewrite Hcold, Han, andb_false_r.
    assert (O : 0 <= sec_partition p < sec_parts c) by apply Hp.
    replace (sec_partition p + sec_parts c <? 2 * sec_parts c) with true by lia. reflexivity. }
  subst cl0.
  apply (sized_delete_same_class c active full na t m p0 (malloc_policy c numa') size size cl ptr); try assumption; try reflexivity;
    [apply malloc_policy_ok; assumption|lia|]. destruct B0 as (_ & b2 & _). lia.
Qed.
Print Assumptions free_sized_after_realloc.

(** free_sized(p, size), tcmalloc.cc:1705-1708, must give a block back to where it came
    from whenever [size] is the size last passed to the malloc or realloc that
    returned [p].  It does not always: aligned_alloc with an alignment above the page
    size takes whole pages even for a small request; realloc to a size whose class has
    as many bytes leaves the block in place; free_sized then takes the class of that
    size and puts the pages on the free list of small objects, where the flush to
    the central free list later reports a mismatched size class and aborts
    (central_freelist.cc:84-112).  The program is correct by the C standard. *)
Theorem free_sized_after_realloc_refuted :
  exists c t m w al ptr b w' cl R, configured c false false t m /\ is_pow2 al /\
    api_aligned_alloc c m 0 w al al (Plain ptr (fun _ => 0)) = Some (ptr, w') /\
    outcome_ok w c al (Plain ptr (fun _ => 0)) /\ placed c m (align_as (malloc_policy c 0) al) al (Plain ptr (fun _ => 0)) /\
    api_realloc c m 0 w' ptr al false OutOfMemory = Some (ptr, w') /\
    reach_w c m w' R /\ R ptr = al /\
    heap w' ptr = Some b /\ b_class b = 0 /\ b_sample b = None /\
    do_free_with_size c m (align_as (malloc_policy c 0) al) ptr al = FreePages /\
    do_free_with_size c m (malloc_policy c 0) ptr al = FreeClass cl /\ cl <> 0.
Proof.
  set (c := cfg13 1 1).
  assert (Hc : cfg_ok c) by (exists 1, 1; split; [lia|auto]).
  assert (Hin : In t_def_8_13 (tables (page_shift c))) by (cbn; tauto).
  destruct (shipped_tables_accepted c _ Hc Hin) as (Hv & Hf).
  destruct (accepted_table_initialises c false false _ Hc Hf Hv) as (m & Em).
  assert (Hcf : configured c false false t_def_8_13 m) by (repeat split; assumption).
  assert (Hp : policy_ok c (malloc_policy c 0)) by (apply malloc_policy_ok; [assumption|cbn; lia]).
  assert (Pw : is_pow2 16384) by (apply has_single_bit_spec; reflexivity).
  destruct (lookup_cases c false false _ m _ 16384 Hcf Hp ltac:(lia)) as [(_ & _ & cl & E & Hcl & B)|([H|H] & _)];
    [|exfalso; cbn in H; unfold page_size in H; cbn in H; lia|exfalso; cbn in H; lia].
  assert (X : class_to_size m cl = 16384).
  { destruct B as (_ & B2 & _ & B4). apply Z.le_antisymm; [|exact B2]. apply B4; [|reflexivity|exists 1024; reflexivity].
    vm_compute. tauto. }
  set (w0 := World (fun _ => None) 0 []).
  set (b := Block 0 16384 None (fun _ => 0)).
  set (w1 := World (upd (fun _ => None) (2 ^ 44) (Some b)) 0 [EvAlloc 16384 16384]).
  exists c, t_def_8_13, m, w0, 16384, (2 ^ 44), b, w1, cl, (upd (fun _ => 0) (2 ^ 44) 16384).
  assert (Oo : outcome_ok w0 c 16384 (Plain (2 ^ 44) (fun _ => 0))).
  { cbn. unfold two64, page_size. cbn. repeat split; lia. }
  assert (Pl : placed c m (align_as (malloc_policy c 0) 16384) 16384 (Plain (2 ^ 44) (fun _ => 0))).
  { cbv beta iota delta [placed]. change (get_size_class c m (align_as (malloc_policy c 0) 16384) 16384) with NotSmall.
    cbv iota. exists (2 ^ 30). reflexivity. }
  split; [exact Hcf|]. split; [exact Pw|]. split; [reflexivity|]. split; [exact Oo|]. split; [exact Pl|].
  split.
  { unfold api_realloc, do_realloc. change (2 ^ 44 =? 0) with false. change (16384 =? 0) with false. cbv iota.
    change (heap w1 (2 ^ 44)) with (Some b). cbn [obind].
    change (in_partition c (malloc_policy c 0) (partition_from_pointer c (2 ^ 44))) with (malloc_policy c 0).
    rewrite E. cbn [obind]. rewrite X. reflexivity. }
  split.
  { apply (rw_alloc c m w0 (fun _ => 0) (align_as (malloc_policy c 0) 16384) false 16384 (Plain (2 ^ 44) (fun _ => 0)) (2 ^ 44) 16384).
    - constructor.
    - apply align_as_ok; [exact Hp|exact Pw].
    - unfold u64, two64. lia.
    - exact Oo.
    - exact Pl.
    - reflexivity. }
  split; [reflexivity|]. split; [reflexivity|]. split; [reflexivity|]. split; [reflexivity|]. split; [reflexivity|].
  split; [|lia].
  change (do_free_with_size c m (malloc_policy c 0) (2 ^ 44) 16384) with
    (match get_size_class c m (malloc_policy c 0) 16384 with Small cl => FreeClass cl | NotSmall => FreePages | LookupUB => FreeUB end).
  rewrite E. reflexivity.
Qed.
Print Assumptions free_sized_after_realloc_refuted.

(** ** A concrete case *)
(** malloc(112) shrunk in place to 100 bytes, then free_sized(p, 100). *)
Example free_sized_case : exists t m cl w ptr b,
  configured (cfg13 1 1) false false t m /\ partitions_ok (cfg13 1 1) false false 1 /\
  get_size_class (cfg13 1 1) m (malloc_policy (cfg13 1 1) 0) 112 = Small cl /\ cl <> 0 /\
  user_pointer ptr /\ (8 | ptr) /\
  memory_tag_from_size_class (cfg13 1 1) (active_partitions (cfg13 1 1) false 1) cl = Some (get_memory_tag ptr) /\
  heap w ptr = Some b /\ b_class b = cl /\
  api_realloc (cfg13 1 1) m 0 w ptr 100 false OutOfMemory = Some (ptr, w) /\
  do_free_with_size (cfg13 1 1) m (malloc_policy (cfg13 1 1) 0) ptr 100 = FreeClass cl.
Proof.
  set (c := cfg13 1 1).
  assert (Hc : cfg_ok c) by (exists 1, 1; split; [lia|auto]).
  assert (Hin : In t_def_8_13 (tables (page_shift c))) by (cbn; tauto).
  destruct (shipped_tables_accepted c _ Hc Hin) as (Hv & Hf).
  destruct (accepted_table_initialises c false false _ Hc Hf Hv) as (m & Em).
  assert (Hcf : configured c false false t_def_8_13 m) by (repeat split; assumption). clear Hin Hv Hf Em.
  assert (Hpt : partitions_ok c false false 1) by (split; [cbn; lia|split; discriminate]).
  assert (Hp : policy_ok c (malloc_policy c 0)) by (apply malloc_policy_ok; [assumption|cbn; lia]).
  assert (L : forall s, 100 <= s <= 112 -> exists cl, get_size_class c m (malloc_policy c 0) s = Small cl /\ class_to_size m cl = 112).
  { intros s Hs. destruct (lookup_cases c false false _ m _ s Hcf Hp ltac:(lia)) as [(_ & _ & cl & E & _ & B)|([H|H] & _)];
      [|exfalso; cbn in H; unfold page_size in H; cbn in H; lia|exfalso; cbn in H; lia].
    exists cl. split; [exact E|]. destruct B as (_ & B2 & (z & Hz) & B4). change (align (malloc_policy c 0)) with 16 in *.
    assert (class_to_size m cl <= 112) by (apply B4; [vm_compute; tauto|lia|exists 7; reflexivity]). lia. }
  destruct (lookup_block c false false _ m _ 112 Hcf Hp ltac:(cbv; discriminate) ltac:(cbv; split; discriminate)) as (r & k & Hr & Hk & Hb & E).
  change (policy_block c false false (malloc_policy c 0) 112) with 0 in Hb. change (num_base c) with 86 in *. assert (r = 0) by lia. subst r.
  destruct (L 112 ltac:(lia)) as (cl & E1 & X1). destruct (L 100 ltac:(lia)) as (cl2 & E2 & X2).
  assert (cl = 86 * 0 + k) by congruence. subst cl.
  assert (T := class_block_tag c false 1 0 k Hc ltac:(lia) Hk). change (num_base c) with 86 in *.
  set (b := Block (86 * 0 + k) 8192 None (fun _ => 3)). set (w := World (upd (fun _ => None) (2 ^ 44 + 112) (Some b)) 0 []).
  assert (R : api_realloc c m 0 w (2 ^ 44 + 112) 100 false OutOfMemory = Some (2 ^ 44 + 112, w)).
  { unfold api_realloc, do_realloc. change (2 ^ 44 + 112 =? 0) with false. change (100 =? 0) with false. cbv iota.
    change (heap w (2 ^ 44 + 112)) with (Some b). cbn [obind]. unfold get_size_and_sampled, b. cbn [b_class].
    replace (86 * 0 + k =? 0) with false by lia. cbn [negb].
    change (in_partition c (malloc_policy c 0) (partition_from_pointer c (2 ^ 44 + 112))) with (malloc_policy c 0).
    rewrite E2. cbn [obind]. rewrite X1, X2. reflexivity. }
  assert (U : user_pointer (2 ^ 44 + 112)) by (split; reflexivity).
  assert (D8 : (8 | 2 ^ 44 + 112)) by (exists (2 ^ 41 + 14); reflexivity).
  exists t_def_8_13, m, (86 * 0 + k), w, (2 ^ 44 + 112), b.
  split; [exact Hcf|]. split; [exact Hpt|]. split; [exact E1|]. split; [lia|]. split; [exact U|]. split; [exact D8|].
  split; [exact T|]. split; [reflexivity|]. split; [reflexivity|]. split; [exact R|].
  apply (free_sized_after_realloc c false false 1 t_def_8_13 m (malloc_policy c 0) 112 (86 * 0 + k) w (2 ^ 44 + 112) b 0 100 false OutOfMemory 0);
    [exact Hcf|exact Hpt|exact Hp|cbn; lia|reflexivity|lia|exact E1|exact U|exact D8|exact T|reflexivity|reflexivity|lia|cbn; lia|cbn; lia|lia|unfold page_size, two64; cbn; lia|exact R].
Qed.
