(** C12: the cache of backed hugepages. *)
From Verif Require Import Base HugeAddressMap HugeAddressMapProofs HugeAddressMapProps HugeAllocator HugeAllocatorProps HugeCache.
From Coq Require Import Permutation.

(** ** Specification: lists of hugepages *)
Definition pages_of (r : hrange) : list Z := zseq (fst r) (Z.to_nat (snd r)).
Definition hps (l : list hrange) : list Z := flat_map pages_of l.
(** The hugepages kept in the cache, and those the address-space allocator has free. *)
Definition cached (h : hcache) : list Z := hps (ranges (ham_root (hc_cache h))).
Definition unbacked (h : hcache) : list Z := hps (ranges (ham_root (ha_free (hc_alloc h)))).

(** ** Lists of hugepages as multisets *)
Lemma pages_of_In r p : In p (pages_of r) <-> in_range r p.
Proof. unfold pages_of, in_range. rewrite zseq_In. lia. Qed.
Lemma hps_In l p : In p (hps l) <-> covers l p.
Proof. unfold hps, covers. rewrite in_flat_map. split; intros (r & A & B); exists r; apply pages_of_In in B || rewrite pages_of_In; auto. Qed.
Lemma hps_app a b : hps (a ++ b) = hps a ++ hps b.
Proof. apply flat_map_app. Qed.
Lemma hps_cons a b : hps (a :: b) = pages_of a ++ hps b.
Proof. reflexivity. Qed.
Lemma pages_of_length r : 0 <= snd r -> Z.of_nat (length (pages_of r)) = snd r.
Proof. intros. unfold pages_of. rewrite zseq_length. lia. Qed.
Lemma pages_of_split s n k : 0 <= n -> 0 <= k -> pages_of (s, n + k) = pages_of (s, n) ++ pages_of (s + n, k).
Proof. intros. unfold pages_of. cbn [fst snd]. rewrite Z2Nat.inj_add, zseq_app by lia. rewrite Z2Nat.id by lia. reflexivity. Qed.
Lemma NoDup_app_iff {A} (a b : list A) : NoDup (a ++ b) <-> NoDup a /\ NoDup b /\ forall x, In x a -> In x b -> False.
Proof.
  induction a as [|y a IH]; cbn [app].
  - split; [intros H; split; [constructor|]; split; [assumption|intros x []]|tauto].
  - rewrite !NoDup_cons_iff, IH, in_app_iff. split.
    + intros (A1 & A2 & A3 & A4). split; [split; [tauto|assumption]|]. split; [assumption|]. intros x [->|Hx] Hb; [tauto|eauto].
    + intros ((A1 & A2) & A3 & A4). split; [intros [|]; [tauto|apply (A4 y); [left; reflexivity|assumption]]|]. split; [assumption|]. split; [assumption|].
      intros x Hx. apply A4. right. assumption.
Qed.
Lemma gaps_hps_NoDup lo l : gaps lo l -> NoDup (hps l) /\ forall p, In p (hps l) -> lo < p.
Proof.
  revert lo. induction l as [|x l IH]; intros lo G; [split; [constructor|intros p []]|].
  cbn [gaps] in G. destruct G as (A & B & C). destruct (IH _ C) as (I1 & I2). rewrite hps_cons. split.
  - apply NoDup_app_iff. split; [apply zseq_NoDup|]. split; [assumption|]. intros p Hp Hq. apply I2 in Hq. apply pages_of_In in Hp. unfold in_range in Hp. lia.
  - intros p Hp. apply in_app_or in Hp. destruct Hp as [Hp|Hp]; [apply pages_of_In in Hp; unfold in_range in Hp; lia|]. apply I2 in Hp. lia.
Qed.
Lemma gaps_hps_length lo l : gaps lo l -> Z.of_nat (length (hps l)) = sum_len l.
Proof.
  revert lo. induction l as [|x l IH]; intros lo G; [reflexivity|]. cbn [gaps] in G. destruct G as (A & B & C).
  rewrite hps_cons, app_length, sum_len_cons, Nat2Z.inj_add, pages_of_length, (IH _ C) by lia. reflexivity.
Qed.

(** Permutations by counting occurrences. *)
Ltac pcount :=
  let z := fresh "z" in
  apply (Permutation_count_occ Z.eq_dec); intro z;
  repeat match goal with H : Permutation _ _ |- _ => apply (proj1 (Permutation_count_occ Z.eq_dec _ _)) with (x := z) in H end;
  repeat rewrite ?hps_app, ?hps_cons, ?count_occ_app in *; cbn [hps flat_map count_occ] in *; lia.

Ltac hcred := cbn [hc_alloc hc_cache hc_size hc_limit hc_usage hc_set_alloc hc_set_cache hc_set_limit hc_set_usage fst snd].

Definition hset (m : ham) : list Z := hps (ranges (ham_root m)).

Lemma hset_NoDup m : ham_ok m -> NoDup (hset m).
Proof. intros H. apply (gaps_hps_NoDup (-1)). apply H. Qed.
Lemma hset_length m : ham_ok m -> Z.of_nat (length (hset m)) = total_size m.
Proof. intros H. rewrite (h_total m H). apply (gaps_hps_length (-1)). apply H. Qed.

Lemma insert_perm m r p : ham_ok m -> 0 <= fst r -> 1 <= snd r -> NoDup (pages_of r ++ hset m) ->
  exists m', ham_insert m r p = Some m' /\ ham_ok m' /\ Permutation (hset m') (pages_of r ++ hset m) /\ total_size m' = total_size m + snd r.
Proof.
  intros H H0 H1 ND. pose proof (insert_spec m r p H H0 H1) as Hs. destruct (ham_insert m r p) as [m'|].
  - destruct Hs as (Ok & Dj & Cv). exists m'. split; [reflexivity|]. split; [assumption|].
    assert (P : Permutation (hset m') (pages_of r ++ hset m)).
    { apply NoDup_Permutation; [apply hset_NoDup; assumption|assumption|]. intros x. rewrite in_app_iff. unfold hset. rewrite !hps_In, Cv, pages_of_In. tauto. }
    split; [assumption|]. rewrite <- !hset_length by assumption. rewrite (Permutation_length P), app_length, Nat2Z.inj_add, pages_of_length by lia. lia.
  - exfalso. destruct Hs as (x & Hx & Dj). apply Dj. intros q (Hp & Hq). apply NoDup_app_iff in ND. destruct ND as (_ & _ & ND).
    apply (ND q); [apply pages_of_In; assumption|]. apply hps_In. exists x. auto.
Qed.

Lemma remove_perm m x : ham_ok m -> In x (ranges (ham_root m)) ->
  ham_ok (ham_remove m x) /\ Permutation (hset m) (pages_of x ++ hset (ham_remove m x)) /\ total_size (ham_remove m x) = total_size m - snd x.
Proof.
  intros H Hx. destruct (remove_spec m x H Hx) as (R1 & (a & b & Ea & Eb) & _). split; [assumption|].
  assert (P : Permutation (hset m) (pages_of x ++ hset (ham_remove m x))) by (unfold hset; rewrite Ea, Eb; pcount).
  split; [assumption|]. rewrite <- !hset_length by assumption. rewrite (Permutation_length P), app_length, Nat2Z.inj_add, pages_of_length; [lia|].
  destruct (ham_ok_range _ _ H Hx). lia.
Qed.

(** ** The allocator below *)
Definition ha_inv (a : hugealloc) : Prop := ha_ok a (free_set a).
Lemma ha_ok_inv a F : ha_ok a F -> ha_inv a /\ (forall p, F p <-> In p (hset (ha_free a))).
Proof. intros (A & B & C). split; [split; [assumption|split; [intros p; reflexivity|assumption]]|]. intros p. rewrite B. unfold hset. rewrite hps_In. reflexivity. Qed.
Lemma ha_inv_ok a : ha_inv a -> ham_ok (ha_free a).
Proof. intros (A & _). assumption. Qed.

Lemma ha_release_perm a r p : ha_inv a -> 0 <= fst r -> 1 <= snd r -> NoDup (pages_of r ++ hset (ha_free a)) ->
  exists a', ha_release a r p = Some a' /\ ha_inv a' /\ Permutation (hset (ha_free a')) (pages_of r ++ hset (ha_free a)) /\ ha_system a' = ha_system a.
Proof.
  intros H H0 H1 ND. destruct (ha_release_spec a (free_set a) r p H H0 H1) as (a' & E & Sy & K).
  { intros q Hq Hf. apply NoDup_app_iff in ND. destruct ND as (_ & _ & ND). apply (ND q); [apply pages_of_In; assumption|]. apply hps_In. assumption. }
  apply ha_ok_inv in K. destruct K as (K1 & K2). exists a'. split; [assumption|]. split; [assumption|]. split; [|assumption].
  apply NoDup_Permutation; [apply hset_NoDup, ha_inv_ok; assumption|assumption|]. intros x. rewrite <- K2, in_app_iff, pages_of_In. unfold hset, free_set. rewrite hps_In. tauto.
Qed.

Definition grant (asked : bool) (os : option hrange) : list hrange :=
  if asked then match os with Some g => [g] | None => [] end else [].

Lemma ha_get_perm a n os p1 p2 : ha_inv a -> 1 <= n -> 
  (forall g, os = Some g -> 0 <= fst g /\ n <= snd g /\ NoDup (pages_of g ++ hset (ha_free a))) ->
  exists res asked a', ha_get a n os p1 p2 = Some (res, asked, a') /\ ha_inv a' /\
    match res with
    | Some r => snd r = n /\ 0 <= fst r /\ Permutation (pages_of r ++ hset (ha_free a')) (hps (grant asked os) ++ hset (ha_free a)) /\
        ha_system a' = ha_system a + Z.of_nat (length (hps (grant asked os)))
    | None => asked = true /\ (os = None \/ hl_overflows n = true) /\ a' = a
    end.
Proof.
  intros H Hn Hos. destruct (ha_get_spec a (free_set a) n os p1 p2 H Hn) as (res & asked & a' & E & _ & K).
  { intros g Hg. destruct (Hos g Hg) as (O1 & O2 & O3). split; [assumption|]. split; [assumption|]. intros q Hq Hf.
    apply NoDup_app_iff in O3. destruct O3 as (_ & _ & O3). apply (O3 q); [apply pages_of_In; assumption|]. apply hps_In. assumption. }
  exists res, asked, a'. split; [assumption|]. cbn zeta in K. destruct K as (K1 & K). destruct res as [r|].
  2: { destruct K as (K2 & K3 & ->). auto. }
  destruct K as (K2 & K3 & K4 & K5). apply ha_ok_inv in K5. destruct K5 as (K5 & K6). split; [assumption|]. split; [assumption|]. split; [assumption|].
  assert (Ho : asked = true -> hl_overflows n = false).
  { intros ->. unfold ha_get in E. replace (n <=? 0) with false in E by lia. destruct (ha_find _ _ _) as [x|]; [destruct (ha_take _ _ _ _) as [[? ?]|]; discriminate|].
    unfold ha_allocate_range in E. destruct (hl_overflows n); [discriminate|reflexivity]. }
  split.
  2:{ rewrite K1. f_equal. unfold grant. destruct asked; cbn [andb]; [|reflexivity]. rewrite (Ho eq_refl). cbn [negb]. destruct os as [g|]; [|reflexivity].
      cbn [hps flat_map]. rewrite app_nil_r, pages_of_length; [reflexivity|]. destruct (Hos g eq_refl). lia. }
  apply NoDup_Permutation.
  - apply NoDup_app_iff. split; [apply zseq_NoDup|]. split; [apply hset_NoDup, ha_inv_ok; assumption|]. intros q Hq Hf. apply K6 in Hf. apply pages_of_In in Hq. tauto.
  - unfold grant. destruct asked; [destruct os as [g|]|]; cbn [hps flat_map app]; try (apply hset_NoDup, ha_inv_ok; assumption).
    rewrite app_nil_r. apply (Hos g eq_refl).
  - intros x. rewrite !in_app_iff, <- K6, pages_of_In, hps_In.
    assert (G : covers (grant asked os) x <-> (asked = true /\ hl_overflows n = false /\ exists g, os = Some g /\ in_range g x)).
    { unfold grant. destruct asked; [|rewrite covers_nil; intuition discriminate]. specialize (Ho eq_refl). destruct os as [g|].
      - rewrite covers_cons, covers_nil. split; [intros [Hg|[]]; eauto|]. intros (_ & _ & (g0 & [= <-] & Hg)). auto.
      - rewrite covers_nil. split; [tauto|]. intros (_ & _ & (g & ? & _)). discriminate. }
    assert (Dec : in_range r x \/ ~ in_range r x) by (unfold in_range; lia). specialize (K4 x). cbn beta in K4. rewrite G.
    unfold hset, free_set in *. rewrite hps_In. tauto.
Qed.

(** ** Histories.  [U]: the hugepages taken from the cache; [D]: those taken from the allocator
    directly (for a region, huge_page_aware_allocator.h:851-870), which are not returned; [FL]: the ranges a thread took out of the
    cache and is returning to the system (with the page heap lock released); [G]: the
    ranges granted by the system so far. *)
Inductive reach_hc : hcache -> list Z -> list Z -> list hrange -> list hrange -> Prop :=
| rc_init : reach_hc hc_init [] [] [] []
| rc_get h U D FL G n os p1 p2 shrink usage_min r from_released asked h' : reach_hc h U D FL G -> 1 <= n -> os_ok G n os ->
    hc_get h n os p1 p2 shrink usage_min = Some (Some r, from_released, asked, h') ->
    reach_hc h' (pages_of r ++ U) D FL (grant asked os ++ G)
| rc_fail h U D FL G n os p1 p2 shrink usage_min from_released asked h' : reach_hc h U D FL G -> 1 <= n -> os_ok G n os ->
    hc_get h n os p1 p2 shrink usage_min = Some (None, from_released, asked, h') -> reach_hc h' U D FL G
| rc_release h U U' D FL G r p h' : reach_hc h U D FL G -> 1 <= snd r -> Permutation U (pages_of r ++ U') ->
    hc_release_insert h r p = Some h' -> reach_hc h' U' D FL G
| rc_unbacked h U U' D FL G r p h' : reach_hc h U D FL G -> 1 <= snd r -> Permutation U (pages_of r ++ U') ->
    hc_release_unbacked h r p = Some h' -> reach_hc h' U' D FL G
| rc_limit h U D FL G size_min : reach_hc h U D FL G -> 0 <= size_min -> reach_hc (snd (hc_shrink_limit h size_min)) U D FL G
| rc_take h U D FL G target p r h' : reach_hc h U D FL G -> 0 <= target ->
    hc_shrink_take h target p = Some (Some r, h') -> reach_hc h' U D (r :: FL) G
| rc_done h U D FL1 FL2 G r success p h' : reach_hc h U D (FL1 ++ r :: FL2) G ->
    hc_shrink_done h r success p = Some h' -> reach_hc h' U D (FL1 ++ FL2) G
| rc_direct h U D FL G n os p1 p2 res asked a : reach_hc h U D FL G -> 1 <= n -> os_ok G n os ->
    ha_get (hc_alloc h) n os p1 p2 = Some (res, asked, a) ->
    reach_hc (hc_set_alloc h a) U (match res with Some r => pages_of r ++ D | None => D end) FL (grant asked (match res with Some _ => os | None => None end) ++ G).

(* [k]: how many of the hugepages in use were taken from the allocator directly. *)
Record hc_inv (k : Z) (h : hcache) (U : list Z) (FL G : list hrange) : Prop := {
  i_alloc : ha_inv (hc_alloc h);
  i_cache : ham_ok (hc_cache h);
  i_perm : Permutation (hps G) (U ++ hset (hc_cache h) ++ hset (ha_free (hc_alloc h)) ++ hps FL);
  i_nodup : NoDup (hps G);
  i_pos : forall p, In p (hps G) -> 1 <= p;
  i_fl : forall r, In r FL -> 1 <= snd r;
  i_size : hc_size h = total_size (hc_cache h);
  i_usage : hc_usage h + k = Z.of_nat (length U);
  i_limit : min_cache_limit <= hc_limit h;
  i_system : ha_system (hc_alloc h) = Z.of_nat (length (hps G))
}.

Lemma range_start r l : (forall p, In p l -> 1 <= p) -> 1 <= snd r -> (forall p, In p (pages_of r) -> In p l) -> 1 <= fst r.
Proof. intros H Hr Hi. apply H, Hi, pages_of_In. unfold in_range. lia. Qed.

Lemma hc_find_spec h n : ham_ok (hc_cache h) -> 1 <= n ->
  match hc_find h n with
  | Some x => In x (ranges (ham_root (hc_cache h))) /\ n <= snd x
  | None => forall x, In x (ranges (ham_root (hc_cache h))) -> snd x < n
  end.
Proof.
  intros H Hn. unfold hc_find. pose proof (ha_find_spec (ham_root (hc_cache h)) n None (h_shape _ H) Hn) as Hs.
  destruct (ha_find _ _ _) as [x|].
  - destruct Hs as [?|?]; [assumption|discriminate].
  - intros x Hx. destruct Hs as (_ & Hs). rewrite shape_longest in Hs by apply H. pose proof (maxlen_In _ _ Hx). lia.
Qed.

Lemma split_off s n k : 1 <= n -> 0 <= k -> Permutation (pages_of (s, n + k)) (pages_of (s, n) ++ pages_of (s + n, k)).
Proof. intros. rewrite pages_of_split by lia. apply Permutation_refl. Qed.

(** Taking [n] hugepages off the front of a cached range. *)
Lemma take_front m x n p : ham_ok m -> In x (ranges (ham_root m)) -> 1 <= n <= snd x ->
  exists res leftover m', hr_split x n = Some (res, leftover) /\ res = (fst x, n) /\ (leftover = None <-> n = snd x) /\
    (match leftover with Some l => ham_insert (ham_remove m x) l p | None => Some (ham_remove m x) end) = Some m' /\
    ham_ok m' /\ Permutation (hset m) (pages_of res ++ hset m') /\ total_size m' = total_size m - n.
Proof.
  intros H Hx Hn. destruct (remove_perm m x H Hx) as (R1 & R2 & R3). destruct (ham_ok_range _ _ H Hx) as (X0 & X1).
  unfold hr_split. replace (snd x <? n) with false by lia. destruct x as [s k]. cbn [fst snd] in *. destruct (Z.ltb_spec n k) as [Hlt|Hge].
  - assert (P : Permutation (pages_of (s, k)) (pages_of (s, n) ++ pages_of (s + n, k - n))).
    { rewrite <- pages_of_split by lia. replace (n + (k - n)) with k by lia. apply Permutation_refl. }
    destruct (insert_perm (ham_remove m (s, k)) (s + n, k - n) p R1) as (m' & E & Ok & P' & T); [cbn; lia|cbn; lia| |].
    { pose proof (hset_NoDup m H) as ND. apply (Permutation_NoDup (l' := pages_of (s, n) ++ pages_of (s + n, k - n) ++ hset (ham_remove m (s, k)))) in ND; [|clear - R2 P; pcount].
      apply NoDup_app_iff in ND. tauto. }
    do 3 eexists. split; [reflexivity|]. split; [reflexivity|]. split; [split; [discriminate|lia]|]. split; [exact E|]. split; [assumption|]. cbn [snd] in T. split; [clear - R2 P P'; pcount|lia].
  - assert (n = k) by lia. subst n. do 3 eexists. split; [reflexivity|]. split; [reflexivity|]. split; [tauto|]. split; [reflexivity|]. split; [assumption|]. split; [assumption|lia].
Qed.

Lemma os_ok_nodup k h U FL G n os : hc_inv k h U FL G -> 1 <= n -> os_ok G n os ->
  forall g, os = Some g -> 0 <= fst g /\ n <= snd g /\ NoDup (pages_of g ++ hps G) /\ NoDup (pages_of g ++ hset (ha_free (hc_alloc h))).
Proof.
  intros I Hn Hos g Hg. destruct (Hos g Hg) as (O1 & O2 & O3). split; [lia|]. split; [assumption|].
  assert (N1 : NoDup (pages_of g ++ hps G)).
  { apply NoDup_app_iff. split; [apply zseq_NoDup|]. split; [apply I|]. intros q Hq Hc. apply (O3 q); [apply pages_of_In|apply hps_In]; assumption. }
  split; [assumption|]. pose proof (i_perm _ _ _ _ _ I) as P.
  apply (Permutation_NoDup (l' := (pages_of g ++ hset (ha_free (hc_alloc h))) ++ U ++ hset (hc_cache h) ++ hps FL)) in N1; [|clear - P; pcount].
  apply NoDup_app_iff in N1. tauto.
Qed.

Lemma grow_limit_fields h s u : let h' := hc_maybe_grow_limit h s u in
  hc_alloc h' = hc_alloc h /\ hc_cache h' = hc_cache h /\ hc_size h' = hc_size h /\ hc_usage h' = hc_usage h /\ hc_limit h <= hc_limit h'.
Proof. cbn zeta. unfold hc_maybe_grow_limit. cbn zeta. destruct (Z.ltb_spec (hc_limit h) (Z.min s (hc_usage h - u) + Z.min s (hc_usage h - u) / 10)); cbn; repeat split; lia. Qed.

Lemma hc_get_spec k h U FL G n os p1 p2 s u : hc_inv k h U FL G -> 1 <= n -> os_ok G n os ->
  exists res fr asked h', hc_get h n os p1 p2 s u = Some (res, fr, asked, h') /\
    (fr = false <-> exists x, In x (ranges (ham_root (hc_cache h))) /\ n <= snd x) /\
    hc_limit h <= hc_limit h' /\
    match res with
    | Some r => snd r = n /\ hc_inv k h' (pages_of r ++ U) FL (grant asked os ++ G) /\
        (if fr then hc_cache h' = hc_cache h
         else asked = false /\ Permutation (cached h) (pages_of r ++ cached h') /\ hc_alloc h' = hc_alloc h)
    | None => fr = true /\ asked = true /\ (os = None \/ hl_overflows n = true) /\ h' = h
    end.
Proof.
  intros I Hn Hos. pose proof (hc_find_spec h n (i_cache _ _ _ _ _ I) Hn) as Hf. unfold hc_get, hc_do_get. destruct (hc_find h n) as [x|] eqn:Ef.
  - destruct Hf as (Hx & Hl). destruct (take_front (hc_cache h) x n p2 (i_cache _ _ _ _ _ I) Hx) as (res & lo & m' & E1 & E2 & _ & E3 & Ok & P & T); [lia|].
    cbn [hc_cache hc_set_cache]. rewrite E1. cbn [obind]. rewrite E3. cbn [obind]. subst res.
    do 4 eexists. split; [reflexivity|]. split; [split; [eauto|reflexivity]|]. cbn. split; [lia|]. split; [reflexivity|]. split; [|split; [reflexivity|split; [exact P|reflexivity]]].
    pose proof (i_perm _ _ _ _ _ I) as Pm. constructor; hcred; try apply I.
    + assumption.
    + clear - P Pm. pcount.
    + rewrite (i_size _ _ _ _ _ I). lia.
    + pose proof (i_usage _ _ _ _ _ I). rewrite app_length, Nat2Z.inj_add, pages_of_length by (cbn; lia). cbn. lia.
  - destruct (ha_get_perm (hc_alloc h) n os p1 p2 (i_alloc _ _ _ _ _ I) Hn) as (res & asked & a' & E & Ia & K).
    { intros g Hg. destruct (os_ok_nodup k h U FL G n os I Hn Hos g Hg) as (A & B & C & D). auto. }
    rewrite E. cbn [obind]. 
    assert (Fr : true = false <-> exists x, In x (ranges (ham_root (hc_cache h))) /\ n <= snd x).
    { split; [discriminate|]. intros (x & Hx & Hl). specialize (Hf x Hx). lia. }
    destruct res as [r|].
    + destruct K as (K1 & K2 & K3 & K4). set (h1 := hc_set_usage (hc_set_alloc h a') (hc_usage (hc_set_alloc h a') + snd r)).
      pose proof (grow_limit_fields h1 s u) as (F1 & F2 & F3 & F4 & F5). set (h2 := hc_maybe_grow_limit h1 s u) in *. cbn in F1, F2, F3, F4, F5.
      exists (Some r), true, asked, h2. split; [reflexivity|]. split; [assumption|]. split; [assumption|]. split; [assumption|]. split; [|assumption].
      pose proof (i_perm _ _ _ _ _ I) as Pm. constructor; rewrite ?F1, ?F2, ?F3, ?F4; try apply I.
      * assumption.
      * clear - K3 Pm. pcount.
      * rewrite hps_app. unfold grant. destruct asked; [destruct os as [g|]|]; cbn [hps flat_map app]; try apply I.
        rewrite app_nil_r. destruct (os_ok_nodup k h U FL G n _ I Hn Hos g eq_refl) as (A & B & C & D). assumption.
      * intros q Hq. rewrite hps_app in Hq. apply in_app_or in Hq. destruct Hq as [Hq|Hq]; [|apply (i_pos _ _ _ _ _ I); assumption].
        unfold grant in Hq. destruct asked; [destruct os as [g|]|]; cbn [hps flat_map app] in Hq; try contradiction.
        rewrite app_nil_r in Hq. destruct (Hos g eq_refl). apply pages_of_In in Hq. unfold in_range in Hq. lia.
      * pose proof (i_usage _ _ _ _ _ I). rewrite app_length, Nat2Z.inj_add, pages_of_length by lia. lia.
      * pose proof (i_limit _ _ _ _ _ I). lia.
      * cbn [hc_alloc hc_set_usage hc_set_alloc h1]. rewrite K4, hps_app, app_length, (i_system _ _ _ _ _ I). lia.
    + destruct K as (-> & K2 & ->). exists None, true, true, (hc_set_alloc h (hc_alloc h)). split; [reflexivity|]. split; [assumption|]. split; [cbn; lia|].
      split; [reflexivity|]. split; [reflexivity|]. split; [assumption|]. destruct h; reflexivity.
Qed.

Lemma inv_nodup k h U FL G : hc_inv k h U FL G -> NoDup (U ++ hset (hc_cache h) ++ hset (ha_free (hc_alloc h)) ++ hps FL).
Proof. intros I. eapply Permutation_NoDup; [apply (i_perm _ _ _ _ _ I)|apply I]. Qed.

Lemma hc_release_insert_spec k h U U' FL G r p : hc_inv k h U FL G -> 1 <= snd r -> Permutation U (pages_of r ++ U') ->
  exists h', hc_release_insert h r p = Some h' /\ hc_inv k h' U' FL G /\ Permutation (cached h') (pages_of r ++ cached h) /\ hc_limit h' = hc_limit h /\ hc_size h' = hc_size h + snd r.
Proof.
  intros I Hr PU. pose proof (i_perm _ _ _ _ _ I) as Pm. pose proof (inv_nodup _ _ _ _ _ I) as ND.
  assert (H1 : 1 <= fst r).
  { apply (range_start r (hps G) (i_pos _ _ _ _ _ I) Hr). intros q Hq. apply (Permutation_in q (Permutation_sym Pm)). apply in_or_app. left.
    apply (Permutation_in q (Permutation_sym PU)). apply in_or_app. auto. }
  unfold hc_release_insert. cbn [hc_cache hc_set_usage].
  destruct (insert_perm (hc_cache h) r p (i_cache _ _ _ _ _ I)) as (m' & E & Ok & P & T); [lia|assumption| |].
  { apply (Permutation_NoDup (l' := (pages_of r ++ hset (hc_cache h)) ++ U' ++ hset (ha_free (hc_alloc h)) ++ hps FL)) in ND; [|clear - PU; pcount].
    apply NoDup_app_iff in ND. tauto. }
  rewrite E. cbn [obind]. eexists. split; [reflexivity|]. split; [|split; [exact P|split; reflexivity]]. constructor; hcred; try apply I.
  - assumption.
  - clear - PU Pm P. pcount.
  - rewrite (i_size _ _ _ _ _ I). lia.
  - pose proof (i_usage _ _ _ _ _ I) as Iu. rewrite (Permutation_length PU), app_length, Nat2Z.inj_add, pages_of_length in Iu by lia. lia.
Qed.

Lemma hc_release_unbacked_spec k h U U' FL G r p : hc_inv k h U FL G -> 1 <= snd r -> Permutation U (pages_of r ++ U') ->
  exists h', hc_release_unbacked h r p = Some h' /\ hc_inv k h' U' FL G /\ Permutation (unbacked h') (pages_of r ++ unbacked h) /\ hc_cache h' = hc_cache h.
Proof.
  intros I Hr PU. pose proof (i_perm _ _ _ _ _ I) as Pm. pose proof (inv_nodup _ _ _ _ _ I) as ND.
  assert (H1 : 1 <= fst r).
  { apply (range_start r (hps G) (i_pos _ _ _ _ _ I) Hr). intros q Hq. apply (Permutation_in q (Permutation_sym Pm)). apply in_or_app. left.
    apply (Permutation_in q (Permutation_sym PU)). apply in_or_app. auto. }
  unfold hc_release_unbacked. cbn [hc_alloc hc_set_usage].
  destruct (ha_release_perm (hc_alloc h) r p (i_alloc _ _ _ _ _ I)) as (a' & E & Ok & P & Sy); [lia|assumption| |].
  { apply (Permutation_NoDup (l' := (pages_of r ++ hset (ha_free (hc_alloc h))) ++ U' ++ hset (hc_cache h) ++ hps FL)) in ND; [|clear - PU; pcount].
    apply NoDup_app_iff in ND. tauto. }
  rewrite E. cbn [obind]. eexists. split; [reflexivity|]. split; [|split; [exact P|reflexivity]]. constructor; hcred; try apply I.
  - assumption.
  - clear - PU Pm P. pcount.
  - pose proof (i_usage _ _ _ _ _ I) as Iu. rewrite (Permutation_length PU), app_length, Nat2Z.inj_add, pages_of_length in Iu by lia. lia.
  - rewrite Sy. apply I.
Qed.

Lemma hc_take_spec k h U FL G target p : hc_inv k h U FL G -> 0 <= target ->
  exists r h', hc_shrink_take h target p = Some (r, h') /\ hc_limit h' = hc_limit h /\ hc_alloc h' = hc_alloc h /\
    match r with
    | None => hc_size h <= target /\ h' = h
    | Some r => target < hc_size h /\ 1 <= snd r /\ hc_inv k h' U (r :: FL) G /\ Permutation (cached h) (pages_of r ++ cached h') /\
        hc_size h' = hc_size h - snd r /\ target <= hc_size h'
    end.
Proof.
  intros I Ht. unfold hc_shrink_take. destruct (Z.ltb_spec target (hc_size h)) as [Hlt|Hge].
  2: { do 2 eexists. split; [reflexivity|]. repeat split; lia. }
  pose proof (i_cache _ _ _ _ _ I) as Ok0. pose proof (hc_find_spec h 1 Ok0 ltac:(lia)) as Hf. destruct (hc_find h 1) as [x|].
  2: { exfalso. rewrite (i_size _ _ _ _ _ I), (h_total _ Ok0) in Hlt. destruct (ranges (ham_root (hc_cache h))) as [|y l] eqn:El; [cbn in Hlt; lia|].
       specialize (Hf y (or_introl eq_refl)). destruct (ham_ok_range _ y Ok0); [rewrite El; left; reflexivity|]. lia. }
  destruct Hf as (Hx & Hl). cbn [obind]. pose proof (i_perm _ _ _ _ _ I) as Pm. 
  set (d := hc_size h - target). destruct (Z.ltb_spec d (snd x)) as [Hd|Hd].
  - destruct (take_front (hc_cache h) x d p Ok0 Hx) as (res & lo & m' & E1 & E2 & E2' & E3 & Ok & P & T); [lia|].
    rewrite E1. cbn [obind]. destruct lo as [l|]; [|assert (d = snd x) by tauto; lia]. cbn [obind]. rewrite E3. cbn [obind]. subst res.
    do 2 eexists. split; [reflexivity|]. cbn. split; [reflexivity|]. split; [reflexivity|]. split; [lia|]. split; [lia|].
    split; [|split; [exact P|split; lia]]. constructor; hcred; try apply I.
    + assumption.
    + clear - P Pm. pcount.
    + intros r [<-|Hr]; [cbn; lia|apply (i_fl _ _ _ _ _ I); assumption].
    + rewrite (i_size _ _ _ _ _ I). lia.
  - destruct (remove_perm _ x Ok0 Hx) as (R1 & R2 & R3). do 2 eexists. split; [reflexivity|]. cbn. split; [reflexivity|]. split; [reflexivity|]. split; [lia|]. split; [lia|].
    split; [|split; [exact R2|split; lia]]. constructor; hcred; try apply I.
    + assumption.
    + clear - R2 Pm. pcount.
    + intros r [<-|Hr]; [lia|apply (i_fl _ _ _ _ _ I); assumption].
    + rewrite (i_size _ _ _ _ _ I). lia.
Qed.

Lemma hc_done_spec k h U FL1 FL2 G r ok p : hc_inv k h U (FL1 ++ r :: FL2) G ->
  exists h', hc_shrink_done h r ok p = Some h' /\ hc_inv k h' U (FL1 ++ FL2) G /\ hc_limit h' = hc_limit h /\
    (if ok then hc_cache h' = hc_cache h /\ hc_size h' = hc_size h /\ Permutation (unbacked h') (pages_of r ++ unbacked h)
     else hc_alloc h' = hc_alloc h /\ hc_size h' = hc_size h + snd r /\ Permutation (cached h') (pages_of r ++ cached h)).
Proof.
  intros I. pose proof (i_perm _ _ _ _ _ I) as Pm. pose proof (inv_nodup _ _ _ _ _ I) as ND.
  assert (Hr : 1 <= snd r) by (apply (i_fl _ _ _ _ _ I); apply in_or_app; right; left; reflexivity).
  assert (H1 : 1 <= fst r).
  { apply (range_start r (hps G) (i_pos _ _ _ _ _ I) Hr). intros q Hq. apply (Permutation_in q (Permutation_sym Pm)). rewrite hps_app, hps_cons. rewrite !in_app_iff. auto 10. }
  assert (Hfl : forall x, In x (FL1 ++ FL2) -> 1 <= snd x).
  { intros x Hx. apply (i_fl _ _ _ _ _ I). apply in_app_or in Hx. apply in_or_app. cbn. tauto. }
  unfold hc_shrink_done. destruct ok.
  - destruct (ha_release_perm (hc_alloc h) r p (i_alloc _ _ _ _ _ I)) as (a' & E & Ok & P & Sy); [lia|assumption| |].
    { apply (Permutation_NoDup (l' := (pages_of r ++ hset (ha_free (hc_alloc h))) ++ U ++ hset (hc_cache h) ++ hps FL1 ++ hps FL2)) in ND; [|clear; pcount].
      apply NoDup_app_iff in ND. tauto. }
    rewrite E. cbn [obind]. eexists. split; [reflexivity|]. cbn. split; [|split; [reflexivity|split; [reflexivity|split; [reflexivity|exact P]]]].
    constructor; hcred; try apply I; try assumption; [clear - P Pm; pcount|rewrite Sy; apply I].
  - destruct (insert_perm (hc_cache h) r p (i_cache _ _ _ _ _ I)) as (m' & E & Ok & P & T); [lia|assumption| |].
    { apply (Permutation_NoDup (l' := (pages_of r ++ hset (hc_cache h)) ++ U ++ hset (ha_free (hc_alloc h)) ++ hps FL1 ++ hps FL2)) in ND; [|clear; pcount].
      apply NoDup_app_iff in ND. tauto. }
    rewrite E. cbn [obind]. eexists. split; [reflexivity|]. cbn. split; [|split; [reflexivity|split; [reflexivity|split; [reflexivity|exact P]]]].
    constructor; hcred; try apply I; try assumption.
    + clear - P Pm. pcount.
    + rewrite (i_size _ _ _ _ _ I). lia.
Qed.

Lemma hc_shrink_limit_fields h s : let h' := snd (hc_shrink_limit h s) in
  hc_alloc h' = hc_alloc h /\ hc_cache h' = hc_cache h /\ hc_size h' = hc_size h /\ hc_usage h' = hc_usage h /\ 
  (min_cache_limit <= hc_limit h -> min_cache_limit <= hc_limit h').
Proof. cbn zeta. unfold hc_shrink_limit. destruct (s <? hc_limit h / 5); cbn; repeat split; lia. Qed.

(** Taking hugepages from the allocator directly. *)
Lemma hc_direct_spec k h U FL G n os p1 p2 : hc_inv k h U FL G -> 1 <= n -> os_ok G n os ->
  exists res asked a, ha_get (hc_alloc h) n os p1 p2 = Some (res, asked, a) /\
    match res with
    | Some r => snd r = n /\ hc_inv (k + n) (hc_set_alloc h a) (pages_of r ++ U) FL (grant asked os ++ G)
    | None => asked = true /\ (os = None \/ hl_overflows n = true) /\ a = hc_alloc h
    end.
Proof.
  intros I Hn Hos. destruct (ha_get_perm (hc_alloc h) n os p1 p2 (i_alloc _ _ _ _ _ I) Hn) as (res & asked & a' & E & Ia & K).
  { intros g Hg. destruct (os_ok_nodup k h U FL G n os I Hn Hos g Hg) as (A & B & C & D). auto. }
  exists res, asked, a'. split; [assumption|]. destruct res as [r|]; [|exact K]. destruct K as (K1 & K2 & K3 & K4). split; [assumption|].
  pose proof (i_perm _ _ _ _ _ I) as Pm. constructor; hcred; try apply I.
  - assumption.
  - clear - K3 Pm. pcount.
  - rewrite hps_app. unfold grant. destruct asked; [destruct os as [g|]|]; cbn [hps flat_map app]; try apply I.
    rewrite app_nil_r. destruct (os_ok_nodup k h U FL G n _ I Hn Hos g eq_refl) as (A & B & C & D). assumption.
  - intros q Hq. rewrite hps_app in Hq. apply in_app_or in Hq. destruct Hq as [Hq|Hq]; [|apply (i_pos _ _ _ _ _ I); assumption].
    unfold grant in Hq. destruct asked; [destruct os as [g|]|]; cbn [hps flat_map app] in Hq; try contradiction.
    rewrite app_nil_r in Hq. destruct (Hos g eq_refl). apply pages_of_In in Hq. unfold in_range in Hq. lia.
  - pose proof (i_usage _ _ _ _ _ I). rewrite app_length, Nat2Z.inj_add, pages_of_length by lia. lia.
  - rewrite K4, hps_app, app_length, (i_system _ _ _ _ _ I). lia.
Qed.

Lemma hc_inv_perm k h U U' FL G : Permutation U U' -> hc_inv k h U FL G -> hc_inv k h U' FL G.
Proof.
  intros P I. constructor; try apply I.
  - pose proof (i_perm _ _ _ _ _ I) as Pm. clear - P Pm. pcount.
  - rewrite <- (Permutation_length P). apply I.
Qed.

Lemma reach_hc_inv h U D FL G : reach_hc h U D FL G -> hc_inv (Z.of_nat (length D)) h (D ++ U) FL G.
Proof.
  induction 1 as [| h U D FL G n os p1 p2 s u r fr asked h' H IH Hn Hos E | h U D FL G n os p1 p2 s u fr asked h' H IH Hn Hos E
    | h U U' D FL G r p h' H IH Hr PU E | h U U' D FL G r p h' H IH Hr PU E | h U D FL G s H IH Hs | h U D FL G t p r h' H IH Ht E | h U D FL1 FL2 G r ok p h' H IH E
    | h U D FL G n os p1 p2 res asked a H IH Hn Hos E].
  - assert (Ok0 : ham_ok ham_init) by (constructor; cbn; auto; lia).
    constructor; try (cbn; intros; contradiction); try reflexivity; try assumption.
    + split; [assumption|]. split; [intros p; reflexivity|reflexivity].
    + constructor.
  - destruct (hc_get_spec _ _ _ _ _ n os p1 p2 s u IH Hn Hos) as (res & fr' & asked' & h2 & E2 & _ & _ & K). rewrite E in E2. injection E2 as <- <- <- <-.
    destruct K as (_ & K & _). eapply hc_inv_perm; [|exact K]. clear. pcount.
  - destruct (hc_get_spec _ _ _ _ _ n os p1 p2 s u IH Hn Hos) as (res & fr' & asked' & h2 & E2 & _ & _ & K). rewrite E in E2. injection E2 as <- <- <- <-.
    destruct K as (_ & _ & _ & ->). assumption.
  - assert (PD : Permutation (D ++ U) (pages_of r ++ D ++ U')) by (clear - PU; pcount).
    destruct (hc_release_insert_spec _ _ _ (D ++ U') _ _ r p IH Hr PD) as (h2 & E2 & K & _). rewrite E in E2. injection E2 as <-. assumption.
  - assert (PD : Permutation (D ++ U) (pages_of r ++ D ++ U')) by (clear - PU; pcount).
    destruct (hc_release_unbacked_spec _ _ _ (D ++ U') _ _ r p IH Hr PD) as (h2 & E2 & K & _). rewrite E in E2. injection E2 as <-. assumption.
  - pose proof (hc_shrink_limit_fields h s) as (F1 & F2 & F3 & F4 & F5). constructor; rewrite ?F1, ?F2, ?F3, ?F4; try apply IH. apply F5. apply IH.
  - destruct (hc_take_spec _ _ _ _ _ t p IH Ht) as (r' & h2 & E2 & _ & _ & K). rewrite E in E2. injection E2 as <- <-. apply K.
  - destruct (hc_done_spec _ _ _ _ _ _ r ok p IH) as (h2 & E2 & K & _). rewrite E in E2. injection E2 as <-. assumption.
  - destruct (hc_direct_spec _ _ _ _ _ n os p1 p2 IH Hn Hos) as (res' & asked' & a' & E2 & K). rewrite E in E2. injection E2 as <- <- <-. destruct res as [r|].
    + destruct K as (K1 & K2). rewrite app_length, Nat2Z.inj_add, pages_of_length, K1, Z.add_comm by lia. rewrite <- app_assoc. exact K2.
    + destruct K as (-> & _ & ->). cbn [grant app]. destruct h. exact IH.
Qed.

(** Each hugepage the system granted is in exactly one place: in use, cached, free in
    the address space allocator, or on its way back to the system.  The reported size
    and usage are the numbers of cached and used hugepages; the cache keeps maximal
    runs; its limit never falls below ten hugepages. *)
Theorem huge_cache_conserves : forall h U D FL G, reach_hc h U D FL G ->
  NoDup (hps G) /\ Permutation (hps G) (U ++ D ++ cached h ++ unbacked h ++ hps FL) /\
  hc_size h = Z.of_nat (length (cached h)) /\ hc_usage h = Z.of_nat (length U) /\ 10 <= hc_limit h /\
  ha_system (hc_alloc h) = Z.of_nat (length (hps G)) /\ ha_size (hc_alloc h) = Z.of_nat (length (unbacked h)) /\
  (forall r, In r (ranges (ham_root (hc_cache h))) <-> maximal_run (fun p => In p (cached h)) r).
Proof.
  intros h U D FL G H. apply reach_hc_inv in H. split; [apply H|]. split; [pose proof (i_perm _ _ _ _ _ H) as P; unfold hset in P; unfold cached, unbacked; clear - P; pcount|]. pose proof (i_cache _ _ _ _ _ H) as Ok.
  split; [rewrite (i_size _ _ _ _ _ H); symmetry; apply hset_length; assumption|].
  split; [pose proof (i_usage _ _ _ _ _ H) as Hu; rewrite app_length in Hu; lia|]. split; [apply H|]. split; [apply H|].
  split; [destruct (i_alloc _ _ _ _ _ H) as (A1 & _ & A2); unfold ha_size; rewrite A2; symmetry; apply hset_length; assumption|].
  intros r. rewrite (gaps_runs (-1)) by apply Ok. unfold maximal_run, cached. setoid_rewrite hps_In. reflexivity.
Qed.
Print Assumptions huge_cache_conserves.

(** A request never fails a check.  It is served from the cache (backed memory) if and
    only if the cache holds a run that is long enough; then the hugepages leave the
    cache and the system is not asked.  Otherwise the cache keeps its contents and the
    range comes from the allocator.  It fails only if the system refuses. *)
Theorem huge_cache_get : forall h U D FL G n os p1 p2 shrink usage_min, reach_hc h U D FL G -> 1 <= n -> os_ok G n os ->
  exists res from_released asked h', hc_get h n os p1 p2 shrink usage_min = Some (res, from_released, asked, h') /\
    (from_released = false <-> exists r, maximal_run (fun p => In p (cached h)) r /\ n <= snd r) /\
    hc_limit h <= hc_limit h' /\
    match res with
    | Some r => snd r = n /\ (forall p, in_range r p -> ~ In p U /\ ~ In p D) /\
        (if from_released then cached h' = cached h
         else asked = false /\ Permutation (cached h) (pages_of r ++ cached h') /\ unbacked h' = unbacked h)
    | None => asked = true /\ (os = None \/ 2 ^ 43 <= n) /\ h' = h
    end.
Proof.
  intros h U D FL G n os p1 p2 s u H Hn Hos. pose proof (huge_cache_conserves _ _ _ _ _ H) as (_ & _ & _ & _ & _ & _ & _ & Hr). apply reach_hc_inv in H.
  destruct (hc_get_spec _ _ _ _ _ n os p1 p2 s u H Hn Hos) as (res & fr & asked & h' & E & F & L & K). exists res, fr, asked, h'.
  split; [assumption|]. split; [rewrite F; setoid_rewrite Hr; reflexivity|]. split; [assumption|]. destruct res as [r|].
  - destruct K as (K1 & K2 & K3). split; [assumption|]. split.
    + intros p Hp. pose proof (inv_nodup _ _ _ _ _ K2) as ND. rewrite <- app_assoc in ND. apply NoDup_app_iff in ND. destruct ND as (_ & _ & ND).
      specialize (ND p (proj2 (pages_of_In r p) Hp)). rewrite !in_app_iff in ND. tauto.
    + destruct fr; [unfold cached; rewrite K3; reflexivity|]. destruct K3 as (A & B & C). unfold unbacked. rewrite C. auto.
  - destruct K as (_ & K1 & K2 & K3). split; [assumption|]. split; [|assumption]. destruct K2 as [K2|K2]; [auto|right]. unfold hl_overflows in K2.
    change (2 ^ 64 / 2 ^ 21) with 8796093022208 in K2. change (2 ^ 43) with 8796093022208. lia.
Qed.
Print Assumptions huge_cache_get.

(** Releasing hugepages in use never fails: they become cached, or free when they are
    released unbacked. *)
Theorem huge_cache_release : forall h U U' D FL G r p, reach_hc h U D FL G -> 1 <= snd r -> Permutation U (pages_of r ++ U') ->
  (exists h', hc_release_insert h r p = Some h' /\ Permutation (cached h') (pages_of r ++ cached h) /\ unbacked h' = unbacked h) /\
  (exists h', hc_release_unbacked h r p = Some h' /\ Permutation (unbacked h') (pages_of r ++ unbacked h) /\ cached h' = cached h).
Proof.
  intros h U U' D FL G r p H Hr PU0. apply reach_hc_inv in H. assert (PU : Permutation (D ++ U) (pages_of r ++ D ++ U')) by (clear - PU0; pcount). split.
  - destruct (hc_release_insert_spec _ _ _ _ _ _ r p H Hr PU) as (h' & E & I & P & _). exists h'. split; [assumption|]. split; [assumption|].
    unfold hc_release_insert in E. destruct (ham_insert _ _ _); [|discriminate]. injection E as <-. reflexivity.
  - destruct (hc_release_unbacked_spec _ _ _ _ _ _ r p H Hr PU) as (h' & E & I & P & Q). exists h'. split; [assumption|]. split; [assumption|].
    unfold cached. rewrite Q. reflexivity.
Qed.
Print Assumptions huge_cache_release.

(** ** Whole operations, without interference while the lock is released *)
Lemma shrink_loop_spec os prio target D FL : 0 <= target -> forall fuel h U G i removed, reach_hc h U D FL G -> hc_size h < Z.of_nat fuel ->
  exists rem h', hc_shrink_loop fuel h target os prio i removed = Some (rem, h') /\ reach_hc h' U D FL G /\ hc_limit h' = hc_limit h /\
    rem = removed + hc_size h - hc_size h' /\ Z.min target (hc_size h) <= hc_size h' <= hc_size h /\
    (exists moved, Permutation (cached h) (moved ++ cached h') /\ Permutation (unbacked h') (moved ++ unbacked h)) /\
    ((forall j, i <= j -> os j = true) -> hc_size h' = Z.min target (hc_size h)).
Proof.
  intros Ht. induction fuel as [|fuel IH]; intros h U G i removed H Hf.
  { exfalso. pose proof (huge_cache_conserves _ _ _ _ _ H) as (_ & _ & Hs & _). lia. }
  cbn [hc_shrink_loop]. destruct (hc_take_spec _ _ _ _ _ target (prio (2 * i)) (reach_hc_inv _ _ _ _ _ H) Ht) as (r & h1 & E & L1 & A1 & K). rewrite E. cbn [obind].
  destruct r as [r|].
  2: { destruct K as (K1 & ->). exists removed, h. split; [reflexivity|]. split; [assumption|]. split; [reflexivity|]. split; [lia|]. split; [lia|].
       split; [exists []; split; apply Permutation_refl|]. intros _. lia. }
  destruct K as (K1 & K2 & K3 & K4 & K5 & K6). pose proof (rc_take _ _ _ _ _ _ _ _ _ H Ht E) as H1.
  destruct (hc_done_spec _ h1 _ [] FL G r (os i) (prio (2 * i + 1)) K3) as (h2 & E2 & I2 & L2 & Dn). rewrite E2. cbn [obind].
  pose proof (rc_done h1 U D [] FL G r (os i) _ h2 H1 E2) as H2. cbn [app] in H2, I2.
  destruct (os i) eqn:Eo.
  - destruct Dn as (D1 & D2 & D3). destruct (IH h2 U G (i + 1) (removed + snd r) H2) as (rem & h3 & E3 & R3 & L3 & T1 & T2 & (mv & P1 & P2) & T3); [lia|].
    exists rem, h3. split; [assumption|]. split; [assumption|]. split; [congruence|]. split; [lia|]. split; [lia|]. split.
    { exists (pages_of r ++ mv). unfold cached, unbacked in *. rewrite D1 in P1. rewrite A1 in D3. split; [clear - K4 P1; pcount|clear - P2 D3; pcount]. }
    intros Hall. rewrite T3 by (intros; apply Hall; lia). lia.
  - destruct Dn as (D1 & D2 & D3). exists removed, h2. split; [reflexivity|]. split; [assumption|]. split; [congruence|]. split; [lia|]. split; [lia|]. split.
    { exists []. unfold cached, unbacked in *. rewrite D1, A1. split; [clear - K4 D3; pcount|apply Permutation_refl]. }
    intros Hall. rewrite Hall in Eo by lia. discriminate.
Qed.

Lemma hc_shrink_spec h U D FL G target os prio : reach_hc h U D FL G -> 0 <= target ->
  exists rem h', hc_shrink h target os prio = Some (rem, h') /\ reach_hc h' U D FL G /\ hc_limit h' = hc_limit h /\
    rem = hc_size h - hc_size h' /\ Z.min target (hc_size h) <= hc_size h' <= hc_size h /\
    (exists moved, Permutation (cached h) (moved ++ cached h') /\ Permutation (unbacked h') (moved ++ unbacked h)) /\
    ((forall j, 0 <= j -> os j = true) -> hc_size h' = Z.min target (hc_size h)).
Proof.
  intros H Ht. pose proof (huge_cache_conserves _ _ _ _ _ H) as (_ & _ & Hs & _).
  destruct (shrink_loop_spec os prio target D FL Ht (Z.to_nat (hc_size h + 1)) h U G 0 0 H) as (rem & h' & K); [lia|].
  exists rem, h'. destruct K as (A & B & C & D0 & E & F & K). repeat split; try assumption; lia.
Qed.

(** Shrinking moves hugepages from the cache to the free address space and returns how
    many; it never shrinks below the target, and reaches it unless the system refuses. *)
Theorem huge_cache_shrink : forall h U D FL G target os prio, reach_hc h U D FL G -> 0 <= target ->
  exists removed h' moved, hc_shrink h target os prio = Some (removed, h') /\ reach_hc h' U D FL G /\
    Permutation (cached h) (moved ++ cached h') /\ Permutation (unbacked h') (moved ++ unbacked h) /\ removed = Z.of_nat (length moved) /\
    Z.min target (hc_size h) <= hc_size h' /\
    ((forall j, 0 <= j -> os j = true) -> hc_size h' = Z.min target (hc_size h)).
Proof.
  intros h U D FL G target os prio H Ht. destruct (hc_shrink_spec h U D FL G target os prio H Ht) as (rem & h' & A & B & C & D0 & E & (mv & F1 & F2) & K).
  exists rem, h', mv. repeat split; try assumption; try lia.
  pose proof (huge_cache_conserves _ _ _ _ _ H) as (_ & _ & Hs & _). pose proof (huge_cache_conserves _ _ _ _ _ B) as (_ & _ & Hs' & _).
  apply Permutation_length in F1. rewrite app_length in F1. lia.
Qed.
Print Assumptions huge_cache_shrink.

Lemma hc_maybe_shrink_spec h U D FL G s os prio : reach_hc h U D FL G -> 0 <= s ->
  exists rem h', hc_maybe_shrink h s os prio = Some (rem, h') /\ reach_hc h' U D FL G /\
    rem = hc_size h - hc_size h' /\ 0 <= hc_size h' <= hc_size h /\
    (exists moved, Permutation (cached h) (moved ++ cached h') /\ Permutation (unbacked h') (moved ++ unbacked h)).
Proof.
  intros H Hs. unfold hc_maybe_shrink. destruct (hc_shrink_limit h s) as [go h1] eqn:E. pose proof (rc_limit _ _ _ _ _ s H Hs) as H1. pose proof (hc_shrink_limit_fields h s) as F.
  rewrite E in H1, F. cbn [snd] in H1, F. destruct F as (F1 & F2 & F3 & F4 & F5). pose proof (huge_cache_conserves _ _ _ _ _ H1) as (_ & _ & Z1 & _ & L1 & _).
  assert (C1 : cached h1 = cached h) by (unfold cached; rewrite F2; reflexivity). assert (C2 : unbacked h1 = unbacked h) by (unfold unbacked; rewrite F1; reflexivity).
  destruct go.
  - destruct (hc_shrink_spec h1 U D FL G (hc_limit h1) os prio H1) as (rem & h2 & A & B & C & D0 & K & M & _); [lia|]. exists rem, h2.
    rewrite C1, C2 in M. rewrite F3 in *. repeat split; try assumption; lia.
  - exists 0, h1. rewrite C1, C2. repeat split; try assumption; try lia. exists []. split; apply Permutation_refl.
Qed.

(** Releasing [n] hugepages on request: the result is the number moved out of the cache,
    and unless the system refuses it is at least [n] or everything that was cached. *)
Theorem huge_cache_release_cached : forall h U D FL G n size_min os1 os2 pr1 pr2, reach_hc h U D FL G -> 0 <= n -> 0 <= size_min ->
  exists released h' moved, hc_release_cached h n size_min os1 os2 pr1 pr2 = Some (released, h') /\ reach_hc h' U D FL G /\
    Permutation (cached h) (moved ++ cached h') /\ Permutation (unbacked h') (moved ++ unbacked h) /\ released = Z.of_nat (length moved) /\
    ((forall j, 0 <= j -> os2 j = true) -> Z.min n (hc_size h) <= released).
Proof.
  intros h U D FL G n s os1 os2 pr1 pr2 H Hn Hs. destruct (hc_maybe_shrink_spec h U D FL G s os1 pr1 H Hs) as (rem & h1 & A & B & C & D0 & (mv & M1 & M2)).
  unfold hc_release_cached. rewrite A. cbn [obind]. 
  assert (Len : forall h2 U2 G2 mv, reach_hc h2 U2 D FL G2 -> Permutation (cached h) (mv ++ cached h2) -> hc_size h - hc_size h2 = Z.of_nat (length mv)).
  { intros h2 U2 G2 mv2 R P. pose proof (huge_cache_conserves _ _ _ _ _ H) as (_ & _ & S1 & _). pose proof (huge_cache_conserves _ _ _ _ _ R) as (_ & _ & S2 & _).
    apply Permutation_length in P. rewrite app_length in P. lia. }
  destruct (Z.ltb_spec rem n) as [Hlt|Hge].
  - set (t := if hc_size h1 <? n - rem then 0 else hc_size h1 - (n - rem)). 
    assert (Ht : t = Z.max 0 (hc_size h1 - (n - rem))) by (unfold t; destruct (Z.ltb_spec (hc_size h1) (n - rem)); lia).
    destruct (hc_shrink_spec h1 U D FL G t os2 pr2 B) as (more & h2 & A2 & B2 & C2 & D2 & K2 & (mv2 & N1 & N2) & T2); [lia|].
    fold t. rewrite A2. cbn [obind]. exists (rem + more), h2, (mv ++ mv2). split; [reflexivity|]. split; [assumption|].
    assert (P1 : Permutation (cached h) ((mv ++ mv2) ++ cached h2)) by (clear - M1 N1; pcount).
    split; [assumption|]. split; [clear - M2 N2; pcount|]. split; [rewrite <- (Len h2 U G (mv ++ mv2) B2 P1); lia|].
    intros Hall. specialize (T2 Hall). lia.
  - exists rem, h1, mv. split; [reflexivity|]. split; [assumption|]. split; [assumption|]. split; [assumption|]. split; [rewrite <- (Len h1 U G mv B M1); lia|]. lia.
Qed.
Print Assumptions huge_cache_release_cached.

(** Releasing hugepages to the cache: they end up cached or returned to the system, and
    unless the system refuses, the cache then respects its limit. *)
Theorem huge_cache_bounded : forall h U U' D FL G r p due size_min os1 os2 pr1 pr2, reach_hc h U D FL G -> 1 <= snd r -> 0 <= size_min ->
  Permutation U (pages_of r ++ U') ->
  exists h', hc_release h r p due size_min os1 os2 pr1 pr2 = Some h' /\ reach_hc h' U' D FL G /\
    ((forall j, 0 <= j -> os2 j = true) -> hc_size h' <= hc_limit h').
Proof.
  intros h U U' D FL G r p due s os1 os2 pr1 pr2 H Hr Hs PU. unfold hc_release.
  assert (PD : Permutation (D ++ U) (pages_of r ++ D ++ U')) by (clear - PU; pcount).
  destruct (hc_release_insert_spec _ _ _ _ _ _ r p (reach_hc_inv _ _ _ _ _ H) Hr PD) as (h1 & E1 & _). rewrite E1. cbn [obind].
  pose proof (rc_release _ _ U' _ _ _ r p _ H Hr PU E1) as H1.
  assert (H2 : exists h2, (if due then let? (_, h) := hc_maybe_shrink h1 s os1 pr1 in Some h else Some h1) = Some h2 /\ reach_hc h2 U' D FL G).
  { destruct due; [|eauto]. destruct (hc_maybe_shrink_spec h1 U' D FL G s os1 pr1 H1 Hs) as (rem & h2 & A & B & _). rewrite A. cbn [obind]. eauto. }
  destruct H2 as (h2 & E2 & H2). rewrite E2. cbn [obind]. pose proof (huge_cache_conserves _ _ _ _ _ H2) as (_ & _ & _ & _ & L2 & _).
  destruct (hc_shrink_spec h2 U' D FL G (hc_limit h2) os2 pr2 H2) as (rem & h3 & A & B & C & _ & _ & _ & T); [lia|]. rewrite A. cbn [obind].
  exists h3. split; [reflexivity|]. split; [assumption|]. intros Hall. rewrite (T Hall), C. lia.
Qed.
Print Assumptions huge_cache_bounded.

(** Two requests, a release to the cache, a request served from the cache, and a shrink
    interrupted while the system is called. *)
Definition ex_obs (h : hcache) := (ranges (ham_root (hc_cache h)), ranges (ham_root (ha_free (hc_alloc h))), hc_size h, hc_usage h, hc_limit h).
Example huge_cache_history : exists h, reach_hc h [8; 9; 19] [] [] [(8, 16)] /\ ex_obs h = ([(15, 4)], [(10, 5); (20, 4)], 4, 3, 10).
Proof.
  assert (O1 : os_ok [] 12 (Some (8, 16))). { intros g [= <-]. cbn. split; [lia|]. split; [lia|]. intros p _ Hc. apply covers_nil in Hc. assumption. }
  eassert (R1 := rc_get _ _ _ _ _ 12 _ 1 2 0 0 _ _ _ _ rc_init ltac:(lia) O1 ltac:(vm_compute; reflexivity)).
  eassert (R2 := rc_release _ _ [19] _ _ _ (8, 11) 3 _ R1 ltac:(cbn; lia) ltac:(apply Permutation_refl) ltac:(vm_compute; reflexivity)).
  eassert (R3 := rc_get _ _ _ _ _ 2 None 1 2 0 0 _ _ _ _ R2 ltac:(lia) ltac:(intros g; discriminate) ltac:(vm_compute; reflexivity)).
  eassert (R4 := rc_take _ _ _ _ _ 4 5 _ _ R3 ltac:(lia) ltac:(vm_compute; reflexivity)).
  eassert (R5 := rc_done _ _ _ [] [] _ _ true 6 _ R4 ltac:(vm_compute; reflexivity)).
  eexists. split; [exact R5|reflexivity].
Qed.
