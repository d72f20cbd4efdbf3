(** C46: the numbers that the allocator reports about itself are exact. *)
From Coq Require Import Permutation.
From Verif Require HeapCaches Hpaa HpaaProofs HpaaProps SysAlloc SysAllocProps HeapPages Slab SlabProps SlabRseq SlabRseqProofs TransferCache TransferCacheProps.
From Verif Require Import Base SizeMap SizeMapProofs SizeMapProofs2 FrontApi Bitmap Span SpanProofs SpanProofs2 CentralFreeList CFLProofs3 CFLProps HeapClass Heap HeapProofs HeapStats HeapStatsProofs.

(** ** What there is to count

    The bytes of the live objects that the program may use. *)
Definition live_bytes (p : hpar) (h : heap) : Z := zsum (map (usable p h) (h_live h)).
(** The ends of the spans of classes with one object per span, which the object does not cover. *)
Definition tail_bytes (p : hpar) (h : heap) : Z :=
  zsum (map (fun k => if cpages p k * pg p / csize p k =? 1 then (cpages p k * pg p - csize p k) * len (y_held (h_cl h k)) else 0) (classes p)).
(** Objects of a class that a call has in its hands: the program's call, a call of a per-CPU cache, of a transfer cache, of the
    central free list; and its spans that are being filled or given back. *)
Definition class_in_calls (p : hpar) (h : heap) (k : Z) : Z :=
  csize p k * (len (h_hands h k) + len (HeapCaches.slab_hands (p_nthr p) k (h_slab h)) +
     len (flat_map (fun x => flat_map TransferCacheProps.held (snd x)) (h_tc h k)) + len (flat_map pend_inserting (y_pend (h_cl h k)))) +
  cpages p k * pg p * (len (private (h_cl h k)) + len (freeing (h_cl h k))).
Definition span_bytes (p : hpar) (h : heap) (x : Z) : Z := sp_len (snd (h_desc h x)) * pg p.
(** Ranges of pages between the page heap and their user, and hugepages on which a call of the page heap works. *)
Definition in_calls (p : hpar) (h : heap) : Z :=
  zsum (map (class_in_calls p h) (classes p)) +
  zsum (map (span_bytes p h) (fresh_ids (h_fresh h))) + zsum (map (span_bytes p h) (h_ret h)) +
  zsum (map (fun t => HeapPages.q_P (p_q p) *
     HpaaProps.in_transit (HeapPages.b_hp (h_back h) t) (HeapPages.b_H (h_back h) t) (HeapPages.b_FL (h_back h) t) * pg p) all_tags).

(** No call is in progress. *)
Record idle (p : hpar) (h : heap) : Prop := {
  id_hands : forall k, In k (classes p) -> h_hands h k = [] /\ HeapCaches.slab_hands (p_nthr p) k (h_slab h) = [] /\
     y_pend (h_cl h k) = [] /\ Forall (fun x => snd x = []) (h_tc h k);
  id_slab : SlabRseq.glob (h_slab h) = SlabRseq.GNone;
  id_pages : h_fresh h = [] /\ h_ret h = [];
  id_back : forall t, In t all_tags -> HeapPages.b_H (h_back h) t = [] /\ HeapPages.b_FL (h_back h) t = [] /\
     Filler.fl_freed (Hpaa.hp_filler (HeapPages.b_hp (h_back h) t)) = [] }.

(** Every one-object class fills its span. *)
Definition no_tail (p : hpar) : Prop := forall k, In k (classes p) -> cpages p k * pg p / csize p k = 1 -> csize p k = cpages p k * pg p.

(** ** Proofs *)
Lemma num_classes_pos p : hpar_ok p -> 1 <= num_classes (p_c p).
Proof.
  intros (Hc & _). destruct (cfg_ok_facts _ Hc) as (_ & Hnb & Hp & _). pose proof (num_regs _ Hc) as Hn. rewrite Hn.
  assert (1 <= normal_parts (p_c p)) by (unfold normal_parts; nia). destruct (expanded (p_c p)); nia.
Qed.

Lemma tags_nd : NoDup all_tags.
Proof. unfold all_tags. repeat constructor; cbn; intuition discriminate. Qed.

Lemma tcs_len p h k : hpar_ok p -> hreach p h ->
  len (HeapCaches.tcs_objs (h_tc h k)) = tc_length h k + sharded_length h k + len (flat_map (fun x => flat_map TransferCacheProps.held (snd x)) (h_tc h k)).
Proof.
  intros Hok R. pose proof (i_tc _ _ (hreach_inv p h Hok R) k) as T. unfold tc_length, sharded_length.
  assert (E : forall l, HeapCaches.tcs_ok l -> len (HeapCaches.tcs_objs l) = zsum (map (fun x => TransferCache.t_used (fst x)) l) + len (flat_map (fun x => flat_map TransferCacheProps.held (snd x)) l)).
  { induction l as [|x l IH]; intros Hl; [reflexivity|]. inversion Hl as [|? ? (A & _) B]; subst. unfold HeapCaches.tcs_objs in *. cbn [flat_map map]. rewrite !len_app, zsum_cons, (IH B).
    assert (Ec : len (TransferCacheProps.cached (fst x)) = TransferCache.t_used (fst x)).
    { unfold TransferCacheProps.cached, TransferCache.slots_read, len. rewrite map_length, zseq_length. destruct A. lia. }
    lia. }
  rewrite (E _ T). destruct (h_tc h k) as [|x l]; [reflexivity|]. cbn [tl map]. rewrite zsum_cons. lia.
Qed.

Section Balance.
Variables (p : hpar) (h : heap).
Hypothesis Hok : hpar_ok p.
Hypothesis R : hreach p h.
Let I := hreach_inv p h Hok R.

Lemma class_spans k : In k (classes p) -> exists old, 0 <= old /\ (SlabRseq.glob (h_slab h) = SlabRseq.GNone -> old = 0) /\
  cpages p k * pg p * len (y_ph (h_cl h k)) =
    (csize p k * central_length h k + central_overhead p h k) + csize p k * tc_length h k + csize p k * sharded_length h k +
    csize p k * cpu_objects p (h_slab h) k + csize p k * len (live_of k (h_live h)) + class_in_calls p h k + old +
    (if cpages p k * pg p / csize p k =? 1 then (cpages p k * pg p - csize p k) * len (y_held (h_cl h k)) else 0).
Proof.
  intros Hk. destruct (classes_in p k Hok Hk) as (Hr & Hc). pose proof (i_class _ _ I k Hk) as G.
  pose proof (central_pages _ _ _ _ Hc G) as E. cbv zeta in E. destruct (i_acct _ _ I) as (Rg & HR & P). specialize (P k Hk). apply len_perm in P.
  rewrite !len_app, (tcs_len p h k Hok R) in P. destruct (cpu_objects_are p (h_slab h) (h_tr h) Rg k (i_slab _ _ I) HR ltac:(lia)) as (A & B).
  set (o := len (HeapCaches.slab_objs (old_regions (p_ncpu p) (h_slab h) Rg) (h_tr h) k)) in *. rewrite A in P.
  assert (Hs : 0 < csize p k) by (pose proof (g_size _ _ _ (class_geom _ _ _ Hc)); lia).
  exists (csize p k * o). split; [apply Z.mul_nonneg_nonneg; [lia|apply len_nonneg]|]. split; [intros Hg; rewrite (B Hg); lia|].
  unfold central_overhead. destruct (Z.eqb_spec (csize p k) 0); [lia|].
  unfold pg. change (y_ph (h_cl h k)) with (y_ph (view h k)). rewrite E. unfold class_in_calls, central_length.
  change (cfl_length (y_f (view h k))) with (cfl_length (y_f (h_cl h k))).
  change (overhead_bytes (p_c p) (csize p k) (cpages p k) (y_f (view h k))) with (overhead_bytes (p_c p) (csize p k) (cpages p k) (y_f (h_cl h k))).
  change (y_held (view h k)) with (y_held (h_cl h k)). change (y_pend (view h k)) with (y_pend (h_cl h k)).
  change (private (view h k)) with (private (h_cl h k)). change (freeing (view h k)) with (freeing (h_cl h k)). fold (pg p). rewrite P. clear. lia.
Qed.

Lemma sum_slack (G : Prop) (f g : Z -> Z) l : (forall k, In k l -> exists o, 0 <= o /\ (G -> o = 0) /\ f k = g k + o) ->
  exists o, 0 <= o /\ (G -> o = 0) /\ zsum (map f l) = zsum (map g l) + o.
Proof.
  induction l as [|k l IH]; intros H; [exists 0; cbn; split; [lia|split; [auto|lia]]|].
  destruct IH as (o1 & A1 & B1 & C1); [intros j Hj; apply H; right; assumption|]. destruct (H k (or_introl eq_refl)) as (o2 & A2 & B2 & C2).
  exists (o1 + o2). split; [lia|]. split; [intros K; rewrite B1, B2 by assumption; reflexivity|]. cbn [map]. rewrite !zsum_cons, C1, C2. lia.
Qed.

(** The bytes of all spans. *)
Lemma spans_total : zsum (map (fun t => HpaaProps.live_total (HeapPages.b_L (h_back h) t) * pg p) all_tags) = zsum (map (span_bytes p h) (all_ids p h)).
Proof.
  rewrite <- (sum_groups (span_bytes p h) (fun x => fst (h_desc h x)) all_tags (all_ids p h) tags_nd).
  - apply sum_ext. intros t Ht. unfold HpaaProps.live_total. rewrite (sum_perm _ _ _ (i_tag _ _ I t Ht)), map_map. unfold tag_ids, span_bytes.
    rewrite Z.mul_comm, <- sum_scale. apply sum_ext. intros; lia.
  - intros x Hx. apply (i_desc _ _ I x Hx).
Qed.

Lemma large_total : zsum (map (span_bytes p h) (large_ids (h_live h))) = zsum (map (usable p h) (filter (fun a => a_class a =? 0) (h_live h))).
Proof.
  unfold large_ids. rewrite map_map. apply sum_ext. intros a Ha. apply filter_In in Ha. unfold usable. destruct Ha as (_ & ->). reflexivity.
Qed.
Lemma small_total : zsum (map (fun k => csize p k * len (live_of k (h_live h))) (classes p)) = zsum (map (usable p h) (filter (fun a => negb (a_class a =? 0)) (h_live h))).
Proof.
  rewrite <- (sum_groups (usable p h) a_class (classes p) (filter _ _) (classes_nd p)).
  - apply sum_ext. intros k Hk. assert (k <> 0) by (intros ->; apply (zero_not_class p Hk)).
    assert (E : filter (fun a => a_class a =? k) (filter (fun a => negb (a_class a =? 0)) (h_live h)) = filter (fun a => a_class a =? k) (h_live h)).
    { clear - H. induction (h_live h) as [|a l IH]; [reflexivity|]. cbn [filter]. destruct (Z.eqb_spec (a_class a) 0) as [E0|], (Z.eqb_spec (a_class a) k) as [E1|]; cbn [negb filter]; rewrite ?IH; try congruence.
      - rewrite E1, Z.eqb_refl. reflexivity.
      - destruct (Z.eqb_spec (a_class a) k); congruence. }
    rewrite E. unfold live_of, len. rewrite map_length. fold (len (filter (fun a => a_class a =? k) (h_live h))). rewrite <- sum_const. apply sum_ext.
    intros a Ha. apply filter_In in Ha. destruct Ha as (_ & Ha). unfold usable. destruct (Z.eqb_spec (a_class a) 0); [lia|]. f_equal. lia.
  - intros a Ha. apply filter_In in Ha. destruct Ha as (Ha & Hz). destruct (i_small _ _ I a Ha ltac:(lia)) as (pol & P1 & P2 & P3 & P4).
    apply (small_class p pol (a_req a)); assumption.
Qed.
Lemma live_total_is : live_bytes p h = zsum (map (span_bytes p h) (large_ids (h_live h))) + zsum (map (fun k => csize p k * len (live_of k (h_live h))) (classes p)).
Proof.
  rewrite large_total, small_total. unfold live_bytes. rewrite !sum_filter, <- sum_plus. apply sum_ext. intros a _. destruct (a_class a =? 0); cbn [negb]; lia.
Qed.
Lemma class_spans_total : zsum (map (span_bytes p h) (class_ids p (h_cl h))) = zsum (map (fun k => cpages p k * pg p * len (y_ph (h_cl h k))) (classes p)).
Proof.
  unfold class_ids. rewrite sum_flat. apply sum_ext. intros k Hk. rewrite <- sum_const. apply sum_ext. intros x Hx. unfold span_bytes. destruct (i_ph _ _ I k x Hk Hx) as (-> & _). reflexivity.
Qed.

Lemma stray_central k : ~ In k (classes p) -> csize p k * central_length h k + central_overhead p h k = 0.
Proof.
  intros Hk. destruct (sr_cl _ _ (hreach_stray p h Hok R) k Hk) as (A & B & C). unfold central_length, central_overhead, cfl_length, overhead_bytes, num_spans. rewrite A, B, C.
  change (0 <? 0) with false. cbn match. destruct (csize p k =? 0); lia.
Qed.
Lemma stray_tcs k : ~ In k (classes p) -> tc_length h k = 0 /\ sharded_length h k = 0.
Proof.
  intros Hk. pose proof (sr_tc _ _ (hreach_stray p h Hok R) k Hk) as F. unfold tc_length, sharded_length. destruct (h_tc h k) as [|x l]; [auto|].
  inversion F; subst. split; [assumption|]. cbn [tl]. apply sum_zero. intros y Hy. rewrite Forall_forall in *. auto.
Qed.
Lemma class_sizes k : In k (classes p) -> 0 < csize p k.
Proof. intros Hk. destruct (classes_in p k Hok Hk) as (_ & Hc). pose proof (g_size _ _ _ (class_geom _ _ _ Hc)). lia. Qed.

Lemma caches_total meta ua uv nr : let s := extract p h meta ua uv nr in
  st_central s + st_transfer s + st_sharded s + st_percpu s =
  zsum (map (fun k => (csize p k * central_length h k + central_overhead p h k) + csize p k * tc_length h k + csize p k * sharded_length h k + csize p k * cpu_objects p (h_slab h) k) (classes p)).
Proof.
  intros s. unfold s, extract. cbn [st_central st_transfer st_sharded st_percpu]. pose proof (num_classes_pos p Hok) as Hn.
  rewrite (sum_all_classes p (fun k => csize p k * central_length h k + central_overhead p h k) Hn) by (intros; apply stray_central; assumption). rewrite !sum_plus.
  rewrite (sum_all_classes p (fun k => csize p k * tc_length h k) Hn) by (intros k Hk; destruct (stray_tcs k Hk) as (-> & _); lia).
  unfold sharded_bytes. rewrite (sum_all_classes p _ Hn) by (intros k Hk; destruct (stray_tcs k Hk) as (_ & ->); destruct (csize p k <=? 0); lia).
  rewrite used_is, (sum_classes p) by (intros k Hr Hk; rewrite (stray_cpu p h k Hok R Hr Hk); lia).
  f_equal. f_equal. apply sum_ext. intros k Hk. pose proof (class_sizes k Hk). destruct (Z.leb_spec (csize p k) 0); lia.
Qed.

Lemma pages_total meta ua uv nr : let s := extract p h meta ua uv nr in
  st_system s = st_free s + st_unmapped s + zsum (map (fun t => HpaaProps.live_total (HeapPages.b_L (h_back h) t) * pg p) all_tags) +
    zsum (map (fun t => HeapPages.q_P (p_q p) * HpaaProps.in_transit (HeapPages.b_hp (h_back h) t) (HeapPages.b_H (h_back h) t) (HeapPages.b_FL (h_back h) t) * pg p) all_tags) /\
  0 <= st_free s /\ 0 <= st_unmapped s.
Proof.
  intros s. unfold s, extract. cbn [st_system st_free st_unmapped]. unfold page_sum. pose proof Hok as (_ & _ & _ & _ & (HP & HK & _) & _). pose proof (pages_pos p Hok) as Hg.
  assert (E : forall t, In t all_tags -> fst (fst (page_stats p h t)) = snd (fst (page_stats p h t)) + snd (page_stats p h t) + HpaaProps.live_total (HeapPages.b_L (h_back h) t) +
     HeapPages.q_P (p_q p) * HpaaProps.in_transit (HeapPages.b_hp (h_back h) t) (HeapPages.b_H (h_back h) t) (HeapPages.b_FL (h_back h) t) /\
     0 <= snd (fst (page_stats p h t)) /\ 0 <= snd (page_stats p h t)).
  { intros t Ht. destruct (page_stats p h t) as ((sy & fr) & un) eqn:Es. destruct (HpaaProps.page_heap_stats _ _ _ _ _ _ _ _ sy fr un HP HK (HeapPages.bi_hp _ _ (i_back _ _ I) t Ht) Es) as (_ & A & _ & B & C). cbn [fst snd]. auto. }
  split; [|split; apply sum_nonneg; intros t Ht; destruct (E t Ht) as (_ & A & B); nia].
  rewrite <- !sum_plus. apply sum_ext. intros t Ht. destruct (E t Ht) as (-> & _). lia.
Qed.

Lemma balance meta ua uv nr : let s := extract p h meta ua uv nr in
  exists old, 0 <= old /\ (SlabRseq.glob (h_slab h) = SlabRseq.GNone -> old = 0) /\
  st_system s = st_free s + st_unmapped s + st_thread s + st_central s + st_transfer s + st_sharded s + st_percpu s +
    live_bytes p h + tail_bytes p h + in_calls p h + old.
Proof.
  intros s. destruct (sum_slack (SlabRseq.glob (h_slab h) = SlabRseq.GNone) (fun k => cpages p k * pg p * len (y_ph (h_cl h k)))
    (fun k => ((csize p k * central_length h k + central_overhead p h k) + csize p k * tc_length h k + csize p k * sharded_length h k + csize p k * cpu_objects p (h_slab h) k) +
       (csize p k * len (live_of k (h_live h)) + (class_in_calls p h k +
       (if cpages p k * pg p / csize p k =? 1 then (cpages p k * pg p - csize p k) * len (y_held (h_cl h k)) else 0)))) (classes p)) as (o & A & B & C).
  { intros k Hk. destruct (class_spans k Hk) as (o & A & B & E). exists o. split; [assumption|]. split; [assumption|]. rewrite E. clear. lia. }
  exists o. split; [assumption|]. split; [assumption|]. destruct (pages_total meta ua uv nr) as (E1 & _). fold s in E1. rewrite spans_total in E1.
  pose proof (caches_total meta ua uv nr) as E2. cbv zeta in E2. fold s in E2. unfold all_ids in E1. rewrite !map_app, !zsum_app, class_spans_total, C in E1.
  rewrite sum_plus, <- E2 in E1. rewrite !sum_plus in E1. fold (tail_bytes p h) in E1. pose proof live_total_is as E3. unfold in_calls. change (st_thread s) with 0.
  rewrite E1. rewrite E3. clear. lia.
Qed.

Lemma tail_nonneg : 0 <= tail_bytes p h.
Proof.
  apply sum_nonneg. intros k Hk. pose proof (class_sizes k Hk) as Hs. destruct (Z.eqb_spec (cpages p k * pg p / csize p k) 1) as [E|]; [|lia].
  apply Z.mul_nonneg_nonneg; [|apply len_nonneg]. pose proof (Z.div_mod (cpages p k * pg p) (csize p k) ltac:(lia)) as D. pose proof (Z.mod_pos_bound (cpages p k * pg p) (csize p k) ltac:(lia)). rewrite E in D. lia.
Qed.
Lemma span_nonneg x : In x (all_ids p h) -> 0 <= span_bytes p h x.
Proof.
  intros Hx. unfold span_bytes. pose proof (pages_pos p Hok).
  destruct (id_span p h x Hok I Hx) as (A & _). nia.
Qed.
End Balance.

Lemma in_calls_nonneg p h : hpar_ok p -> hreach p h -> 0 <= in_calls p h.
Proof.
  intros Hok R. unfold in_calls. pose proof (pages_pos p Hok) as Hg. pose proof Hok as (_ & _ & _ & _ & (HP & _) & _).
  assert (A : 0 <= zsum (map (class_in_calls p h) (classes p))).
  { apply sum_nonneg. intros k Hk. destruct (classes_in p k Hok Hk) as (_ & Hc). pose proof (g_pages _ _ _ (class_geom _ _ _ Hc)) as Hpp.
    pose proof (class_sizes p Hok k Hk) as Hs. unfold class_in_calls. apply Z.add_nonneg_nonneg.
    - apply Z.mul_nonneg_nonneg; [lia|]. unfold len. lia.
    - apply Z.mul_nonneg_nonneg; [|unfold len; lia]. nia. }
  assert (B : 0 <= zsum (map (span_bytes p h) (fresh_ids (h_fresh h)))).
  { apply sum_nonneg. intros x Hx. apply (span_nonneg p h Hok R). apply in_or_app. auto. }
  assert (C : 0 <= zsum (map (span_bytes p h) (h_ret h))).
  { apply sum_nonneg. intros x Hx. apply (span_nonneg p h Hok R). apply in_or_app. right. apply in_or_app. auto. }
  assert (D : 0 <= zsum (map (fun t => HeapPages.q_P (p_q p) * HpaaProps.in_transit (HeapPages.b_hp (h_back h) t) (HeapPages.b_H (h_back h) t) (HeapPages.b_FL (h_back h) t) * pg p) all_tags)).
  { apply sum_nonneg. intros t _. unfold HpaaProps.in_transit. apply Z.mul_nonneg_nonneg; [|lia]. apply Z.mul_nonneg_nonneg; lia. }
  lia.
Qed.
Lemma in_calls_idle p h : idle p h -> in_calls p h = 0.
Proof.
  intros [A _ (B1 & B2) C]. unfold in_calls. rewrite B1, B2. cbn [fresh_ids map]. change (zsum []) with 0.
  rewrite (sum_zero (class_in_calls p h)), sum_zero.
  - reflexivity.
  - intros t Ht. destruct (C t Ht) as (-> & -> & E). unfold HpaaProps.in_transit. rewrite E. cbn. lia.
  - intros k Hk. destruct (A k Hk) as (E1 & E2 & E3 & E4). unfold class_in_calls, private, freeing. rewrite E1, E2, E3.
    assert (E : flat_map (fun x => flat_map TransferCacheProps.held (snd x)) (h_tc h k) = []).
    { clear - E4. induction E4 as [|x l Hx Hl IH]; [reflexivity|]. cbn [flat_map]. rewrite Hx, IH. reflexivity. }
    rewrite E. cbn [flat_map]. change (len (@nil Z)) with 0. rewrite !Z.add_0_r, !Z.mul_0_r. reflexivity.
Qed.

Lemma stats_nonneg p h meta ua uv nr : hpar_ok p -> hreach p h -> let s := extract p h meta ua uv nr in
  0 <= st_thread s /\ 0 <= st_central s /\ 0 <= st_transfer s /\ 0 <= st_percpu s /\ 0 <= st_sharded s.
Proof.
  intros Hok R s. unfold s, extract. cbn [st_thread st_central st_transfer st_percpu st_sharded]. pose proof (hreach_inv p h Hok R) as I. pose proof (num_classes_pos p Hok) as Hn.
  assert (T : forall k, 0 <= tc_length h k /\ 0 <= sharded_length h k).
  { intros k. pose proof (i_tc _ _ I k) as F. unfold HeapCaches.tcs_ok in F. rewrite Forall_forall in F. assert (U : forall x, In x (h_tc h k) -> 0 <= TransferCache.t_used (fst x)) by (intros x Hx; destruct (F x Hx) as ((A & _) & _); lia).
    unfold tc_length, sharded_length. destruct (h_tc h k) as [|x l]; [cbn; lia|]. split; [apply U; left; reflexivity|]. cbn [tl]. apply sum_nonneg. intros z Hz. apply U. right. assumption. }
  split; [lia|]. split; [|split; [|split]].
  - rewrite (sum_all_classes p _ Hn) by (intros; apply stray_central; assumption). apply sum_nonneg. intros k Hk. destruct (classes_in p k Hok Hk) as (_ & Hc).
    destruct (length_nonneg _ _ _ _ Hc (i_class _ _ I k Hk)) as (A & B). pose proof (class_sizes p Hok k Hk) as Hs. unfold central_length, central_overhead. destruct (Z.eqb_spec (csize p k) 0); [lia|].
    apply Z.add_nonneg_nonneg; [|exact B]. apply Z.mul_nonneg_nonneg; [lia|exact A].
  - rewrite (sum_all_classes p _ Hn) by (intros k Hk; destruct (stray_tcs p h Hok R k Hk) as (-> & _); lia). apply sum_nonneg. intros k Hk. pose proof (class_sizes p Hok k Hk). destruct (T k). nia.
  - rewrite used_is, (sum_classes p) by (intros k Hr Hk; rewrite (stray_cpu p h k Hok R Hr Hk); lia). apply sum_nonneg. intros k Hk. pose proof (class_sizes p Hok k Hk).
    apply Z.mul_nonneg_nonneg; [lia|]. unfold cpu_objects. destruct (0 <? k); [|lia]. apply sum_nonneg. intros c _. unfold cpu_length, Slab.slab_length. destruct (SlabRseq.populated _ _); lia.
  - unfold sharded_bytes. apply sum_nonneg. intros k _. destruct (T k). destruct (Z.leb_spec (csize p k) 0); nia.
Qed.

Lemma usable_nonneg p h : hpar_ok p -> hreach p h -> forall a, In a (h_live h) -> 0 <= usable p h a.
Proof.
  intros Hok R a Ha. unfold usable. destruct (Z.eqb_spec (a_class a) 0) as [E0|E0].
  - apply (span_nonneg p h Hok R (a_id a)). apply in_or_app. right. apply in_or_app. right. apply in_or_app. left. unfold large_ids. apply in_map. apply filter_In. split; [assumption|lia].
  - destruct (i_small _ _ (hreach_inv p h Hok R) a Ha E0) as (pol & P1 & _ & P3 & P4). destruct (small_class p pol (a_req a) (a_class a) Hok P1 P3 P4) as (Hk & _). pose proof (class_sizes p Hok _ Hk). lia.
Qed.

(** ** The theorems

    At any moment, every byte that the page heaps got from the system is counted as free, as returned to the system, in one of
    the caches, or it belongs to a live object, or to a call in progress (the objects and pages in its hands; while the per-CPU
    caches are resized, [old] bytes in the old ones).  One more thing is in none of the reported numbers: the rest of a span
    that has a single object. *)
Theorem statistics_balance : forall p h meta ua uv nr, hpar_ok p -> hreach p h ->
  let s := extract p h meta ua uv nr in
  exists old, 0 <= old /\ (SlabRseq.glob (h_slab h) = SlabRseq.GNone -> old = 0) /\
  st_system s = (st_free s + st_unmapped s) + (st_thread s + st_central s + st_transfer s + st_sharded s + st_percpu s) +
    live_bytes p h + tail_bytes p h + in_calls p h + old /\
  0 <= in_calls p h /\ 0 <= tail_bytes p h /\ 0 <= st_free s /\ 0 <= st_unmapped s /\
  0 <= st_thread s /\ 0 <= st_central s /\ 0 <= st_transfer s /\ 0 <= st_percpu s /\ 0 <= st_sharded s.
Proof.
  intros p h meta ua uv nr Hok R s. destruct (balance p h Hok R meta ua uv nr) as (o & A & B & C). fold s in C. exists o.
  destruct (pages_total p h Hok R meta ua uv nr) as (_ & F & U). fold s in F, U.
  split; [assumption|]. split; [assumption|]. split; [lia|]. split; [apply in_calls_nonneg; assumption|]. split; [apply tail_nonneg; assumption|]. split; [assumption|]. split; [assumption|]. apply stats_nonneg; assumption.
Qed.
Print Assumptions statistics_balance.

(** So the reported number of bytes in use by the program is never cut off at 0, and never less than what the program has. *)
Theorem in_use_at_least : forall p h meta ua uv nr, hpar_ok p -> hreach p h ->
  let s := extract p h meta ua uv nr in
  in_use_by_app s = st_system s - (st_thread s + st_central s + st_transfer s + st_percpu s + st_sharded s + st_free s + st_unmapped s) /\
  live_bytes p h <= in_use_by_app s.
Proof.
  intros p h meta ua uv nr Hok R s. destruct (statistics_balance p h meta ua uv nr Hok R) as (o & A & _ & C & D & E & F & G & _). fold s in C, F, G.
  assert (L : 0 <= live_bytes p h) by (apply sum_nonneg; intros a Ha; apply (usable_nonneg p h Hok R a Ha)).
  unfold in_use_by_app, stat_sub. match goal with |- context [?b <=? ?a] => destruct (Z.leb_spec b a) as [Hl|Hl] end; split; try lia.
Qed.
Print Assumptions in_use_at_least.

(** With no call in progress it is exactly what the program has: the sum over the live objects of the bytes the program may use
    (malloc_usable_size). *)
Theorem in_use_exact : forall p h meta ua uv nr, hpar_ok p -> hreach p h -> idle p h -> no_tail p ->
  in_use_by_app (extract p h meta ua uv nr) = zsum (map (usable p h) (h_live h)).
Proof.
  intros p h meta ua uv nr Hok R Id Nt. set (s := extract p h meta ua uv nr). destruct (statistics_balance p h meta ua uv nr Hok R) as (o & A & B & C & _). fold s in C.
  destruct (in_use_at_least p h meta ua uv nr Hok R) as (E & _). fold s in E. rewrite E. rewrite (in_calls_idle p h Id), (B (id_slab _ _ Id)) in C.
  assert (T : tail_bytes p h = 0).
  { apply sum_zero. intros k Hk. destruct (Z.eqb_spec (cpages p k * pg p / csize p k) 1) as [Ek|]; [|reflexivity]. rewrite (Nt k Hk Ek). lia. }
  fold (live_bytes p h). lia.
Qed.
Print Assumptions in_use_exact.

(** For any table: the difference is the rests of the spans that have a single object. *)
Theorem in_use_with_tails : forall p h meta ua uv nr, hpar_ok p -> hreach p h -> idle p h ->
  in_use_by_app (extract p h meta ua uv nr) = zsum (map (usable p h) (h_live h)) +
    zsum (map (fun k => if cpages p k * pg p / csize p k =? 1 then (cpages p k * pg p - csize p k) * len (y_held (h_cl h k)) else 0) (classes p)).
Proof.
  intros p h meta ua uv nr Hok R Id. set (s := extract p h meta ua uv nr). destruct (statistics_balance p h meta ua uv nr Hok R) as (o & A & B & C & _). fold s in C.
  destruct (in_use_at_least p h meta ua uv nr Hok R) as (E & _). fold s in E. rewrite E. rewrite (in_calls_idle p h Id), (B (id_slab _ _ Id)) in C.
  fold (live_bytes p h). fold (tail_bytes p h). lia.
Qed.
Print Assumptions in_use_with_tails.

Lemma sum_one (f g : Z -> Z) t l : NoDup l -> In t l -> (forall x, In x l -> x <> t -> f x = g x) -> zsum (map f l) = zsum (map g l) + (f t - g t).
Proof.
  intros N H E. induction l as [|a l IH]; [destruct H|]. inversion N as [|? ? Na Nl]; subst. cbn [map]. rewrite !zsum_cons. destruct H as [->|H].
  - rewrite (sum_ext f g l); [lia|]. intros x Hx. apply E; [right; assumption|]. intros ->. contradiction.
  - rewrite (E a (or_introl eq_refl)) by (intros ->; contradiction). rewrite IH; [lia|assumption|assumption|]. intros x Hx. apply E. right. assumption.
Qed.

(** A release of one of the page heaps moves what it returns to the system from the free to the unmapped bytes, and changes
    no other number: unmapped grows by the pages the release reports, less those that the page heap had returned before
    without reporting them. *)
Theorem release_moves_to_unmapped : forall p h h' t n adaptive subrelease max_cold len_max v ans from_partial skip r meta ua uv nr, hpar_ok p -> hreach p h -> In t all_tags ->
  0 <= n -> 0 <= Hpaa.v_size_min v ->
  Hpaa.hp_release (HeapPages.q_P (p_q p)) (HeapPages.q_K (p_q p)) (HeapPages.q_sub (p_q p)) (HeapPages.b_hp (h_back h) t) n adaptive subrelease max_cold len_max v ans from_partial skip
    (HeapPages.b_hp (h_back h') t) r ->
  (forall t', t' <> t -> HeapPages.b_hp (h_back h') t' = HeapPages.b_hp (h_back h) t') ->
  let s := extract p h meta ua uv nr in let s' := extract p h' meta ua uv nr in
  st_system s' = st_system s /\ st_free s' + st_unmapped s' = st_free s + st_unmapped s /\ st_unmapped s <= st_unmapped s' /\
  st_unmapped s' = st_unmapped s + (r - (HpaaProps.unreported (HeapPages.b_hp (h_back h) t) - HpaaProps.unreported (HeapPages.b_hp (h_back h') t))) * pg p.
Proof.
  intros p h h' t n adaptive subrelease max_cold len_max v ans fp skip r meta ua uv nr Hok R Ht Hn Hv E Oth s s'.
  pose proof (hreach_inv p h Hok R) as I. pose proof Hok as (_ & _ & _ & _ & (HP & HK & _) & _). pose proof (pages_pos p Hok) as Hg.
  destruct (HpaaProps.page_release _ _ _ _ _ _ _ _ n adaptive subrelease max_cold len_max v ans fp skip _ r HP HK (HeapPages.bi_hp _ _ (i_back _ _ I) t Ht) Hn Hv E) as (Rp & _).
  destruct (page_stats p h t) as ((sy & fr) & un) eqn:Es. destruct (page_stats p h' t) as ((sy' & fr') & un') eqn:Es'.
  destruct (Rp sy fr un sy' fr' un' Es Es') as (A & B & C & D & _).
  assert (Q : forall f, page_sum p h' f = page_sum p h f + (f (page_stats p h' t) * pg p - f (page_stats p h t) * pg p)).
  { intros f. unfold page_sum. apply (sum_one (fun t => f (page_stats p h' t) * pg p) (fun t => f (page_stats p h t) * pg p) t all_tags tags_nd Ht). intros x _ Hx. unfold page_stats. rewrite (Oth x Hx). reflexivity. }
  unfold s, s', extract. cbn [st_system st_free st_unmapped]. rewrite !Q, Es, Es'. cbn [fst snd]. subst sy'.
  split; [lia|]. split; [nia|]. split; nia.
Qed.
Print Assumptions release_moves_to_unmapped.

(** The memory that the heap occupies is what the program has in use and what the allocator keeps for other reasons, and the
    other numbers agree with them. *)
Theorem physical_is_in_use_and_external : forall p h meta ua uv nr, hpar_ok p -> hreach p h -> 0 <= meta -> 0 <= ua -> 0 <= uv -> 0 <= nr ->
  let s := extract p h meta ua uv nr in
  physical_memory_used s = in_use_by_app s + external_bytes s /\
  virtual_memory_used s = physical_memory_used s + unmapped_bytes s /\
  physical_memory_used s = required_bytes s + st_free s /\
  heap_size_bytes s = in_use_by_app s + local_bytes s + st_central s + st_transfer s + st_free s /\
  st_system s = heap_size_bytes s + st_unmapped s /\ slack_bytes s <= st_system s.
Proof.
  intros p h meta ua uv nr Hok R H1 H2 H3 H4 s. destruct (statistics_balance p h meta ua uv nr Hok R) as (o & A & _ & C & D & E & F & G & N1 & N2 & N3 & N4 & N5). fold s in C, F, G, N1, N2, N3, N4, N5.
  destruct (in_use_at_least p h meta ua uv nr Hok R) as (U & L). fold s in U, L.
  assert (Lp : 0 <= live_bytes p h).
  { apply sum_nonneg. intros a Ha. apply (usable_nonneg p h Hok R a Ha). }
  rewrite U. change (st_meta s) with meta. unfold heap_size_bytes, required_bytes, physical_memory_used, unmapped_bytes, virtual_memory_used, external_bytes, local_bytes, slack_bytes, stat_sub.
  change (st_meta s) with meta. change (st_unalloc s) with ua. change (st_unavail s) with uv. change (st_nonres s) with nr.
  destruct (Z.leb_spec (st_unmapped s + nr) (st_system s + meta + ua + uv + nr)); [|lia].
  destruct (Z.leb_spec (st_free s) (st_system s + meta + ua + uv + nr - (st_unmapped s + nr))); [|lia].
  destruct (Z.leb_spec (st_unmapped s) (st_system s)); [|lia]. repeat split; lia.
Qed.
Print Assumptions physical_is_in_use_and_external.

(** The reported number of free objects of a class: with no call in progress, all objects of the spans that the class has from
    the page heap, but the live ones. *)
Theorem class_count_exact : forall p h k, hpar_ok p -> hreach p h -> idle p h -> In k (classes p) -> 1 < cpages p k * pg p / csize p k ->
  class_count p h k = (cpages p k * pg p / csize p k) * len (y_ph (h_cl h k)) - len (live_of k (h_live h)) /\ 0 <= class_count p h k.
Proof.
  intros p h k Hok R Id Hk H1. pose proof (hreach_inv p h Hok R) as I. destruct (classes_in p k Hok Hk) as (Hr & Hc).
  destruct (i_class _ _ I k Hk) as [(_ & Rc)|(E & _)]; [|unfold pg in H1; lia]. destruct (id_hands _ _ Id k Hk) as (E1 & E2 & E3 & E4).
  destruct (cfl_statistics _ _ _ _ Hc H1 Rc) as (A & B & _). cbv zeta in A, B.
  assert (Ei : in_use (view h k) = y_held (h_cl h k)) by (unfold in_use; change (y_pend (view h k)) with (y_pend (h_cl h k)); rewrite E3; apply app_nil_r).
  assert (Ep : published (view h k) = y_ph (h_cl h k)).
  { unfold published, private, freeing. change (y_pend (view h k)) with (y_pend (h_cl h k)). rewrite E3. cbn [flat_map app]. change (y_ph (view h k)) with (y_ph (h_cl h k)).
    clear. induction (y_ph (h_cl h k)) as [|x l IH]; [reflexivity|]. cbn. f_equal. exact IH. }
  rewrite Ei in B. rewrite Ep in A. rewrite A in B. destruct (i_acct _ _ I) as (Rg & HR & P). specialize (P k Hk). apply len_perm in P. rewrite !len_app, (tcs_len p h k Hok R), E1, E2 in P.
  destruct (cpu_objects_are p (h_slab h) (h_tr h) Rg k (i_slab _ _ I) HR ltac:(lia)) as (Q1 & Q2). rewrite Q1, (Q2 (id_slab _ _ Id)) in P.
  assert (Ef : flat_map (fun x => flat_map TransferCacheProps.held (snd x)) (h_tc h k) = []).
  { clear - E4. induction E4 as [|x l Hx Hl IH]; [reflexivity|]. cbn [flat_map]. rewrite Hx, IH. reflexivity. }
  rewrite Ef in P. change (len (@nil Z)) with 0 in P. split.
  - unfold class_count, central_length. change (cfl_length (y_f (view h k))) with (cfl_length (y_f (h_cl h k))) in B. rewrite B. fold (len (y_ph (h_cl h k))). fold (len (y_held (h_cl h k))). rewrite P. unfold pg. lia.
  - destruct (length_nonneg _ _ _ _ Hc (i_class _ _ I k Hk)) as (N & _). change (cfl_length (y_f (view h k))) with (cfl_length (y_f (h_cl h k))) in N. unfold class_count, central_length.
    pose proof (i_tc _ _ I k) as F. unfold HeapCaches.tcs_ok in F. rewrite Forall_forall in F.
    assert (0 <= tc_length h k /\ 0 <= sharded_length h k).
    { assert (U : forall x, In x (h_tc h k) -> 0 <= TransferCache.t_used (fst x)) by (intros x Hx; destruct (F x Hx) as ((Q & _) & _); lia).
      unfold tc_length, sharded_length. destruct (h_tc h k) as [|x l]; [cbn; lia|]. split; [apply U; left; reflexivity|]. cbn [tl]. apply sum_nonneg. intros z Hz. apply U. right. assumption. }
    assert (0 <= cpu_objects p (h_slab h) k).
    { unfold cpu_objects. destruct (0 <? k); [|lia]. apply sum_nonneg. intros c _. unfold cpu_length, Slab.slab_length. destruct (SlabRseq.populated _ _); lia. }
    lia.
Qed.
Print Assumptions class_count_exact.
