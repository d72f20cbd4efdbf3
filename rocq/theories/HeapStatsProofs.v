(** What the reported numbers count (HeapStats.v). *)
From Coq Require Import Permutation.
From Verif Require HeapCaches Hpaa HpaaProofs HpaaProps SysAlloc SysAllocProps HeapPages Slab SlabProps SlabRseq SlabRseqProofs TransferCache TransferCacheProps.
From Verif Require Import Base SizeMap SizeMapProofs SizeMapProofs2 FrontApi Bitmap Span SpanProofs SpanProofs2 SpanProps CentralFreeList CFLProofs CFLProofs3 CFLProps HeapClass Heap HeapProofs HeapStats.

Definition len {A} (l : list A) : Z := Z.of_nat (length l).
Lemma len_app {A} (a b : list A) : len (a ++ b) = len a + len b.
Proof. unfold len. rewrite app_length. lia. Qed.
Lemma len_perm {A} (a b : list A) : Permutation a b -> len a = len b.
Proof. intros H. unfold len. rewrite (Permutation_length H). reflexivity. Qed.
Lemma len_nonneg {A} (a : list A) : 0 <= len a. Proof. unfold len. lia. Qed.

(** ** Sums *)
Lemma sum_ext {A} (f g : A -> Z) l : (forall x, In x l -> f x = g x) -> zsum (map f l) = zsum (map g l).
Proof. intros H. f_equal. apply map_ext_in. assumption. Qed.
Lemma sum_plus {A} (f g : A -> Z) l : zsum (map (fun x => f x + g x) l) = zsum (map f l) + zsum (map g l).
Proof. induction l as [|x l IH]; [reflexivity|]. cbn [map]. rewrite !zsum_cons, IH. lia. Qed.
Lemma sum_scale {A} (f : A -> Z) (m : Z) l : zsum (map (fun x => m * f x) l) = m * zsum (map f l).
Proof. induction l as [|x l IH]; [cbn; lia|]. cbn [map]. rewrite !zsum_cons, IH. lia. Qed.
Lemma sum_zero {A} (f : A -> Z) l : (forall x, In x l -> f x = 0) -> zsum (map f l) = 0.
Proof. induction l as [|x l IH]; intros H; [reflexivity|]. cbn [map]. rewrite zsum_cons, (H x), IH; [reflexivity|intros y Hy; apply H; right; assumption|left; reflexivity]. Qed.
Lemma sum_nonneg {A} (f : A -> Z) l : (forall x, In x l -> 0 <= f x) -> 0 <= zsum (map f l).
Proof. induction l as [|x l IH]; intros H; [cbn; lia|]. cbn [map]. rewrite zsum_cons. pose proof (H x (or_introl eq_refl)). pose proof (IH (fun y Hy => H y (or_intror Hy))). lia. Qed.
Lemma sum_const {A} (m : Z) (l : list A) : zsum (map (fun _ => m) l) = m * len l.
Proof. unfold len. induction l as [|x l IH]; [cbn; lia|]. cbn [map length]. rewrite zsum_cons, IH. lia. Qed.
Lemma sum_filter {A} (f : A -> Z) (q : A -> bool) l : zsum (map f (filter q l)) = zsum (map (fun x => if q x then f x else 0) l).
Proof. induction l as [|x l IH]; [reflexivity|]. cbn [filter map]. rewrite zsum_cons. destruct (q x); cbn [map]; rewrite ?zsum_cons, IH; lia. Qed.
Lemma sum_swap {A B} (f : A -> B -> Z) l m : zsum (map (fun x => zsum (map (f x) m)) l) = zsum (map (fun y => zsum (map (fun x => f x y) l)) m).
Proof.
  induction l as [|x l IH]; [cbn [map]; symmetry; apply sum_zero; reflexivity|]. cbn [map]. rewrite zsum_cons, IH.
  rewrite <- sum_plus. apply sum_ext. intros y _. cbn [map]. rewrite zsum_cons. reflexivity.
Qed.
Lemma sum_flat {A B} (w : B -> Z) (f : A -> list B) l : zsum (map w (flat_map f l)) = zsum (map (fun x => zsum (map w (f x))) l).
Proof. induction l as [|x l IH]; [reflexivity|]. cbn [flat_map map]. rewrite map_app, zsum_app, zsum_cons, IH. reflexivity. Qed.
Lemma len_flat {A B} (f : A -> list B) l : len (flat_map f l) = zsum (map (fun x => len (f x)) l).
Proof. induction l as [|x l IH]; [reflexivity|]. cbn [flat_map map]. rewrite len_app, zsum_cons, IH. reflexivity. Qed.
Lemma sum_perm {A} (f : A -> Z) l l' : Permutation l l' -> zsum (map f l) = zsum (map f l').
Proof. intros H. apply HpaaProofs.zsum_perm. apply Permutation_map. assumption. Qed.

(** A sum can be taken group by group. *)
Lemma sum_one (f : Z -> Z) (K : list Z) x : NoDup K -> In x K -> zsum (map (fun k => if x =? k then f k else 0) K) = f x.
Proof.
  induction K as [|k K IH]; intros N H; [contradiction|]. inversion N; subst. cbn [map]. rewrite zsum_cons. destruct (Z.eqb_spec x k) as [->|Hne].
  - rewrite sum_zero; [lia|]. intros y Hy. destruct (Z.eqb_spec k y); [subst; contradiction|reflexivity].
  - destruct H as [->|H]; [congruence|]. rewrite IH by assumption. lia.
Qed.
Lemma sum_groups {A} (w : A -> Z) (f : A -> Z) (K : list Z) l : NoDup K -> (forall a, In a l -> In (f a) K) ->
  zsum (map (fun k => zsum (map w (filter (fun a => f a =? k) l))) K) = zsum (map w l).
Proof.
  intros N H. rewrite (sum_ext _ (fun k => zsum (map (fun a => if f a =? k then w a else 0) l))) by (intros; apply sum_filter).
  rewrite sum_swap. apply sum_ext. intros a Ha. apply (sum_one (fun _ => w a)); auto.
Qed.
(** Two lists without repetition, of which the first has all that counts. *)
Lemma sum_two {A} (dec : forall x y : A, {x = y} + {x <> y}) (g : A -> Z) R M : NoDup R -> NoDup M -> (forall x, ~ In x R -> g x = 0) ->
  zsum (map g R) = zsum (map g M) + zsum (map g (filter (fun x => if in_dec dec x M then false else true) R)).
Proof.
  intros NR NM H.
  assert (E : zsum (map g M) = zsum (map g (filter (fun x => if in_dec dec x R then true else false) M))).
  { rewrite sum_filter. apply sum_ext. intros x _. destruct (in_dec dec x R); [reflexivity|auto]. }
  assert (P : Permutation (filter (fun x => if in_dec dec x R then true else false) M) (filter (fun x => if in_dec dec x M then true else false) R)).
  { apply NoDup_Permutation; [apply NoDup_filter; assumption|apply NoDup_filter; assumption|]. intros x. rewrite !filter_In.
    destruct (in_dec dec x R), (in_dec dec x M); intuition discriminate. }
  rewrite E, (sum_perm g _ _ P), !sum_filter, <- sum_plus. apply sum_ext. intros x _. destruct (in_dec dec x M); lia.
Qed.

(** ** A central free list *)
Lemma one_counts c pages y : reach1 c pages y -> f_counter (z_f y) = 0 /\ f_requested (z_f y) = 0 /\ f_returned (z_f y) = 0.
Proof. induction 1; cbn; auto. Qed.

Lemma central_pages c size pages y : class_ok c size pages -> cgood c size pages y ->
  let held := len (y_held y) in
  pages * page_size c * len (y_ph y) =
    (size * cfl_length (y_f y) + overhead_bytes c size pages (y_f y)) + size * held +
    (size * len (flat_map pend_inserting (y_pend y)) + pages * page_size c * (len (private y) + len (freeing y))) +
    (if pages * page_size c / size =? 1 then (pages * page_size c - size) * held else 0).
Proof.
  intros Hc G held. destruct G as [(H1 & R)|(H1 & pend1 & E & R)].
  - destruct (cfl_statistics c size pages y Hc H1 R) as (A & B & C & _). cbv zeta in A, B, C.
    destruct (reach_inv c size pages y Hc H1 R) as (own & pub & L & I). pose proof (published_pub _ _ _ _ _ _ _ I) as Hp.
    pose proof (CFLProps.i_ph _ _ _ _ _ _ _ I) as P1. pose proof (CFLProps.i_own _ _ _ _ _ _ _ I) as P2.
    apply len_perm in P1. apply len_perm in P2. apply len_perm in Hp. rewrite len_app in P1, P2.
    destruct (Z.eqb_spec (pages * page_size c / size) 1); [lia|]. rewrite B, A, C. unfold in_use.
    fold (len (published y)). fold (len (y_held y ++ flat_map pend_inserting (y_pend y))). rewrite len_app. fold held.
    replace (len (y_ph y)) with (len (published y) + len (private y) + len (freeing y)) by lia.
    set (cnt := pages * page_size c / size). clear. nia.
  - destruct (one_counts _ _ _ R) as (A & B & C). cbn [z_f] in A, B, C.
    destruct (reach1_inv c pages _ ltac:(pose proof (g_pages _ _ _ (class_geom _ _ _ Hc)); lia) ltac:(pose proof (g_page _ _ _ (class_geom _ _ _ Hc)); lia) R) as (own & I).
    pose proof (len_perm _ _ (j_ph _ _ _ _ I)) as P1. pose proof (len_perm _ _ (j_held _ _ _ _ I)) as P2. cbn [z_ph z_held z_pend] in P1, P2.
    rewrite len_app in P1. unfold len in P2 at 2. rewrite map_length in P2. fold (len own) in P2. fold held in P2.
    rewrite H1. change (1 =? 1) with true. cbn match. unfold cfl_length, overhead_bytes, num_spans. rewrite A, B, C. change (0 <? 0) with false. cbn match.
    unfold private, freeing. rewrite E. rewrite freeing_map.
    assert (E1 : flat_map pend_inserting (map PFree pend1) = []) by (clear; induction pend1; [reflexivity|assumption]).
    assert (E2 : flat_map pend_private (map PFree pend1) = []) by (clear; induction pend1; [reflexivity|assumption]).
    rewrite E1, E2. change (len (@nil Z)) with 0. rewrite P1, P2. lia.
Qed.

(** The reported length is never negative. *)
Lemma length_nonneg c size pages y : class_ok c size pages -> cgood c size pages y -> 0 <= cfl_length (y_f y) /\ 0 <= overhead_bytes c size pages (y_f y).
Proof.
  intros Hc G. pose proof (g_size _ _ _ (class_geom _ _ _ Hc)) as Hsz. split.
  2:{ unfold overhead_bytes, num_spans. pose proof (Z.mod_pos_bound (pages * page_size c) size ltac:(lia)). destruct (Z.ltb_spec (f_requested (y_f y)) (f_returned (y_f y))); nia. }
  destruct G as [(H1 & R)|(H1 & pend1 & E & R)]; [|destruct (one_counts _ _ _ R) as (A & _); cbn [z_f] in A; unfold cfl_length; lia].
  destruct (reach_inv c size pages y Hc H1 R) as (own & pub & L & I). unfold cfl_length. rewrite (CFLProps.i_counter _ _ _ _ _ _ _ I).
  pose proof (len_perm _ _ (CFLProps.i_out _ _ _ _ _ _ _ I)) as P. unfold out, cat in P. rewrite <- flat_map_concat_map, len_flat, (sum_perm _ _ _ (CFLProps.i_own _ _ _ _ _ _ _ I)), map_app, zsum_app, len_app in P.
  assert (Hpend : len (flat_map pend_inserting (y_pend y)) + zsum (map (fun x => len (L x)) (private y)) <= len (flat_map pend_objs (y_pend y))).
  { pose proof (CFLProps.i_pend _ _ _ _ _ _ _ I) as Hp. unfold private. clear - Hp. induction Hp as [|x l Hx Hl IH]; [cbn; lia|]. cbn [flat_map]. rewrite map_app, zsum_app, !len_app.
    destruct x as [o room|o l0 id|q|ids]; cbn [pend_inserting pend_private pend_objs map] in *; rewrite ?zsum_cons; change (zsum []) with 0; change (len (@nil Z)) with 0.
    - pose proof (len_nonneg o). lia.
    - cbn in Hx. rewrite Hx, len_app. pose proof (len_nonneg o). lia.
    - lia.
    - lia. }
  assert (Hpub : zsum (map (fun x => len (L x)) pub) <= objects c size pages * len pub).
  { rewrite <- sum_const. pose proof (CFLProps.i_core _ _ _ _ _ _ _ I) as Co. assert (Hle : forall x, In x pub -> len (L x) <= objects c size pages).
    { intros x Hx. destruct (co_span _ _ _ _ _ _ _ Co x (co_incl _ _ _ _ _ _ _ Co x Hx)) as ((F & HP & _) & _). destruct (span_inv_facts _ _ _ _ _ _ Hc HP) as (_ & _ & E). unfold len. lia. }
    clear - Hle. induction pub as [|x l IH]; [cbn; lia|]. cbn [map]. rewrite !zsum_cons. pose proof (Hle x (or_introl eq_refl)). pose proof (IH (fun z Hz => Hle z (or_intror Hz))). lia. }
  fold (len pub). unfold in_use. fold (len (y_held y ++ flat_map pend_inserting (y_pend y))). rewrite len_app. lia.
Qed.

(** ** Classes that are not in use *)
Record stray (p : hpar) (h : heap) : Prop := {
  sr_cl : forall k, ~ In k (classes p) -> f_counter (y_f (h_cl h k)) = 0 /\ f_requested (y_f (h_cl h k)) = 0 /\ f_returned (y_f (h_cl h k)) = 0;
  sr_tc : forall k, ~ In k (classes p) -> Forall (fun x => TransferCache.t_used (fst x) = 0) (h_tc h k);
  sr_objs : exists R, HeapCaches.regions_of (num_classes (p_c p)) (h_tr h) R /\ forall k, 1 <= k < num_classes (p_c p) -> ~ In k (classes p) ->
     h_hands h k = [] /\ HeapCaches.slab_hands (p_nthr p) k (h_slab h) = [] /\ HeapCaches.slab_objs R (h_tr h) k = [] }.

Lemma hreach_stray p h : hpar_ok p -> hreach p h -> stray p h.
Proof.
  intros Hok R. induction R as [m sp ni pm tc s desc t0 mo Htc Hs Hi|h h' R IH S].
  - constructor.
    + intros k _. cbn. auto.
    + intros k _. cbn [heap_init h_tc]. eapply Forall_impl; [|apply Htc]. intros x (_ & cap & mx & _ & ->). reflexivity.
    + destruct (HeapCaches.slab_start (num_classes (p_c p))) as (A & B). exists []. split; [exact A|]. intros k Hk _. cbn [heap_init h_hands h_slab h_tr].
      split; [reflexivity|]. split; [|apply B]. unfold HeapCaches.slab_hands. clear - Hi. induction (zseq 0 (Z.to_nat (p_nthr p))) as [|t l IHl]; [reflexivity|].
      cbn [flat_map]. rewrite Hi. exact IHl.
  - pose proof (hreach_inv p h Hok R) as I. destruct IH as [A B C]. destruct S; try (constructor; assumption).
    + constructor; cbn [set_class h_cl h_tc h_hands h_slab h_tr].
      * intros j Hj. rewrite upd_other by (intros ->; contradiction). auto.
      * assumption.
      * destruct C as (Rg & C1 & C2). exists Rg. split; [assumption|]. intros j Hr Hj. rewrite upd_other by (intros ->; contradiction). auto.
    + constructor; cbn [set_tcs h_cl h_tc h_hands h_slab h_tr].
      * assumption.
      * intros j Hj. rewrite upd_other by (intros ->; contradiction). auto.
      * destruct C as (Rg & C1 & C2). exists Rg. split; [assumption|]. intros j Hr Hj. rewrite upd_other by (intros ->; contradiction). auto.
    + constructor; cbn [set_slab h_cl h_tc h_hands h_slab h_tr]; try assumption.
      destruct C as (Rg & C1 & C2). destruct (HeapCaches.slab_step _ _ _ _ _ _ Rg (i_slab _ _ I) H C1) as (Rg' & D1 & D2).
      exists Rg'. split; [assumption|]. intros j Hr Hj. destruct (C2 j Hr Hj) as (E1 & E2 & E3). specialize (D2 j Hr). specialize (H1 j Hr).
      rewrite E1, E2 in H1. rewrite E3 in D2. rewrite app_nil_r in D2. cbn [app] in H1.
      assert (P : Permutation (hands' j ++ HeapCaches.slab_hands (p_nthr p) j s' ++ HeapCaches.slab_objs Rg' (h_tr h ++ ls) j) []).
      { apply (Permutation_app_inv_l (HeapCaches.puts j ls)). rewrite app_nil_r. rewrite D2 at 2.
        rewrite H1. rewrite <- !app_assoc. rewrite Permutation_app_comm. rewrite <- !app_assoc. apply Permutation_app_head. apply Permutation_app_head. apply Permutation_app_comm. }
      apply Permutation_sym, Permutation_nil in P. apply app_eq_nil in P. destruct P as (P1 & P). apply app_eq_nil in P. destruct P as (P2 & P3). auto.
    + constructor; cbn [set_objs h_cl h_tc h_hands h_slab h_tr]; try assumption.
      destruct C as (Rg & C1 & C2). exists Rg. split; [assumption|]. intros j Hr Hj. destruct (small_class p pol size k Hok) as (Hk & _); try assumption.
      rewrite upd_other by (intros ->; contradiction). auto.
    + constructor; cbn [set_objs h_cl h_tc h_hands h_slab h_tr]; try assumption.
      destruct C as (Rg & C1 & C2). exists Rg. split; [assumption|]. intros j Hr Hj. destruct (i_sc0 _ _ I (a_ptr a / pg p)) as (k' & x & K1 & K2 & K3); [congruence|].
      pose proof (i_sc1 _ _ I k' x _ K1 K2 K3) as K4. rewrite upd_other by congruence. auto.
Qed.

(** ** The per-CPU caches *)
Lemma cpu_length_is ncpu nclass s tr c k : SlabRseq.reach ncpu nclass s tr -> SlabRseq.populated s c = true -> 1 <= k < nclass ->
  cpu_length s c k = len (fst (SlabRseqProofs.replay SlabRseqProofs.no_stacks tr (SlabRseq.cur s) c k)).
Proof.
  intros H Hp Hk. destruct (SlabRseqProofs.reach_inv _ _ _ _ H) as (_ & I). pose proof (SlabRseqProofs.i_lay _ _ _ _ I (SlabRseq.cur s)) as Hl.
  pose proof (SlabRseqProofs.i_ref _ _ _ _ I _ _ (SlabRseqProofs.i_pop _ _ _ _ I c Hp) k) as Hr.
  destruct Hl as (L1 & L2 & L3 & L4 & _). assert (Hc : SlabProps.is_class (SlabRseq.cfgs s (SlabRseq.cur s)) k) by (unfold SlabProps.is_class; lia).
  specialize (Hr Hc). unfold SlabProps.holds in Hr. destruct (SlabRseqProofs.replay _ _ _ _ _) as (l, cap). cbn [fst]. destruct Hr as (_ & Hr & _).
  unfold cpu_length, Slab.slab_length. rewrite Hr. rewrite (SlabProps.init_slabs_spec _ _ L2 L3 L4 k Hc). unfold len, SlabProps.zlen. lia.
Qed.

Definition pdec : forall x y : Z * Z, {x = y} + {x <> y}.
Proof. decide equality; apply Z.eq_dec. Defined.
(** The regions that the numbers are read from. *)
Definition live_regions (ncpu : Z) (s : SlabRseq.rst) : list (Z * Z) :=
  map (fun c => (SlabRseq.cur s, c)) (filter (SlabRseq.populated s) (zseq 0 (Z.to_nat ncpu))).
(** The others that contain objects: while the slab is replaced, those of the old one. *)
Definition old_regions (ncpu : Z) (s : SlabRseq.rst) (R : list (Z * Z)) : list (Z * Z) :=
  filter (fun x => if in_dec pdec x (live_regions ncpu s) then false else true) R.

Lemma cpu_objects_are p s tr R k : SlabRseq.reach (p_ncpu p) (num_classes (p_c p)) s tr -> HeapCaches.regions_of (num_classes (p_c p)) tr R ->
  1 <= k < num_classes (p_c p) ->
  len (HeapCaches.slab_objs R tr k) = cpu_objects p s k + len (HeapCaches.slab_objs (old_regions (p_ncpu p) s R) tr k) /\
  (SlabRseq.glob s = SlabRseq.GNone -> len (HeapCaches.slab_objs (old_regions (p_ncpu p) s R) tr k) = 0).
Proof.
  intros H (NR & HR) Hk. destruct (SlabRseqProofs.reach_inv _ _ _ _ H) as (_ & I).
  set (g := fun x : Z * Z => len (fst (SlabRseqProofs.replay SlabRseqProofs.no_stacks tr (fst x) (snd x) k))).
  assert (E : forall l, len (HeapCaches.slab_objs l tr k) = zsum (map g l)) by (intros l; apply len_flat). rewrite !E.
  assert (N : NoDup (live_regions (p_ncpu p) s)).
  { unfold live_regions. apply FinFun.Injective_map_NoDup; [intros x y Exy; congruence|]. apply NoDup_filter. apply zseq_NoDup. }
  split.
  - rewrite (sum_two pdec g R (live_regions (p_ncpu p) s) NR N).
    + f_equal. unfold live_regions. rewrite map_map, sum_filter. unfold cpu_objects. replace (0 <? k) with true by lia. apply sum_ext. intros c _.
      destruct (SlabRseq.populated s c) eqn:Ep; [|reflexivity]. unfold g. cbn [fst snd]. symmetry. apply (cpu_length_is (p_ncpu p) (num_classes (p_c p))); assumption.
    + intros (sl, c) Hx. unfold g. cbn [fst snd]. rewrite (HR sl c k Hk Hx). reflexivity.
  - intros Hg. apply sum_zero. intros (sl, c) Hx. apply filter_In in Hx. destruct Hx as (_ & Hx). destruct (in_dec pdec (sl, c) _) as [|Hn]; [discriminate|].
    unfold g. cbn [fst snd]. assert (Ee : SlabRseqProofs.empty_at (num_classes (p_c p)) (SlabRseqProofs.replay SlabRseqProofs.no_stacks tr sl c)).
    { destruct (Z.eq_dec sl (SlabRseq.cur s)) as [->|Hne].
      - apply (SlabRseqProofs.i_ecur _ _ _ _ I). destruct (SlabRseq.populated s c) eqn:Ep; [|reflexivity]. exfalso. apply Hn. unfold live_regions.
        apply in_map. apply filter_In. split; [|assumption]. pose proof (SlabRseqProofs.i_prng _ _ _ _ I c Ep). apply zseq_In. lia.
      - destruct (SlabRseqProofs.i_eold _ _ _ _ I sl c Hne) as [Ee|(todo & Et & _)]; [exact Ee|congruence]. }
    rewrite (Ee k Hk). reflexivity.
Qed.

Lemma used_is p s : total_used_bytes p s = zsum (map (fun k => csize p k * cpu_objects p s k) (zseq 1 (Z.to_nat (num_classes (p_c p) - 1)))).
Proof.
  unfold total_used_bytes, used_bytes.
  rewrite (sum_ext _ (fun c => zsum (map (fun k => if SlabRseq.populated s c then csize p k * cpu_length s c k else 0) (zseq 1 (Z.to_nat (num_classes (p_c p) - 1)))))).
  2:{ intros c _. destruct (SlabRseq.populated s c); [reflexivity|]. symmetry. apply sum_zero. reflexivity. }
  rewrite sum_swap. apply sum_ext. intros k Hk. apply zseq_In in Hk. unfold cpu_objects. replace (0 <? k) with true by lia. rewrite <- sum_scale. apply sum_ext. intros c _.
  destruct (SlabRseq.populated s c); lia.
Qed.

(** Nothing of a class that is not in use is in a per-CPU cache. *)
Lemma stray_cpu p h k : hpar_ok p -> hreach p h -> 1 <= k < num_classes (p_c p) -> ~ In k (classes p) -> cpu_objects p (h_slab h) k = 0.
Proof.
  intros Hok R Hk Hn. destruct (sr_objs _ _ (hreach_stray p h Hok R)) as (Rg & HR & HS). destruct (HS k Hk Hn) as (_ & _ & E).
  destruct (cpu_objects_are p (h_slab h) (h_tr h) Rg k (i_slab _ _ (hreach_inv p h Hok R)) HR Hk) as (A & _). rewrite E in A. change (len (@nil Z)) with 0 in A.
  pose proof (len_nonneg (HeapCaches.slab_objs (old_regions (p_ncpu p) (h_slab h) Rg) (h_tr h) k)).
  assert (0 <= cpu_objects p (h_slab h) k).
  { unfold cpu_objects. destruct (0 <? k); [|lia]. apply sum_nonneg. intros c _. unfold cpu_length, Slab.slab_length. destruct (SlabRseq.populated _ _); lia. }
  lia.
Qed.

(** ** Sums over the classes *)

Lemma sum_classes p (f : Z -> Z) : (forall k, 1 <= k < num_classes (p_c p) -> ~ In k (classes p) -> f k = 0) ->
  zsum (map f (zseq 1 (Z.to_nat (num_classes (p_c p) - 1)))) = zsum (map f (classes p)).
Proof.
  intros H. unfold classes. rewrite sum_filter. apply sum_ext. intros k Hk. destruct (class_used p k) eqn:E; [reflexivity|].
  pose proof Hk as Hk0. apply zseq_In in Hk. apply H; [lia|]. unfold classes. rewrite filter_In. intros (_ & E'). congruence.
Qed.
Lemma all_classes_cons p : 1 <= num_classes (p_c p) -> all_classes p = 0 :: zseq 1 (Z.to_nat (num_classes (p_c p) - 1)).
Proof. intros H. unfold all_classes. replace (Z.to_nat (num_classes (p_c p))) with (S (Z.to_nat (num_classes (p_c p) - 1))) by lia. reflexivity. Qed.
Lemma zero_not_class p : ~ In 0 (classes p).
Proof. unfold classes. rewrite filter_In. intros (H & _). apply zseq_In in H. lia. Qed.
Lemma sum_all_classes p (f : Z -> Z) : 1 <= num_classes (p_c p) -> (forall k, ~ In k (classes p) -> f k = 0) ->
  zsum (map f (all_classes p)) = zsum (map f (classes p)).
Proof.
  intros Hn H. rewrite all_classes_cons by assumption. cbn [map]. rewrite zsum_cons, (H 0 (zero_not_class p)), sum_classes; [lia|]. intros k _. apply H.
Qed.
