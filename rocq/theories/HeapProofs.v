(** The invariant of the whole allocator. *)
From Coq Require Import Permutation.
From Verif Require TransferCacheProps HeapCaches Hpaa HpaaProofs HpaaProps SysAlloc SysAllocProps HeapPages.
From Verif Require Import Base SizeMap SizeMapProofs SizeMapProofs2 SizeMapProps FrontApi Bitmap Span SpanProofs CentralFreeList CFLProps HeapClass Heap.

Ltac pcnt := TransferCacheProps.pcount.

(** ** Lists *)
Lemma perm_filter {A} (f : A -> bool) l l' : Permutation l l' -> Permutation (filter f l) (filter f l').
Proof.
  induction 1 as [|x l l' P IH|x y l|l l' l'' P1 IH1 P2 IH2]; cbn [filter].
  - constructor.
  - destruct (f x); [constructor|]; assumption.
  - destruct (f x), (f y); try reflexivity. constructor.
  - etransitivity; eassumption.
Qed.
Lemma flat_map_upd (f f' : Z -> list Z) k a b : forall R, NoDup R -> In k R -> (forall j, j <> k -> f' j = f j) ->
  Permutation (f' k ++ a) (b ++ f k) -> Permutation (flat_map f' R ++ a) (b ++ flat_map f R).
Proof.
  induction R as [|r R IH]; intros Hn Hi Ho P; [destruct Hi|]. inversion Hn as [|? ? N1 N2]; subst. cbn [flat_map]. destruct Hi as [->|Hi].
  - assert (E : flat_map f' R = flat_map f R).
    { clear - N1 Ho. induction R as [|x R IH]; [reflexivity|]. cbn [flat_map]. rewrite Ho, IH; [reflexivity| |].
      - intros Hx. apply N1. right. assumption.
      - intros ->. apply N1. left. reflexivity. }
    rewrite E. clear - P. pcnt.
  - specialize (IH N2 Hi Ho P). rewrite Ho by (intros ->; contradiction). clear - IH. pcnt.
Qed.
Lemma fop_pair {A B} (R : B -> B -> Prop) (f : A -> B) : (forall x y, R x y -> R y x) ->
  forall l x y, ForallOrdPairs R (map f l) -> In x l -> In y l -> x <> y -> R (f x) (f y).
Proof.
  intros S. induction l as [|z l IH]; intros x y F Hx Hy Hne; [destruct Hx|]. cbn [map] in F. inversion F as [|? ? F1 F2]; subst. rewrite Forall_forall in F1.
  destruct Hx as [->|Hx], Hy as [->|Hy]; [congruence| | |].
  - apply F1. apply in_map. assumption.
  - apply S. apply F1. apply in_map. assumption.
  - apply IH; assumption.
Qed.

(** ** The classes *)
Lemma classes_in p k : hpar_ok p -> In k (classes p) -> 1 <= k < num_classes (p_c p) /\ class_ok (p_c p) (csize p k) (cpages p k).
Proof.
  intros (Hc & _) H. unfold classes in H. apply filter_In in H. destruct H as (Hk & Hu). apply zseq_In in Hk. split; [lia|].
  unfold class_used in Hu. apply andb_true_iff in Hu. destruct Hu as (Hu & Hv). apply andb_true_iff in Hu. destruct Hu as (Hs & Hp).
  split; [assumption|]. split; [lia|]. split; [lia|]. eexists. exact Hv.
Qed.
Lemma classes_nd p : NoDup (classes p).
Proof. unfold classes. apply NoDup_filter. apply zseq_NoDup. Qed.

Lemma small_class p pol s k : hpar_ok p -> policy_ok (p_c p) pol -> 0 <= s -> get_size_class (p_c p) (p_m p) pol s = Small k ->
  In k (classes p) /\ s <= csize p k.
Proof.
  intros (Hc & Hf & Hv & Hm & _) Hp Hs Hg. set (c := p_c p) in *. set (t := p_t p) in *. set (m := p_m p) in *.
  destruct (Z.le_gt_cases (align pol) (page_size c)) as [Hal|Hal].
  2:{ rewrite get_size_class_not_small in Hg by auto. discriminate. }
  destruct (Z.le_gt_cases s (max_size c)) as [Hsm|Hgt].
  2:{ rewrite get_size_class_not_small in Hg by auto. discriminate. }
  assert (Hrange : 0 < k < num_classes c).
  { destruct (aligned_size_class_lookup c (p_active p) (p_full p) t m pol s Hc Hf Hv Hm Hp Hs) as (A & _).
    destruct (A Hal Hsm) as (cl & E & Hcl & _). congruence. }
  destruct (init_ok c (p_active p) (p_full p) t Hc Hf Hv) as (m' & Em & Hmo).
  assert (m' = m) by congruence. subst m'.
  destruct (get_size_class_spec c (p_active p) (p_full p) t m pol s Hc Hf Hv Hmo Hp Hal ltac:(lia))
    as (r & j & Hr & Hj & Hblk & Eg & Hsk & Halk & Hmin).
  assert (k = num_base c * r + j) by congruence. subst k.
  pose proof (valid_sizes_ok c t Hc Hf Hv) as Hok.
  assert (HLt : used_len c t <= tlen t).
  { unfold used_len. destruct (expanded c && (num_base c <? tlen t)) eqn:E; lia. }
  pose proof (so_pos _ _ _ Hok j Hj) as Hpos. cbv beta in Hpos.
  destruct (cfg_ok_facts c Hc) as (_ & Hnb & _ & _ & _ & Hpow & _).
  pose proof (is_pow2_pos _ Hpow) as Hpp.
  assert (Hve : valid_entry c (tnth t (j - 1)) (tnth t j) = true).
  { unfold valid_size_classes in Hv. fold (used_len c t) in Hv.
    destruct t as [|hd rest]; [discriminate|].
    destruct (negb (sz hd =? 0) || negb (bytes hd =? 0) || negb (ntm hd =? 0)); [discriminate|].
    apply andb_true_iff in Hv. destruct Hv as (Hent & _).
    pose proof (valid_entries_nth _ _ _ _ Hent (Z.to_nat (j - 1))) as HH.
    unfold tnth. replace (Z.to_nat j) with (S (Z.to_nat (j - 1))) by lia.
    apply HH; [lia|]. unfold tlen in HLt. cbn [length] in HLt. lia. }
  unfold valid_entry in Hve.
  destruct (Z.eqb_spec (bytes_to_length_floor c (bytes (tnth t j)) * page_size c) (bytes (tnth t j))) as [Eb|]; cbn [negb] in Hve; [|discriminate].
  destruct (sz (tnth t j) <=? sz (tnth t (j - 1))); [discriminate|].
  assert (E1 : csize p (num_base c * r + j) = sz (tnth t j)) by (apply (mo_size _ _ _ _ _ Hmo r j); lia).
  assert (E2 : cpages p (num_base c * r + j) = bytes_to_length_floor c (bytes (tnth t j))) by (apply (mo_pages _ _ _ _ _ Hmo r j); lia).
  assert (E3 : objects_to_move m (num_base c * r + j) = ntm (tnth t j)) by (apply (mo_ntm _ _ _ _ _ Hmo r j); lia).
  split; [|rewrite E1; exact Hsk].
  unfold classes. apply filter_In. split; [apply zseq_In; fold c; lia|].
  unfold class_used. fold c m. rewrite E1, E2, E3, Hve.
  apply is_valid_class_facts in Hve. destruct Hve as (V1 & V2 & V3 & V4 & V5 & V6 & V7 & V8 & V9 & V10).
  assert (Hge : 0 < bytes_to_length_floor c (bytes (tnth t j))).
  { destruct (Z.lt_ge_cases 0 (bytes_to_length_floor c (bytes (tnth t j)))) as [|Hle]; [assumption|].
    exfalso. assert (D : bytes_to_length_floor c (bytes (tnth t j)) * page_size c / sz (tnth t j) <= 0).
    { apply Z.div_le_upper_bound; nia. }
    lia. }
  destruct (Z.ltb_spec 0 (sz (tnth t j))), (Z.ltb_spec 0 (bytes_to_length_floor c (bytes (tnth t j)))); lia || reflexivity.
Qed.

(** ** The spans *)
Definition tag_ids (desc : Z -> Z * hspan) (t : Z) (ids : list Z) : list Z := filter (fun x => fst (desc x) =? t) ids.

Record hinv (p : hpar) (h : heap) : Prop := {
  i_class : forall k, In k (classes p) -> cgood (p_c p) (csize p k) (cpages p k) (view h k);
  i_nd : NoDup (all_ids p h);
  i_tag : forall t, SysAlloc.is_tag t ->
     Permutation (HeapPages.b_L (h_back h) t) (map (fun x => snd (h_desc h x)) (tag_ids (h_desc h) t (all_ids p h)));
  i_desc : forall x, In x (all_ids p h) -> SysAlloc.is_tag (fst (h_desc h x)) /\ first_page (g_span h x) = sp_page (snd (h_desc h x));
  i_ph : forall k x, In k (classes p) -> In x (y_ph (h_cl h k)) -> sp_len (snd (h_desc h x)) = cpages p k /\
     memory_tag_from_size_class (p_c p) (p_parts p) k = Some (fst (h_desc h x));
  i_fresh : forall id n al, In (id, n, al) (h_fresh h) -> 0 < n /\ sp_len (snd (h_desc h id)) = n /\ al <= HeapPages.q_P (p_q p) /\
     (1 < al -> (al | HeapPages.q_P (p_q p)) -> (al | sp_page (snd (h_desc h id)))) /\ g_pm h (sp_page (snd (h_desc h id))) = Some id;
  i_large : forall a, In a (h_live h) -> a_class a = 0 -> a_ptr a = sp_page (snd (h_desc h (a_id a))) * pg p /\
     0 <= a_req a <= sp_len (snd (h_desc h (a_id a))) * pg p /\ (a_align a | a_ptr a) /\ g_pm h (sp_page (snd (h_desc h (a_id a)))) = Some (a_id a) /\ fst (h_desc h (a_id a)) = a_tag a;
  i_small : forall a, In a (h_live h) -> a_class a <> 0 -> exists pol, policy_ok (p_c p) pol /\ align pol = a_align a /\ 0 <= a_req a /\
     get_size_class (p_c p) (p_m p) pol (a_req a) = Small (a_class a);
  i_sc1 : forall k x q, In k (classes p) -> In x (y_ph (h_cl h k)) ->
     sp_page (snd (h_desc h x)) <= q < sp_page (snd (h_desc h x)) + cpages p k -> g_sc h q = k;
  i_sc0 : forall q, g_sc h q <> 0 -> exists k x, In k (classes p) /\ In x (y_ph (h_cl h k)) /\
     sp_page (snd (h_desc h x)) <= q < sp_page (snd (h_desc h x)) + cpages p k;
  i_tc : forall k, HeapCaches.tcs_ok (h_tc h k);
  i_slab : SlabRseq.reach (p_ncpu p) (num_classes (p_c p)) (h_slab h) (h_tr h);
  i_idle : forall t, t < 0 \/ p_nthr p <= t -> SlabRseq.pcs (h_slab h) t = SlabRseq.Idle;
  i_acct : exists R, HeapCaches.regions_of (num_classes (p_c p)) (h_tr h) R /\ forall k, In k (classes p) ->
     Permutation (y_held (h_cl h k)) (h_hands h k ++ live_of k (h_live h) ++ HeapCaches.tcs_objs (h_tc h k) ++
       HeapCaches.slab_hands (p_nthr p) k (h_slab h) ++ HeapCaches.slab_objs R (h_tr h) k);
  i_back : HeapPages.binv (p_q p) (h_back h) }.

Definition sp_disj (s1 s2 : hspan) : Prop := sp_page s1 + sp_len s1 <= sp_page s2 \/ sp_page s2 + sp_len s2 <= sp_page s1.

(** Two spans have no common page. *)
Lemma apart_gen q b desc ids x y : HeapPages.bpar_ok q -> HeapPages.binv q b ->
  (forall t, SysAlloc.is_tag t -> Permutation (HeapPages.b_L b t) (map (fun x => snd (desc x)) (tag_ids desc t ids))) ->
  In x ids -> In y ids -> SysAlloc.is_tag (fst (desc x)) -> SysAlloc.is_tag (fst (desc y)) -> x <> y -> sp_disj (snd (desc x)) (snd (desc y)).
Proof.
  intros Hq I It Hx Hy Tx Ty Hne. pose proof (HeapPages.binv_facts _ _ Hq I) as F.
  assert (Hpos : 0 < HeapPages.q_pg q) by apply Hq.
  assert (Hd : disj (SysAllocProps.bytes (HeapPages.q_pg q) (snd (desc x))) (SysAllocProps.bytes (HeapPages.q_pg q) (snd (desc y)))).
  { destruct (Z.eq_dec (fst (desc x)) (fst (desc y))) as [E|E].
    - pose proof (HeapPages.bf_same _ _ F _ Tx) as D. apply (HeapPages.fop_perm _ disj_sym _ _ (Permutation_map _ (It _ Tx))) in D. rewrite map_map in D.
      apply (fop_pair disj (fun x => SysAllocProps.bytes (HeapPages.q_pg q) (snd (desc x))) disj_sym _ x y D).
      + apply filter_In. split; [assumption|lia].
      + apply filter_In. split; [assumption|lia].
      + assumption.
    - apply (HeapPages.bf_other _ _ F _ _ _ _ Tx Ty E).
      + apply (Permutation_in _ (Permutation_sym (It _ Tx))). apply in_map_iff. exists x. split; [reflexivity|]. apply filter_In. split; [assumption|lia].
      + apply (Permutation_in _ (Permutation_sym (It _ Ty))). apply in_map_iff. exists y. split; [reflexivity|]. apply filter_In. split; [assumption|lia]. }
  unfold disj, SysAllocProps.bytes in Hd. cbn [fst snd] in Hd. unfold sp_disj. nia.
Qed.
Lemma ids_apart p h x y : hpar_ok p -> hinv p h -> In x (all_ids p h) -> In y (all_ids p h) -> x <> y ->
  sp_disj (snd (h_desc h x)) (snd (h_desc h y)).
Proof.
  intros (_ & _ & _ & _ & Hq & Epg) I Hx Hy Hne.
  apply (apart_gen _ _ _ _ x y Hq (i_back _ _ I) (i_tag _ _ I) Hx Hy); [apply (i_desc _ _ I x Hx)|apply (i_desc _ _ I y Hy)|assumption].
Qed.
Lemma id_span p h x : hpar_ok p -> hinv p h -> In x (all_ids p h) ->
  0 < sp_len (snd (h_desc h x)) /\ SysAllocProps.tagged (fst (h_desc h x)) (SysAllocProps.bytes (pg p) (snd (h_desc h x))) /\
  SysAllocProps.user_space (SysAllocProps.bytes (pg p) (snd (h_desc h x))).
Proof.
  intros (_ & _ & _ & _ & Hq & Epg) I Hx. unfold pg. rewrite <- Epg. destruct (i_desc _ _ I x Hx) as (Tx & _).
  assert (Hi : In (snd (h_desc h x)) (HeapPages.b_L (h_back h) (fst (h_desc h x)))).
  { apply (Permutation_in _ (Permutation_sym (i_tag _ _ I _ Tx))). apply in_map_iff. exists x. split; [reflexivity|]. apply filter_In. split; [assumption|lia]. }
  pose proof (HeapPages.binv_facts _ _ Hq (i_back _ _ I)) as F. split; [apply (HeapPages.bf_pos _ _ F _ _ Tx Hi)|]. apply (HeapPages.bf_tag _ _ F _ _ Tx Hi).
Qed.

Lemma in_fresh p h id n al : In (id, n, al) (h_fresh h) -> In id (all_ids p h).
Proof. intros H. apply in_or_app. left. apply in_map_iff. exists (id, n, al). auto. Qed.
Lemma in_ret p h id : In id (h_ret h) -> In id (all_ids p h).
Proof. intros H. apply in_or_app. right. apply in_or_app. left. assumption. Qed.
Lemma in_large h a : In a (h_live h) -> a_class a = 0 -> In (a_id a) (large_ids (h_live h)).
Proof. intros H E. apply in_map. apply filter_In. split; [assumption|lia]. Qed.
Lemma in_large_all p h x : In x (large_ids (h_live h)) -> In x (all_ids p h).
Proof. intros H. apply in_or_app. right. apply in_or_app. right. apply in_or_app. left. assumption. Qed.
Lemma in_ph p h k x : In k (classes p) -> In x (y_ph (h_cl h k)) -> In x (class_ids p (h_cl h)).
Proof. intros Hk H. apply in_flat_map. exists k. auto. Qed.
Lemma in_class_all p h x : In x (class_ids p (h_cl h)) -> In x (all_ids p h).
Proof. intros H. apply in_or_app. right. apply in_or_app. right. apply in_or_app. right. assumption. Qed.

(** A span belongs to one user. *)
Lemma ph_one p h k1 k2 x : hinv p h -> In k1 (classes p) -> In k2 (classes p) -> In x (y_ph (h_cl h k1)) -> In x (y_ph (h_cl h k2)) -> k1 = k2.
Proof.
  intros I H1 H2 X1 X2. pose proof (i_nd _ _ I) as N. unfold all_ids in N. do 3 (apply SpanProofs2.NoDup_app_elim in N; destruct N as (_ & N & _)).
  unfold class_ids in N. revert N H1 H2. generalize (classes p). clear - X1 X2.
  induction l as [|j l IH]; intros N H1 H2; [destruct H1|]. cbn [flat_map] in N. apply SpanProofs2.NoDup_app_elim in N. destruct N as (_ & N2 & N3).
  destruct H1 as [->|H1], H2 as [->|H2]; auto.
  - exfalso. apply (N3 x X1). apply in_flat_map. eauto.
  - exfalso. apply (N3 x X2). apply in_flat_map. eauto.
Qed.
Lemma fresh_not_ph p h k x : hinv p h -> In k (classes p) -> In x (fresh_ids (h_fresh h)) -> ~ In x (y_ph (h_cl h k)).
Proof.
  intros I Hk Hx Hp. pose proof (i_nd _ _ I) as N. unfold all_ids in N. apply SpanProofs2.NoDup_app_elim in N. destruct N as (_ & _ & N).
  apply (N x Hx). apply in_or_app. right. apply in_or_app. right. apply (in_ph p h k); assumption.
Qed.
Lemma large_not_ph p h k x : hinv p h -> In k (classes p) -> In x (large_ids (h_live h)) -> ~ In x (y_ph (h_cl h k)).
Proof.
  intros I Hk Hx Hp. pose proof (i_nd _ _ I) as N. unfold all_ids in N. do 2 (apply SpanProofs2.NoDup_app_elim in N; destruct N as (_ & N & _)).
  apply SpanProofs2.NoDup_app_elim in N. destruct N as (_ & _ & N). apply (N x Hx). apply (in_ph p h k); assumption.
Qed.
Lemma fresh_not_large p h x : hinv p h -> In x (fresh_ids (h_fresh h)) -> ~ In x (large_ids (h_live h)).
Proof.
  intros I Hx Hp. pose proof (i_nd _ _ I) as N. unfold all_ids in N. apply SpanProofs2.NoDup_app_elim in N. destruct N as (_ & _ & N).
  apply (N x Hx). apply in_or_app. right. apply in_or_app. left. assumption.
Qed.

Lemma marks_in h n v sc q : forall ids, (exists x, In x ids /\ first_page (g_span h x) <= q < first_page (g_span h x) + n) -> marks h n v ids sc q = v.
Proof.
  induction ids as [|y ids IH]; intros (x & Hx & Hq); [destruct Hx|]. cbn [marks fold_right]. unfold mark at 1.
  destruct ((first_page (g_span h y) <=? q) && (q <? first_page (g_span h y) + n)) eqn:E; [reflexivity|]. destruct Hx as [->|Hx]; [lia|]. apply IH. eauto.
Qed.
Lemma marks_out h n v sc q : forall ids, (forall x, In x ids -> ~ (first_page (g_span h x) <= q < first_page (g_span h x) + n)) -> marks h n v ids sc q = sc q.
Proof.
  induction ids as [|y ids IH]; intros H; [reflexivity|]. cbn [marks fold_right]. unfold mark at 1. pose proof (H y (or_introl eq_refl)).
  destruct ((first_page (g_span h y) <=? q) && (q <? first_page (g_span h y) + n)) eqn:E; [lia|]. apply IH. intros x Hx. apply H. right. assumption.
Qed.

(** ** A step of a central free list *)
Lemma with_shared_same y : with_shared y (f_mem (y_f y)) (f_span (y_f y)) (f_nidx (y_f y)) (f_pagemap (y_f y)) = y.
Proof. destruct y as [[] ? ? ?]. reflexivity. Qed.

Lemma pages_pos p : hpar_ok p -> 0 < pg p.
Proof. intros (_ & _ & _ & _ & Hq & E). unfold pg. rewrite <- E. apply Hq. Qed.

Section Class.
Variables (p : hpar) (h : heap) (k : Z) (e : cev) (y' : sys) (hands' : list Z) (got rest : list (Z * Z * Z)) (tag : Z).
Hypothesis Hok : hpar_ok p.
Hypothesis I : hinv p h.
Hypothesis Hk : In k (classes p).
Hypothesis St : cstep (p_c p) (csize p k) (cpages p k) (view h k) e y'.
Hypothesis Hh : Permutation (h_hands h k ++ e_out e) (e_in e ++ hands').
Hypothesis Ht : memory_tag_from_size_class (p_c p) (p_parts p) k = Some tag.
Hypothesis Hf : Permutation (h_fresh h) (got ++ rest).
Hypothesis Eg : fresh_ids got = map fst (e_got e).
Hypothesis Hg : Forall (fun x => snd (fst x) = cpages p k /\ fst (h_desc h (fst (fst x))) = tag) got.
Hypothesis Hs : Forall (fun x => snd x = g_span h (fst x)) (e_got e).

Local Notation ph := (y_ph (h_cl h k)).
Local Notation gotids := (map fst (e_got e)).

Lemma got_spec x : In x gotids -> In x (fresh_ids (h_fresh h)) /\ sp_len (snd (h_desc h x)) = cpages p k /\ fst (h_desc h x) = tag.
Proof.
  intros Hx. rewrite <- Eg in Hx. apply in_map_iff in Hx. destruct Hx as (((id & n) & al) & <- & Hx). cbn [fst snd].
  rewrite Forall_forall in Hg. specialize (Hg _ Hx). cbn [fst snd] in Hg. destruct Hg as (A & B).
  assert (Hin : In (id, n, al) (h_fresh h)) by (apply (Permutation_in _ (Permutation_sym Hf)); apply in_or_app; left; assumption).
  split; [apply in_map_iff; exists (id, n, al); auto|]. destruct (i_fresh _ _ I _ _ _ Hin) as (_ & C & _). split; [congruence|assumption].
Qed.
Lemma got_ids x s0 : In (x, s0) (e_got e) -> In x gotids /\ s0 = g_span h x.
Proof.
  intros Hx. split; [apply in_map_iff; exists (x, s0); auto|]. rewrite Forall_forall in Hs. apply (Hs _ Hx).
Qed.
Lemma got_all x : In x gotids -> In x (all_ids p h).
Proof. intros Hx. apply in_or_app. left. apply got_spec. assumption. Qed.
Lemma ph_all x : In x ph -> In x (all_ids p h).
Proof. intros Hx. apply in_class_all. apply (in_ph p h k); assumption. Qed.
(** The pages of a span of the class and of a span obtained. *)
Lemma mine_range x : In x ph \/ In x gotids -> In x (all_ids p h) /\ first_page (g_span h x) = sp_page (snd (h_desc h x)) /\ sp_len (snd (h_desc h x)) = cpages p k.
Proof.
  intros H. assert (Ha : In x (all_ids p h)) by (destruct H; [apply ph_all|apply got_all]; assumption). split; [assumption|]. split; [apply (i_desc _ _ I); assumption|].
  destruct H as [H|H]; [apply (i_ph _ _ I k x Hk H)|apply got_spec; assumption].
Qed.
(** Pages of other spans are not among them. *)
Lemma other_page x q z : In x (all_ids p h) -> sp_page (snd (h_desc h x)) <= q < sp_page (snd (h_desc h x)) + sp_len (snd (h_desc h x)) ->
  In z ph \/ In z gotids -> z <> x -> ~ (first_page (g_span h z) <= q < first_page (g_span h z) + cpages p k).
Proof.
  intros Hx Hq Hz Hne. destruct (mine_range z Hz) as (A & -> & <-). pose proof (ids_apart p h z x Hok I A Hx Hne) as D. unfold sp_disj in D. lia.
Qed.
Lemma other_byte x a z : In x (all_ids p h) -> sp_page (snd (h_desc h x)) * pg p <= a < (sp_page (snd (h_desc h x)) + sp_len (snd (h_desc h x))) * pg p ->
  In z ph \/ In z gotids -> z <> x -> ~ in_pages (p_c p) (cpages p k) (first_page (g_span h z)) a.
Proof.
  intros Hx Hq Hz Hne. destruct (mine_range z Hz) as (A & -> & <-). pose proof (ids_apart p h z x Hok I A Hx Hne) as D. unfold sp_disj in D.
  pose proof (pages_pos p Hok) as Hpos. unfold in_pages. fold (pg p). nia.
Qed.

Lemma got_is_fresh : got_fresh (cpages p k) (view h k) e.
Proof.
  intros id s0 Hi. destruct (got_ids _ _ Hi) as (Hid & ->). destruct (got_spec _ Hid) as (A & _). pose proof (fresh_not_ph p h k id I Hk A) as N. split; [exact N|].
  intros x Hx. change (In x ph) in Hx. change (f_span (y_f (view h k)) x) with (g_span h x).
  destruct (mine_range x (or_introl Hx)) as (X1 & -> & X2). destruct (mine_range id (or_intror Hid)) as (Y1 & -> & Y2).
  assert (Hne : x <> id) by (intros ->; contradiction). pose proof (ids_apart p h x id Hok I X1 Y1 Hne) as D. unfold sp_disj in D. lia.
Qed.

Lemma class_frame : cframe (p_c p) (csize p k) (cpages p k) (view h k) e y' /\ cgood (p_c p) (csize p k) (cpages p k) y'.
Proof.
  pose proof (i_class _ _ I k Hk) as G. destruct (classes_in p k Hok Hk) as (_ & Hc). split.
  - apply (cstep_frame _ _ _ _ _ _ Hc G St got_is_fresh).
  - apply (cstep_good _ _ _ _ _ _ G St got_is_fresh).
Qed.

Lemma class_span_other x : ~ In x ph -> ~ In x gotids -> f_span (y_f y') x = g_span h x /\ f_nidx (y_f y') x = g_nidx h x.
Proof. intros A B. destruct class_frame as (F & _). apply (fr_span _ _ _ _ _ _ F x A B). Qed.
Lemma class_first x : first_page (f_span (y_f y') x) = first_page (g_span h x).
Proof.
  destruct class_frame as (F & _). destruct (in_dec Z.eq_dec x ph) as [A|A]; [apply (fr_first _ _ _ _ _ _ F x A)|].
  destruct (in_dec Z.eq_dec x gotids) as [B|B].
  - apply in_map_iff in B. destruct B as ((x' & s0) & <- & B). cbn [fst]. rewrite (fr_got _ _ _ _ _ _ F _ _ B). destruct (got_ids _ _ B) as (_ & ->). reflexivity.
  - destruct (class_span_other x A B) as (-> & _). reflexivity.
Qed.
(** A span of someone else is left alone. *)
Lemma class_pm_other x q : In x (all_ids p h) -> ~ In x ph -> ~ In x gotids ->
  sp_page (snd (h_desc h x)) <= q < sp_page (snd (h_desc h x)) + sp_len (snd (h_desc h x)) -> f_pagemap (y_f y') q = g_pm h q.
Proof.
  intros Hx A B Hq. destruct class_frame as (F & _). apply (fr_pm _ _ _ _ _ _ F).
  - intros z Hz. apply (other_page x q z Hx Hq (or_introl Hz)). intros ->. contradiction.
  - intros id s0 Hi. destruct (got_ids _ _ Hi) as (Hid & ->). apply (other_page x q id Hx Hq (or_intror Hid)). intros ->. contradiction.
Qed.
Lemma class_mem_other x a : In x (all_ids p h) -> ~ In x ph -> ~ In x gotids -> in_span_bytes p h x a -> f_mem (y_f y') a = g_mem h a.
Proof.
  intros Hx A B Hq. destruct class_frame as (F & _). apply (fr_mem _ _ _ _ _ _ F).
  - intros z Hz. apply (other_byte x a z Hx Hq (or_introl Hz)). intros ->. contradiction.
  - intros id s0 Hi. destruct (got_ids _ _ Hi) as (Hid & ->). apply (other_byte x a id Hx Hq (or_intror Hid)). intros ->. contradiction.
Qed.
Lemma rest_other id n al : In (id, n, al) rest -> In (id, n, al) (h_fresh h) /\ ~ In id ph /\ ~ In id gotids.
Proof.
  intros Hi. assert (Hin : In (id, n, al) (h_fresh h)) by (apply (Permutation_in _ (Permutation_sym Hf)); apply in_or_app; right; assumption).
  split; [assumption|]. split; [apply (fresh_not_ph p h k id I Hk); apply in_map_iff; exists (id, n, al); auto|].
  intros Hgo. rewrite <- Eg in Hgo. pose proof (i_nd _ _ I) as N. unfold all_ids in N. apply SpanProofs2.NoDup_app_elim in N. destruct N as (N & _).
  unfold fresh_ids in N. apply (Permutation_NoDup (Permutation_map _ Hf)) in N. rewrite map_app in N. apply SpanProofs2.NoDup_app_elim in N. destruct N as (_ & _ & N).
  apply (N id Hgo). apply in_map_iff. exists (id, n, al). auto.
Qed.
Lemma ret_other x : In x (h_ret h ++ large_ids (h_live h)) -> In x (all_ids p h) /\ ~ In x ph /\ ~ In x gotids.
Proof.
  intros Hx. pose proof (i_nd _ _ I) as N. unfold all_ids in *. rewrite (app_assoc (h_ret h)) in N |- *.
  apply SpanProofs2.NoDup_app_elim in N. destruct N as (_ & N1 & N2). split; [apply in_or_app; right; apply in_or_app; left; assumption|].
  apply SpanProofs2.NoDup_app_elim in N1. destruct N1 as (_ & _ & N3). split.
  - intros Hp. apply (N3 x Hx). apply (in_ph p h k); assumption.
  - intros Hgo. destruct (got_spec x Hgo) as (A & _). apply (N2 x A). apply in_or_app. left. assumption.
Qed.
Lemma other_class j x : In j (classes p) -> j <> k -> In x (y_ph (h_cl h j)) -> In x (all_ids p h) /\ ~ In x ph /\ ~ In x gotids.
Proof.
  intros Hj Hne Hx. split; [apply in_class_all; apply (in_ph p h j); assumption|]. split.
  - intros Hp. apply Hne. apply (ph_one p h j k x I Hj Hk Hx Hp).
  - intros Hgo. destruct (got_spec x Hgo) as (A & _). apply (fresh_not_ph p h j x I Hj A Hx).
Qed.

Lemma class_ids_step : Permutation (class_ids p (upd (h_cl h) k y') ++ e_gave e) (gotids ++ class_ids p (h_cl h)).
Proof.
  unfold class_ids. apply (flat_map_upd _ _ k); [apply classes_nd|assumption| |].
  - intros j Hj. rewrite upd_other by assumption. reflexivity.
  - rewrite upd_same. destruct class_frame as (F & _). apply (fr_ph _ _ _ _ _ _ F).
Qed.

Local Notation sc' := (marks h (cpages p k) k gotids (marks h (cpages p k) 0 (e_gave e) (g_sc h))).
Local Notation h' := (set_class h k y' sc' hands' rest (e_gave e ++ h_ret h)).

Lemma class_all : Permutation (all_ids p h') (all_ids p h).
Proof.
  unfold all_ids. cbn [set_class h_fresh h_ret h_live h_cl]. pose proof class_ids_step as P. pose proof (Permutation_map (fun x : Z * Z * Z => fst (fst x)) Hf) as Q.
  rewrite map_app in Q. fold (fresh_ids got) (fresh_ids rest) (fresh_ids (h_fresh h)) in Q. rewrite Eg in Q. clear - P Q. pcnt.
Qed.

Lemma gave_ph x : In x (e_gave e) -> In x ph \/ In x gotids.
Proof.
  intros Hx. destruct class_frame as (F & _). pose proof (Permutation_in x (fr_ph _ _ _ _ _ _ F)) as P.
  destruct (in_app_or _ _ _ (P (in_or_app _ _ _ (or_intror Hx)))); auto.
Qed.
Lemma ph_step x : In x (y_ph y') <-> (In x ph \/ In x gotids) /\ ~ In x (e_gave e).
Proof.
  destruct class_frame as (F & _). pose proof (fr_ph _ _ _ _ _ _ F) as P.
  assert (N : NoDup (gotids ++ ph)).
  { pose proof (i_nd _ _ I) as N. apply (Permutation_NoDup (Permutation_sym class_all)) in N. apply (Permutation_NoDup class_all) in N.
    apply SpanProofs2.NoDup_app_intro.
    - unfold all_ids in N. apply SpanProofs2.NoDup_app_elim in N. destruct N as (N & _). unfold fresh_ids in N.
      apply (Permutation_NoDup (Permutation_map _ Hf)) in N. rewrite map_app in N. apply SpanProofs2.NoDup_app_elim in N. destruct N as (N & _). rewrite <- Eg. exact N.
    - pose proof (i_class _ _ I k Hk) as G. destruct (classes_in p k Hok Hk) as (_ & Hc). apply (cf_nd _ _ _ _ (good_facts _ _ _ _ Hc G)).
    - intros z Hz. destruct (got_spec z Hz) as (A & _). apply (fresh_not_ph p h k z I Hk A). }
  apply (Permutation_NoDup (Permutation_sym P)) in N. apply SpanProofs2.NoDup_app_elim in N. destruct N as (_ & _ & N). split.
  - intros Hx. split; [|apply N; assumption]. destruct (in_app_or _ _ _ (Permutation_in x P (in_or_app _ _ _ (or_introl Hx)))); auto.
  - intros (Hx & Hn). assert (Hi : In x (gotids ++ ph)) by (apply in_or_app; tauto). apply (Permutation_in x (Permutation_sym P)) in Hi. apply in_app_or in Hi. tauto.
Qed.

Lemma step_class : hinv p h'.
Proof.
  destruct class_frame as (F & G'). pose proof class_all as Pa. constructor.
  - intros j Hj. unfold view. cbn [set_class h_cl g_mem g_span g_nidx g_pm]. unfold upd. destruct (Z.eqb_spec j k) as [->|Hne].
    + rewrite with_shared_same. exact G'.
    + apply (cgood_env _ _ _ (view h j)); [apply (i_class _ _ I j Hj)|]. intros id Hid. change (In id (y_ph (h_cl h j))) in Hid.
      destruct (other_class j id Hj Hne Hid) as (A & B & C). destruct (class_span_other id B C) as (E1 & E2).
      destruct (i_desc _ _ I id A) as (_ & E3). destruct (i_ph _ _ I j id Hj Hid) as (E4 & _).
      split; [exact E1|]. split; [exact E2|]. split; cbn [view with_shared y_f f_span f_pagemap f_mem].
      * intros q Hq. apply (class_pm_other id q A B C). rewrite E4, <- E3. exact Hq.
      * intros a Ha. apply (class_mem_other id a A B C). unfold in_span_bytes. rewrite E4, <- E3. exact Ha.
  - apply (Permutation_NoDup (Permutation_sym Pa)). apply (i_nd _ _ I).
  - intros t Htg. rewrite (i_tag _ _ I t Htg). apply Permutation_map. apply perm_filter. symmetry. exact Pa.
  - intros x Hx. apply (Permutation_in _ Pa) in Hx. destruct (i_desc _ _ I x Hx) as (A & B). split; [exact A|]. cbn [set_class g_span h_desc]. rewrite class_first. exact B.
  - intros j x Hj Hx. cbn [set_class h_cl h_desc] in *. unfold upd in Hx. destruct (Z.eqb_spec j k) as [->|Hne].
    + apply ph_step in Hx. destruct Hx as ([Hx|Hx] & _); [apply (i_ph _ _ I); assumption|]. destruct (got_spec x Hx) as (_ & A & ->). auto.
    + apply (i_ph _ _ I); assumption.
  - intros id n al Hi. cbn [set_class h_fresh h_desc g_pm] in *. destruct (rest_other _ _ _ Hi) as (A & B & C).
    destruct (i_fresh _ _ I _ _ _ A) as (D1 & D2 & D3 & D4 & D5). split; [assumption|]. split; [assumption|]. split; [assumption|]. split; [assumption|].
    rewrite (class_pm_other id); [assumption|apply (in_fresh p h id n al); assumption|assumption|assumption|lia].
  - intros a Ha E0. cbn [set_class h_live h_desc g_pm] in *. destruct (i_large _ _ I a Ha E0) as (D1 & D2 & D3 & D4).
    pose proof (in_large h a Ha E0) as Hl. destruct (ret_other (a_id a)) as (A & B & C); [apply in_or_app; right; assumption|].
    split; [assumption|]. split; [assumption|]. split; [assumption|].
    destruct (id_span p h _ Hok I A) as (Hlen & _).
    rewrite (class_pm_other (a_id a)); [assumption|assumption|assumption|assumption|lia].
  - exact (i_small _ _ I).
  - intros j x q Hj Hx Hq. cbn [set_class h_cl h_desc g_sc] in *. unfold upd in Hx. destruct (Z.eqb_spec j k) as [->|Hne].
    + apply ph_step in Hx. destruct Hx as (Hx & Hn). destruct (mine_range x Hx) as (X1 & X2 & X3). destruct Hx as [Hx|Hx].
      * rewrite marks_out. 2:{ intros z Hz. apply (other_page x q z X1); [lia|auto|]. intros ->. destruct (got_spec x Hz) as (A & _). apply (fresh_not_ph p h k x I Hk A Hx). }
        rewrite marks_out. 2:{ intros z Hz. apply (other_page x q z X1); [lia|apply gave_ph; assumption|]. intros ->. contradiction. }
        apply (i_sc1 _ _ I k x q Hk Hx Hq).
      * apply marks_in. exists x. split; [assumption|]. lia.
    + destruct (other_class j x Hj Hne Hx) as (A & B & C). destruct (i_ph _ _ I j x Hj Hx) as (E4 & _).
      rewrite marks_out. 2:{ intros z Hz. apply (other_page x q z A); [lia|auto|]. intros ->. contradiction. }
      rewrite marks_out. 2:{ intros z Hz. apply (other_page x q z A); [lia|apply gave_ph; assumption|]. intros ->. destruct (gave_ph x Hz); contradiction. }
      apply (i_sc1 _ _ I j x q Hj Hx Hq).
  - intros q Hq. cbn [set_class h_cl h_desc g_sc] in *.
    destruct (existsb (fun x => (first_page (g_span h x) <=? q) && (q <? first_page (g_span h x) + cpages p k)) gotids) eqn:Eg1.
    { apply existsb_exists in Eg1. destruct Eg1 as (x & Hx & Hr). exists k, x. rewrite upd_same. split; [assumption|].
      destruct (mine_range x (or_intror Hx)) as (X1 & X2 & X3). split; [|lia].
      apply ph_step. split; [auto|]. intros Hgv. rewrite marks_in in Hq by (exists x; split; [assumption|lia]).
      (* a span is not obtained and given back in one step *)
      destruct St; cbn [e_got e_gave map] in *; contradiction. }
    assert (N1 : forall x, In x gotids -> ~ (first_page (g_span h x) <= q < first_page (g_span h x) + cpages p k)).
    { intros x Hx Hr. apply Bool.not_true_iff_false in Eg1. apply Eg1. apply existsb_exists. exists x. split; [assumption|lia]. }
    rewrite marks_out in Hq by exact N1.
    destruct (existsb (fun x => (first_page (g_span h x) <=? q) && (q <? first_page (g_span h x) + cpages p k)) (e_gave e)) eqn:Eg2.
    { apply existsb_exists in Eg2. destruct Eg2 as (x & Hx & Hr). rewrite marks_in in Hq by (exists x; split; [assumption|lia]). contradiction. }
    assert (N2 : forall x, In x (e_gave e) -> ~ (first_page (g_span h x) <= q < first_page (g_span h x) + cpages p k)).
    { intros x Hx Hr. apply Bool.not_true_iff_false in Eg2. apply Eg2. apply existsb_exists. exists x. split; [assumption|lia]. }
    rewrite marks_out in Hq by exact N2. destruct (i_sc0 _ _ I q Hq) as (j & x & Hj & Hx & Hr). exists j, x. split; [assumption|]. split; [|assumption].
    unfold upd. destruct (Z.eqb_spec j k) as [->|]; [|assumption]. apply ph_step. split; [auto|]. intros Hgv. apply (N2 x Hgv).
    destruct (mine_range x (or_introl Hx)) as (X1 & X2 & X3). lia.
  - exact (i_tc _ _ I).
  - exact (i_slab _ _ I).
  - exact (i_idle _ _ I).
  - destruct (i_acct _ _ I) as (R & HR & A). exists R. split; [exact HR|]. intros j Hj. cbn [set_class h_cl h_hands h_live h_tc h_slab h_tr].
    specialize (A j Hj). unfold upd. destruct (Z.eqb_spec j k) as [->|]; [|exact A]. pose proof (fr_held _ _ _ _ _ _ F) as P.
    cbn [view with_shared y_held] in P. clear - A P Hh. pcnt.
  - exact (i_back _ _ I).
Qed.
End Class.

(** ** Transfer caches and per-CPU caches *)
Lemma step_tcs p h k given back L' hands' : hpar_ok p -> hinv p h -> In k (classes p) ->
  HeapCaches.tcs_step (objects_to_move (p_m p) k) (h_tc h k) given back L' -> Permutation (h_hands h k ++ back) (given ++ hands') ->
  hinv p (set_tcs h k L' hands').
Proof.
  intros Hok [I1 I2 I3 I4 I5 I6 I7 I8 I9 I10 I11 I12 I13 I14 I15] Hk St Hh.
  assert (Hb : 0 <= objects_to_move (p_m p) k).
  { unfold classes in Hk. apply filter_In in Hk. destruct Hk as (_ & Hu). unfold class_used in Hu. apply andb_true_iff in Hu. destruct Hu as (_ & Hv).
    apply is_valid_class_facts in Hv. lia. }
  destruct (HeapCaches.tcs_conserves _ _ _ _ _ Hb (I11 k) St) as (O' & P). constructor; try assumption.
  - intros j. cbn [set_tcs h_tc]. unfold upd. destruct (Z.eqb_spec j k) as [->|]; [assumption|apply I11].
  - destruct I14 as (R & HR & A). exists R. split; [exact HR|]. intros j Hj. specialize (A j Hj). cbn [set_tcs h_cl h_hands h_live h_tc h_slab h_tr].
    unfold upd. destruct (Z.eqb_spec j k) as [->|]; [|exact A]. clear - A P Hh. pcnt.
Qed.

Lemma step_slab p h ls s' hands' : hpar_ok p -> hinv p h -> SlabRseq.rstep (p_ncpu p) (num_classes (p_c p)) (h_slab h) ls s' ->
  (forall t, t < 0 \/ p_nthr p <= t -> SlabRseq.pcs s' t = SlabRseq.Idle) ->
  (forall k, 1 <= k < num_classes (p_c p) ->
     Permutation (h_hands h k ++ HeapCaches.slab_hands (p_nthr p) k (h_slab h) ++ HeapCaches.takens k ls)
                 (hands' k ++ HeapCaches.slab_hands (p_nthr p) k s' ++ HeapCaches.puts k ls)) ->
  hinv p (set_slab h s' (h_tr h ++ ls) hands').
Proof.
  intros Hok [I1 I2 I3 I4 I5 I6 I7 I8 I9 I10 I11 I12 I13 I14 I15] St Hidle Hh. destruct I14 as (R & HR & A).
  destruct (HeapCaches.slab_step _ _ _ _ _ _ _ I12 St HR) as (R' & HR' & P). constructor; try assumption.
  - exact (SlabRseq.rn_step _ _ _ _ _ _ I12 St).
  - exists R'. split; [exact HR'|]. intros k Hk. specialize (A k Hk). destruct (classes_in p k Hok Hk) as (Hr & _). specialize (P k Hr). specialize (Hh k Hr).
    cbn [set_slab h_cl h_hands h_live h_tc h_slab h_tr]. clear - A P Hh. pcnt.
Qed.

(** ** Allocation and deallocation *)
Lemma step_malloc p h pol size k l1 x l2 : hpar_ok p -> hinv p h -> policy_ok (p_c p) pol -> 0 <= size ->
  get_size_class (p_c p) (p_m p) pol size = Small k -> h_hands h k = l1 ++ x :: l2 ->
  hinv p (set_objs h (upd (h_hands h) k (l1 ++ l2)) (Alloc x size (align pol) k 0 0 :: h_live h) (h_fresh h) (h_ret h)).
Proof.
  intros Hok [I1 I2 I3 I4 I5 I6 I7 I8 I9 I10 I11 I12 I13 I14 I15] Hp Hs Hg Eh. destruct (small_class p pol size k Hok Hp Hs Hg) as (Hk & _).
  destruct (classes_in p k Hok Hk) as (Hr & _).
  assert (El : large_ids (Alloc x size (align pol) k 0 0 :: h_live h) = large_ids (h_live h)).
  { unfold large_ids. cbn [filter a_class]. destruct (Z.eqb_spec k 0); [lia|reflexivity]. }
  assert (Ea : all_ids p (set_objs h (upd (h_hands h) k (l1 ++ l2)) (Alloc x size (align pol) k 0 0 :: h_live h) (h_fresh h) (h_ret h)) = all_ids p h).
  { unfold all_ids. cbn [set_objs h_fresh h_ret h_live h_cl]. rewrite El. reflexivity. }
  constructor; rewrite ?Ea; try assumption.
  - intros a [<-|Ha] E0; [cbn [a_class] in E0; lia|]. apply I7; assumption.
  - intros a [<-|Ha] E0; [|apply I8; assumption]. exists pol. auto.
  - destruct I14 as (R & HR & A). exists R. split; [exact HR|]. intros j Hj. specialize (A j Hj). cbn [set_objs h_cl h_hands h_live h_tc h_slab h_tr].
    unfold live_of in *. cbn [filter a_class]. unfold upd. destruct (Z.eqb_spec j k) as [->|Hne].
    + rewrite Z.eqb_refl. cbn [map a_ptr]. rewrite Eh in A. clear - A. pcnt.
    + destruct (Z.eqb_spec k j); [lia|]. exact A.
Qed.

Lemma ceil_bound c b : cfg_ok c -> 0 <= b -> 0 <= bytes_to_length_ceil c b /\ b <= bytes_to_length_ceil c b * page_size c /\
  (b <= page_size c -> bytes_to_length_ceil c b <= 1) /\ ((page_size c | b) -> b = bytes_to_length_ceil c b * page_size c).
Proof.
  intros Hc Hb. destruct (cfg_ok_facts c Hc) as (_ & _ & _ & _ & Hps & Hpow & _). unfold bytes_to_length_ceil. pose proof (is_aligned_to_mod b _ Hpow) as Hal.
  rewrite Z.shiftr_div_pow2 by lia. fold (page_size c). pose proof (is_pow2_pos _ Hpow) as Hpp. pose proof (Z.div_mod b (page_size c) ltac:(lia)) as E.
  pose proof (Z.mod_pos_bound b (page_size c) Hpp) as M. pose proof (Z.div_pos b (page_size c) Hb Hpp) as D. 
  destruct (is_aligned_to b (page_size c)); [assert (E0 : b mod page_size c = 0) by (apply Hal; reflexivity)|assert (E0 : b mod page_size c <> 0) by (intros X; apply Hal in X; discriminate)].
  - rewrite E0, Z.add_0_r in E. rewrite Z.add_0_r. split; [lia|]. split; [lia|]. split; [|lia]. intros Hle.
    apply Z.div_le_upper_bound; lia.
  - split; [lia|]. split; [lia|]. split; [|intros Hd; apply Z.mod_divide in Hd; lia]. intros Hle.
    assert (b <> page_size c) by (intros ->; rewrite Z.mod_same in E0; lia). rewrite Z.div_small by lia. lia.
Qed.

Lemma page_aligned p al s : hpar_ok p -> is_pow2 al ->
  let n := Z.max 1 (bytes_to_length_ceil (p_c p) al) in n <= HeapPages.q_P (p_q p) ->
  (1 < n -> (n | HeapPages.q_P (p_q p)) -> (n | s)) -> (al | s * pg p).
Proof.
  intros (Hc & _ & _ & _ & Hq & Epg) Hp n Hn Hd. unfold pg. pose proof (is_pow2_pos _ Hp) as Hpos. destruct (ceil_bound (p_c p) al Hc ltac:(lia)) as (C1 & C2 & C3 & C4).
  destruct (cfg_ok_facts _ Hc) as (_ & _ & _ & _ & Hps & Hpow & _). destruct (Z.le_gt_cases al (page_size (p_c p))) as [Hle|Hgt].
  - apply Z.divide_mul_r. apply is_pow2_divide; assumption.
  - assert (Hdv : (page_size (p_c p) | al)) by (apply is_pow2_divide; auto; lia). specialize (C4 Hdv). pose proof (is_pow2_pos _ Hpow) as Hpp.
    assert (En : n = bytes_to_length_ceil (p_c p) al) by (unfold n; nia). rewrite C4. apply Z.mul_divide_mono_r.
    assert (H1 : 1 < n) by nia. rewrite <- En. apply Hd; [assumption|].
    destruct Hq as (_ & _ & _ & Hk & _). rewrite Epg in Hk.
    (* both are powers of two *)
    assert (P1 : is_pow2 n).
    { destruct Hp as (i & Hi & ->). destruct Hpow as (j & Hj & Ej). rewrite Ej in *. exists (i - j).
      assert (j <= i). { apply (Z.pow_le_mono_r_iff 2); lia. }
      split; [lia|]. rewrite En. apply (Z.mul_reg_r _ _ (2 ^ j)); [lia|]. rewrite <- C4. rewrite <- Z.pow_add_r by lia. f_equal. lia. }
    assert (P2 : is_pow2 (HeapPages.q_P (p_q p))).
    { destruct Hpow as (j & Hj & Ej). rewrite Ej in Hk. unfold SysAlloc.kHuge in Hk. exists (21 - j).
      assert (j <= 21). { destruct (Z.le_gt_cases j 21); [assumption|]. pose proof (Z.pow_lt_mono_r 2 21 j). nia. }
      split; [lia|]. apply (Z.mul_reg_r _ _ (2 ^ j)); [lia|]. rewrite Hk. rewrite <- Z.pow_add_r by lia. change (2 * 1024 * 1024) with (2 ^ 21). f_equal. lia. }
    apply is_pow2_divide; assumption.
Qed.

Lemma step_malloc_pages p h pol size L1 id n L2 tag : hpar_ok p -> hinv p h -> policy_ok (p_c p) pol -> 0 <= size ->
  bytes_to_length_ceil (p_c p) size <= n -> fst (h_desc h id) = tag ->
  h_fresh h = L1 ++ (id, n, Z.max 1 (bytes_to_length_ceil (p_c p) (align pol))) :: L2 ->
  hinv p (set_objs h (h_hands h) (Alloc (first_page (g_span h id) * pg p) size (align pol) 0 id tag :: h_live h) (L1 ++ L2) (h_ret h)).
Proof.
  intros Hok I Hp Hs Hn Etag Ef. pose proof I as I0. destruct I0 as [I1 I2 I3 I4 I5 I6 I7 I8 I9 I10 I11 I12 I13 I14 I15].
  set (a0 := Alloc (first_page (g_span h id) * pg p) size (align pol) 0 id tag).
  assert (El : large_ids (a0 :: h_live h) = id :: large_ids (h_live h)) by reflexivity.
  assert (Pa : Permutation (all_ids p (set_objs h (h_hands h) (a0 :: h_live h) (L1 ++ L2) (h_ret h))) (all_ids p h)).
  { unfold all_ids. cbn [set_objs h_fresh h_ret h_live h_cl]. rewrite El, Ef. unfold fresh_ids. rewrite !map_app. cbn [map fst]. clear. pcnt. }
  assert (Hin : In (id, n, Z.max 1 (bytes_to_length_ceil (p_c p) (align pol))) (h_fresh h)) by (rewrite Ef; apply in_or_app; right; left; reflexivity).
  destruct (I6 _ _ _ Hin) as (F1 & F2 & F3 & F4 & F5). destruct (I4 id (in_fresh p h _ _ _ Hin)) as (_ & E1).
  constructor; try assumption.
  - apply (Permutation_NoDup (Permutation_sym Pa)). assumption.
  - intros t Ht. rewrite (I3 t Ht). apply Permutation_map. apply perm_filter. symmetry. exact Pa.
  - intros x Hx. apply (Permutation_in _ Pa) in Hx. apply I4. assumption.
  - intros x m al Hx. apply I6. rewrite Ef. cbn [set_objs h_fresh] in Hx. apply in_app_or in Hx. apply in_or_app. cbn [In]. tauto.
  - intros a [<-|Ha] E0; [|apply I7; assumption]. cbn [a0 a_ptr a_req a_align a_id set_objs h_desc g_pm]. rewrite E1. split; [reflexivity|].
    split; [|split; [apply (page_aligned p (align pol)); [assumption|apply Hp|assumption|assumption]|split; assumption]].
    split; [assumption|]. destruct (ceil_bound (p_c p) size) as (C1 & C2 & _); [apply Hok|assumption|]. pose proof (pages_pos p Hok). unfold pg in *. rewrite F2. nia.
  - intros a [<-|Ha] E0; [cbn [a0 a_class] in E0; lia|]. apply I8; assumption.
  - destruct I14 as (R & HR & A). exists R. split; [exact HR|]. intros j Hj. specialize (A j Hj). cbn [set_objs h_cl h_hands h_live h_tc h_slab h_tr].
    destruct (classes_in p j Hok Hj) as (Hr & _). unfold live_of in *. cbn [filter a0 a_class]. destruct (Z.eqb_spec 0 j); [lia|]. exact A.
Qed.

(** What the page map has for a live object. *)
Lemma live_small p h a : hpar_ok p -> hinv p h -> In a (h_live h) -> a_class a <> 0 ->
  In (a_class a) (classes p) /\ In (a_ptr a) (y_held (h_cl h (a_class a))).
Proof.
  intros Hok I Ha E0. destruct (i_small _ _ I a Ha E0) as (pol & A & _ & B & C). destruct (small_class p pol _ _ Hok A B C) as (Hk & _). split; [assumption|].
  destruct (i_acct _ _ I) as (R & _ & P). apply (Permutation_in _ (Permutation_sym (P _ Hk))). apply in_or_app. right. apply in_or_app. left.
  unfold live_of. apply in_map. apply filter_In. split; [assumption|lia].
Qed.
Lemma held_in_span p h k x : hpar_ok p -> hinv p h -> In k (classes p) -> In x (y_held (h_cl h k)) ->
  exists id, In id (y_ph (h_cl h k)) /\ sp_page (snd (h_desc h id)) * pg p <= x /\ x + csize p k <= (sp_page (snd (h_desc h id)) + cpages p k) * pg p /\
    (exists j, 0 <= j < cpages p k * pg p / csize p k /\ x = sp_page (snd (h_desc h id)) * pg p + j * csize p k) /\
    sp_page (snd (h_desc h id)) <= x / pg p < sp_page (snd (h_desc h id)) + cpages p k.
Proof.
  intros Hok I Hk Hx. destruct (classes_in p k Hok Hk) as (_ & Hc). pose proof (good_facts _ _ _ _ Hc (i_class _ _ I k Hk)) as F.
  destruct (cf_held _ _ _ _ F x Hx) as (id & j & A1 & A2 & A3 & A4). cbn [view with_shared y_f f_span y_ph] in *.
  destruct (i_desc _ _ I id (in_class_all p h id (in_ph p h k id Hk A1))) as (_ & E). rewrite E in A4. exists id. split; [assumption|].
  pose proof (class_geom _ _ _ Hc) as Ge. pose proof (g_size _ _ _ Ge) as Hsz. pose proof (g_fit _ _ _ Ge) as Hfit. unfold objects in Hfit. fold (pg p) in *.
  pose proof (pages_pos p Hok) as Hpp. set (cnt := cpages p k * pg p / csize p k) in *. clearbody cnt.
  assert (B1 : sp_page (snd (h_desc h id)) * pg p <= x) by nia.
  assert (B2 : x + csize p k <= (sp_page (snd (h_desc h id)) + cpages p k) * pg p) by nia.
  split; [assumption|]. split; [assumption|]. split; [exists j; auto|]. split.
  - apply Z.div_le_lower_bound; lia.
  - apply Z.div_lt_upper_bound; lia.
Qed.
Lemma free_class p h a : hpar_ok p -> hinv p h -> In a (h_live h) ->
  g_sc h (a_ptr a / pg p) = a_class a /\ (a_class a = 0 -> g_pm h (a_ptr a / pg p) = Some (a_id a)).
Proof.
  intros Hok I Ha. pose proof (pages_pos p Hok) as Hpp. destruct (Z.eq_dec (a_class a) 0) as [E0|E0].
  - destruct (i_large _ _ I a Ha E0) as (A & _ & _ & B & _). rewrite A. rewrite Z.div_mul by lia. split; [|intros _; exact B].
    rewrite E0. destruct (Z.eq_dec (g_sc h (sp_page (snd (h_desc h (a_id a))))) 0) as [|E]; [assumption|exfalso].
    destruct (i_sc0 _ _ I _ E) as (k & x & Hk & Hx & Hr). pose proof (in_large h a Ha E0) as Hl. pose proof (in_large_all p h _ Hl) as Hi.
    assert (Hne : x <> a_id a) by (intros ->; apply (large_not_ph p h k _ I Hk Hl Hx)).
    pose proof (ids_apart p h x (a_id a) Hok I (in_class_all p h x (in_ph p h k x Hk Hx)) Hi Hne) as D. destruct (i_ph _ _ I k x Hk Hx) as (Ex & _).
    destruct (id_span p h _ Hok I Hi) as (Hlen & _). unfold sp_disj in D. lia.
  - split; [|intros; contradiction]. destruct (live_small p h a Hok I Ha E0) as (Hk & Hx). destruct (held_in_span p h _ _ Hok I Hk Hx) as (id & A1 & _ & _ & _ & A2).
    apply (i_sc1 _ _ I _ id _ Hk A1 A2).
Qed.

Lemma step_free p h L1 a L2 k : hpar_ok p -> hinv p h -> h_live h = L1 ++ a :: L2 -> g_sc h (a_ptr a / pg p) = k -> k <> 0 ->
  hinv p (set_objs h (upd (h_hands h) k (a_ptr a :: h_hands h k)) (L1 ++ L2) (h_fresh h) (h_ret h)).
Proof.
  intros Hok I El Ek Hk0. assert (Ha : In a (h_live h)) by (rewrite El; apply in_or_app; right; left; reflexivity).
  destruct (free_class p h a Hok I Ha) as (E & _). rewrite E in Ek. subst k. destruct (live_small p h a Hok I Ha Hk0) as (Hk & _).
  destruct I as [I1 I2 I3 I4 I5 I6 I7 I8 I9 I10 I11 I12 I13 I14 I15].
  assert (Hsub : forall b, In b (L1 ++ L2) -> In b (h_live h)).
  { intros b Hb. rewrite El. apply in_app_or in Hb. apply in_or_app. cbn [In]. tauto. }
  assert (Elr : large_ids (L1 ++ L2) = large_ids (h_live h)).
  { unfold large_ids. rewrite El, !filter_app. cbn [filter]. destruct (Z.eqb_spec (a_class a) 0); [contradiction|reflexivity]. }
  assert (Ea : all_ids p (set_objs h (upd (h_hands h) (a_class a) (a_ptr a :: h_hands h (a_class a))) (L1 ++ L2) (h_fresh h) (h_ret h)) = all_ids p h).
  { unfold all_ids. cbn [set_objs h_fresh h_ret h_live h_cl]. rewrite Elr. reflexivity. }
  constructor; rewrite ?Ea; try assumption.
  - intros b Hb. apply I7. apply Hsub. exact Hb.
  - intros b Hb. apply I8. apply Hsub. exact Hb.
  - destruct I14 as (R & HR & A). exists R. split; [exact HR|]. intros j Hj. specialize (A j Hj). cbn [set_objs h_cl h_hands h_live h_tc h_slab h_tr].
    unfold live_of in *. rewrite El, !filter_app, !map_app in A. rewrite !filter_app, !map_app. cbn [filter] in A. unfold upd.
    destruct (Z.eqb_spec j (a_class a)) as [->|Hne].
    + rewrite Z.eqb_refl in A. cbn [map] in A. clear - A. pcnt.
    + destruct (Z.eqb_spec (a_class a) j); [congruence|]. exact A.
Qed.

Lemma step_free_pages p h L1 a L2 id : hpar_ok p -> hinv p h -> h_live h = L1 ++ a :: L2 -> g_sc h (a_ptr a / pg p) = 0 ->
  g_pm h (a_ptr a / pg p) = Some id -> hinv p (set_objs h (h_hands h) (L1 ++ L2) (h_fresh h) (id :: h_ret h)).
Proof.
  intros Hok I El Ek Ei. assert (Ha : In a (h_live h)) by (rewrite El; apply in_or_app; right; left; reflexivity).
  destruct (free_class p h a Hok I Ha) as (E & Eid). rewrite E in Ek. specialize (Eid Ek). rewrite Eid in Ei. injection Ei as <-.
  destruct I as [I1 I2 I3 I4 I5 I6 I7 I8 I9 I10 I11 I12 I13 I14 I15].
  assert (Hsub : forall b, In b (L1 ++ L2) -> In b (h_live h)).
  { intros b Hb. rewrite El. apply in_app_or in Hb. apply in_or_app. cbn [In]. tauto. }
  assert (Pa : Permutation (all_ids p (set_objs h (h_hands h) (L1 ++ L2) (h_fresh h) (a_id a :: h_ret h))) (all_ids p h)).
  { unfold all_ids. cbn [set_objs h_fresh h_ret h_live h_cl]. unfold large_ids. rewrite El, !filter_app. cbn [filter]. rewrite Ek. cbn [Z.eqb].
    rewrite !map_app. cbn [map]. clear. pcnt. }
  constructor; try assumption.
  - apply (Permutation_NoDup (Permutation_sym Pa)). assumption.
  - intros t Ht. rewrite (I3 t Ht). apply Permutation_map. apply perm_filter. symmetry. exact Pa.
  - intros x Hx. apply (Permutation_in _ Pa) in Hx. apply I4. assumption.
  - intros b Hb. apply I7. apply Hsub. exact Hb.
  - intros b Hb. apply I8. apply Hsub. exact Hb.
  - destruct I14 as (R & HR & A). exists R. split; [exact HR|]. intros j Hj. specialize (A j Hj). cbn [set_objs h_cl h_hands h_live h_tc h_slab h_tr].
    destruct (classes_in p j Hok Hj) as (Hr & _). unfold live_of in *. rewrite El, !filter_app, !map_app in A. rewrite !filter_app, !map_app. cbn [filter] in A.
    destruct (Z.eqb_spec (a_class a) j); [lia|]. exact A.
Qed.

(** ** The page heaps *)
Lemma step_page_quiet p h b' : hpar_ok p -> hinv p h -> HeapPages.bstep (p_q p) (h_back h) HeapPages.BNone b' ->
  hinv p (set_pages h (g_span h) (g_pm h) (h_fresh h) (h_ret h) (h_desc h) b').
Proof.
  intros Hok I St. pose proof Hok as (_ & _ & _ & _ & Hq & _). pose proof (HeapPages.bstep_inv _ _ _ _ Hq (i_back _ _ I) St) as B'.
  pose proof (HeapPages.bstep_event _ _ _ _ Hq (i_back _ _ I) St) as Ev. cbn [HeapPages.bev_ok] in Ev.
  destruct I as [I1 I2 I3 I4 I5 I6 I7 I8 I9 I10 I11 I12 I13 I14 I15]. constructor; try assumption.
  intros t Ht. cbn [set_pages h_back h_desc]. rewrite (Ev t Ht). apply I3. assumption.
Qed.

Lemma step_page_got p h t s n al b' id s0 : hpar_ok p -> hinv p h -> HeapPages.bstep (p_q p) (h_back h) (HeapPages.BGot t s n al) b' ->
  ~ In id (all_ids p h) -> first_page s0 = sp_page s ->
  hinv p (set_pages h (upd (g_span h) id s0) (upd (g_pm h) (sp_page s) (Some id))
      ((id, n, al) :: h_fresh h) (h_ret h) (upd (h_desc h) id (t, s)) b').
Proof.
  intros Hok I St Hid Es. pose proof Hok as (_ & _ & _ & _ & Hq & _). pose proof (HeapPages.bstep_inv _ _ _ _ Hq (i_back _ _ I) St) as B'.
  pose proof (HeapPages.bstep_event _ _ _ _ Hq (i_back _ _ I) St) as Ev. cbn [HeapPages.bev_ok] in Ev. destruct Ev as (Ht & Hn & Hal & Elen & Hdiv & Pt & Po).
  pose proof I as [I1 I2 I3 I4 I5 I6 I7 I8 I9 I10 I11 I12 I13 I14 I15].
  set (h' := set_pages _ _ _ _ _ _ _).
  assert (Ea : all_ids p h' = id :: all_ids p h) by reflexivity.
  assert (Hold : forall x, In x (all_ids p h) -> x <> id) by (intros x Hx ->; contradiction).
  assert (Ed : forall x, In x (all_ids p h) -> h_desc h' x = h_desc h x) by (intros x Hx; cbn [h' set_pages h_desc]; apply upd_other; apply Hold; assumption).
  assert (J3 : forall t0, SysAlloc.is_tag t0 -> Permutation (HeapPages.b_L (h_back h') t0) (map (fun x => snd (h_desc h' x)) (tag_ids (h_desc h') t0 (all_ids p h')))).
  { intros t0 Ht0. rewrite Ea. cbn [h' set_pages h_back]. unfold tag_ids. cbn [filter].
    assert (Ef : map (fun x => snd (h_desc h' x)) (filter (fun x => fst (h_desc h' x) =? t0) (all_ids p h)) = map (fun x => snd (h_desc h x)) (tag_ids (h_desc h) t0 (all_ids p h))).
    { unfold tag_ids. revert Ed. generalize (all_ids p h). clear. induction l as [|x l IH]; intros Ed; [reflexivity|]. cbn [filter].
      rewrite (Ed x (or_introl eq_refl)). destruct (_ =? t0); cbn [map]; rewrite IH by (intros y Hy; apply Ed; right; assumption); [rewrite (Ed x (or_introl eq_refl))|]; reflexivity. }
    assert (E1 : h_desc h' id = (t, s)) by (cbn [h' set_pages h_desc]; apply upd_same). rewrite E1 at 1. cbn [fst].
    destruct (Z.eqb_spec t t0) as [<-|Hne].
    - cbn [map]. rewrite E1. cbn [snd]. fold h'. rewrite Ef. rewrite Pt. constructor. apply I3. assumption.
    - fold h'. rewrite Ef. rewrite Po by congruence. apply I3. assumption. }
  assert (Htag : forall x, In x (all_ids p h') -> SysAlloc.is_tag (fst (h_desc h' x))).
  { intros x Hx. rewrite Ea in Hx. destruct Hx as [<-|Hx]; [cbn [h' set_pages h_desc]; rewrite upd_same; assumption|]. rewrite Ed by assumption. apply I4. assumption. }
  (* the new pages are apart from all others *)
  assert (Hap : forall x, In x (all_ids p h) -> sp_disj (snd (h_desc h x)) s).
  { intros x Hx. pose proof (apart_gen _ _ _ _ x id Hq B' J3) as D. rewrite Ea in D. specialize (D (or_intror Hx) (or_introl eq_refl)).
    assert (E1 : h_desc h' id = (t, s)) by (cbn [h' set_pages h_desc]; apply upd_same). rewrite E1 in D. rewrite (Ed x Hx) in D.
    apply D; [apply I4; assumption|assumption|apply Hold; assumption]. }
  assert (Hpm : forall x q, In x (all_ids p h) -> sp_page (snd (h_desc h x)) <= q < sp_page (snd (h_desc h x)) + sp_len (snd (h_desc h x)) -> g_pm h' q = g_pm h q).
  { intros x q Hx Hr. pose proof (Hap x Hx) as D. unfold sp_disj in D. cbn [h' set_pages g_pm]. rewrite !upd_other by lia. reflexivity. }
  constructor.
  - intros k Hk. apply (cgood_env _ _ _ (view h k)); [apply I1; assumption|]. intros x Hx. change (In x (y_ph (h_cl h k))) in Hx.
    pose proof (in_class_all p h x (in_ph p h k x Hk Hx)) as Hx'. cbn [h' set_pages g_span g_nidx g_mem view with_shared y_f f_span f_nidx f_pagemap f_mem].
    split; [apply upd_other; apply Hold; assumption|]. split; [reflexivity|]. destruct (I4 x Hx') as (_ & E1). destruct (I5 k x Hk Hx) as (E2 & _).
    split; [|reflexivity]. intros q Hr. apply (Hpm x q Hx'). lia.
  - rewrite Ea. constructor; assumption.
  - exact J3.
  - intros x Hx. split; [apply Htag; assumption|]. rewrite Ea in Hx. cbn [h' set_pages g_span h_desc]. destruct Hx as [<-|Hx].
    + rewrite !upd_same. exact Es.
    + rewrite !upd_other by (apply Hold; assumption). apply I4. assumption.
  - intros k x Hk Hx. rewrite Ed by (apply in_class_all; apply (in_ph p h k); assumption). apply I5; assumption.
  - intros x m al0 Hx. cbn [h' set_pages h_fresh] in Hx. destruct Hx as [E|Hx].
    + injection E as <- <- <-. cbn [h' set_pages h_desc g_pm]. rewrite upd_same. cbn [snd]. split; [assumption|]. split; [assumption|]. split; [assumption|]. split; [assumption|].
      apply upd_same.
    + pose proof (in_fresh p h x m al0 Hx) as Hx'. rewrite (Ed x Hx'). destruct (I6 _ _ _ Hx) as (D1 & D2 & D3 & D4 & D5).
      split; [assumption|]. split; [assumption|]. split; [assumption|]. split; [assumption|]. rewrite (Hpm x _ Hx'); [assumption|lia].
  - intros a Ha E0. pose proof (in_large_all p h _ (in_large h a Ha E0)) as Hx'. rewrite (Ed _ Hx'). destruct (I7 a Ha E0) as (D1 & D2 & D3 & D4 & D5).
    destruct (id_span p h _ Hok I Hx') as (Hlen & _). split; [assumption|]. split; [assumption|]. split; [assumption|]. split; [rewrite (Hpm _ _ Hx'); [assumption|lia]|assumption].
  - exact I8.
  - intros k x q Hk Hx. rewrite Ed by (apply in_class_all; apply (in_ph p h k); assumption). apply I9; assumption.
  - intros q Hr. destruct (I10 q Hr) as (k & x & Hk & Hx & Hq'). exists k, x. split; [assumption|]. split; [assumption|].
    rewrite Ed by (apply in_class_all; apply (in_ph p h k); assumption). assumption.
  - exact I11.
  - exact I12.
  - exact I13.
  - exact I14.
  - exact B'.
Qed.

(** The tag of a span's address is the tag of its page heap. *)
Lemma id_tag p h x : hpar_ok p -> hinv p h -> In x (all_ids p h) -> get_memory_tag (first_page (g_span h x) * pg p) = fst (h_desc h x).
Proof.
  intros Hok I Hx. destruct (id_span p h x Hok I Hx) as (Hl & Ht & _). destruct (i_desc _ _ I x Hx) as (_ & ->). pose proof (pages_pos p Hok).
  apply Ht. unfold in_rng, SysAllocProps.bytes. cbn [fst snd]. nia.
Qed.

Lemma step_page_back p h t s b' R1 id R2 : hpar_ok p -> hinv p h -> HeapPages.bstep (p_q p) (h_back h) (HeapPages.BBack t s) b' ->
  h_ret h = R1 ++ id :: R2 -> t = get_memory_tag (first_page (g_span h id) * pg p) -> s = snd (h_desc h id) ->
  hinv p (set_pages h (g_span h) (upd (g_pm h) (sp_page s) None) (h_fresh h) (R1 ++ R2) (h_desc h) b').
Proof.
  intros Hok I St Er Et Es. pose proof Hok as (_ & _ & _ & _ & Hq & _). pose proof (HeapPages.bstep_inv _ _ _ _ Hq (i_back _ _ I) St) as B'.
  pose proof (HeapPages.bstep_event _ _ _ _ Hq (i_back _ _ I) St) as Ev. cbn [HeapPages.bev_ok] in Ev. destruct Ev as (Ht & Pt & Po).
  assert (Hid : In id (all_ids p h)) by (apply in_ret; rewrite Er; apply in_or_app; right; left; reflexivity).
  rewrite (id_tag p h id Hok I Hid) in Et. pose proof I as [I1 I2 I3 I4 I5 I6 I7 I8 I9 I10 I11 I12 I13 I14 I15].
  set (h' := set_pages _ _ _ _ _ _ _).
  assert (Pa : Permutation (all_ids p h) (id :: all_ids p h')).
  { unfold all_ids. cbn [h' set_pages h_fresh h_ret h_live h_cl]. rewrite Er. clear. pcnt. }
  assert (Hsub : forall x, In x (all_ids p h') -> In x (all_ids p h)) by (intros x Hx; apply (Permutation_in _ (Permutation_sym Pa)); right; assumption).
  assert (Hne : forall x, In x (all_ids p h') -> x <> id) by (intros x Hx ->; apply (Permutation_NoDup Pa) in I2; inversion I2; contradiction).
  assert (Hpm : forall x q, In x (all_ids p h') -> sp_page (snd (h_desc h x)) <= q < sp_page (snd (h_desc h x)) + sp_len (snd (h_desc h x)) -> g_pm h' q = g_pm h q).
  { intros x q Hx Hr. pose proof (ids_apart p h x id Hok I (Hsub x Hx) Hid (Hne x Hx)) as D. destruct (id_span p h id Hok I Hid) as (Hl & _). rewrite <- Es in D, Hl.
    unfold sp_disj in D. cbn [h' set_pages g_pm]. apply upd_other. lia. }
  constructor; try assumption.
  - intros k Hk. apply (cgood_env _ _ _ (view h k)); [apply I1; assumption|]. intros x Hx. change (In x (y_ph (h_cl h k))) in Hx.
    assert (Hx' : In x (all_ids p h')) by (apply (in_class_all p h'); apply (in_ph p h' k); assumption).
    split; [reflexivity|]. split; [reflexivity|]. split; [|reflexivity]. intros q Hq'. destruct (I4 x (Hsub x Hx')) as (_ & E1). destruct (I5 k x Hk Hx) as (E2 & _).
    apply (Hpm x q Hx'). cbn [view with_shared y_f f_span] in Hq'. lia.
  - apply (Permutation_NoDup Pa) in I2. inversion I2; assumption.
  - intros t0 Ht0. pose proof (I3 t0 Ht0) as P. cbn [h' set_pages h_back h_desc]. unfold tag_ids in *.
    pose proof (perm_filter (fun x => fst (h_desc h x) =? t0) _ _ Pa) as Pf. cbn [filter] in Pf. apply (Permutation_map (fun x => snd (h_desc h x))) in Pf.
    rewrite Pf in P. destruct (Z.eqb_spec (fst (h_desc h id)) t0) as [E|E].
    + cbn [map] in P. rewrite <- Es in P. assert (E' : t0 = t) by congruence. clear E. subst t0. apply (Permutation_trans (Permutation_sym Pt)) in P. apply Permutation_cons_inv in P. exact P.
    + rewrite Po by congruence. exact P.
  - intros x Hx. apply I4. apply Hsub. exact Hx.
  - intros x n al Hx. destruct (I6 x n al Hx) as (D1 & D2 & D3 & D4 & D5). split; [assumption|]. split; [assumption|]. split; [assumption|]. split; [assumption|].
    cbn [set_pages h_desc]. rewrite (Hpm x); [assumption|apply (in_fresh p h' x n al Hx)|cbn [h' set_pages h_desc]; lia].
  - intros a Ha E0. destruct (I7 a Ha E0) as (D1 & D2 & D3 & D4 & D5). pose proof (in_large_all p h' _ (in_large h' a Ha E0)) as Hx.
    destruct (id_span p h _ Hok I (Hsub _ Hx)) as (Hl & _). split; [assumption|]. split; [assumption|]. split; [assumption|]. split; [|assumption].
    cbn [set_pages h_desc]. rewrite (Hpm (a_id a)); [assumption|exact Hx|cbn [h' set_pages h_desc]; lia].
Qed.

(** ** Memory *)
Lemma step_env p h m sp ni : hpar_ok p -> hinv p h -> (forall x, In x (all_ids p h) -> sp x = g_span h x /\ ni x = g_nidx h x) ->
  (forall x a, In x (large_ids (h_live h) ++ class_ids p (h_cl h)) -> in_span_bytes p h x a -> m a = g_mem h a) ->
  hinv p (set_env h m sp ni).
Proof.
  intros Hok I Hsp Hm. destruct I as [I1 I2 I3 I4 I5 I6 I7 I8 I9 I10 I11 I12 I13 I14 I15]. constructor; try assumption.
  - intros k Hk. apply (cgood_env _ _ _ (view h k)); [apply I1; assumption|]. intros x Hx. change (In x (y_ph (h_cl h k))) in Hx.
    pose proof (in_ph p h k x Hk Hx) as Hx1. pose proof (in_class_all p h x Hx1) as Hx'. destruct (Hsp x Hx') as (S1 & S2).
    split; [exact S1|]. split; [exact S2|]. split; [reflexivity|]. destruct (I4 x Hx') as (_ & E1). destruct (I5 k x Hk Hx) as (E2 & _).
    intros a Ha. cbn [view with_shared y_f f_span f_mem] in *. apply (Hm x a); [apply in_or_app; right; assumption|]. unfold in_span_bytes. rewrite E2, <- E1. exact Ha.
  - intros x Hx. cbn [set_env g_span h_desc]. destruct (Hsp x Hx) as (-> & _). apply I4. exact Hx.
Qed.

Lemma step_write p h a x v : hpar_ok p -> hinv p h -> In a (h_live h) -> a_ptr a <= x < a_ptr a + usable p h a ->
  hinv p (set_env h (upd (g_mem h) x v) (g_span h) (g_nidx h)).
Proof.
  intros Hok I Ha Hx. pose proof (pages_pos p Hok) as Hpp. pose proof I as [I1 I2 I3 I4 I5 I6 I7 I8 I9 I10 I11 I12 I13 I14 I15].
  (* the span it is in *)
  assert (Hs : exists z, In z (all_ids p h) /\ in_span_bytes p h z x /\ forall k, In k (classes p) -> In z (y_ph (h_cl h k)) -> a_class a = k).
  { destruct (Z.eq_dec (a_class a) 0) as [E0|E0].
    - pose proof (in_large h a Ha E0) as Hl. exists (a_id a). split; [apply in_large_all; assumption|]. split.
      + unfold usable in Hx. rewrite E0 in Hx. cbn [Z.eqb] in Hx. destruct (I7 a Ha E0) as (E1 & _). unfold in_span_bytes. lia.
      + intros k Hk Hz. exfalso. apply (large_not_ph p h k _ I Hk Hl Hz).
    - destruct (live_small p h a Hok I Ha E0) as (Hk & Hh). destruct (held_in_span p h _ _ Hok I Hk Hh) as (z & Z1 & Z2 & Z3 & _). exists z.
      split; [apply in_class_all; apply (in_ph p h _ z Hk Z1)|]. split.
      + unfold usable in Hx. destruct (Z.eqb_spec (a_class a) 0); [contradiction|]. unfold in_span_bytes. destruct (I5 _ z Hk Z1) as (-> & _). lia.
      + intros k Hk' Hz. apply (ph_one p h _ _ z I Hk Hk' Z1 Hz). }
  destruct Hs as (z & Z1 & Z2 & Z3). constructor; try assumption.
  intros k Hk. destruct (in_dec Z.eq_dec z (y_ph (h_cl h k))) as [Hz|Hz].
  - specialize (Z3 k Hk Hz). destruct (classes_in p k Hok Hk) as (Hr & Hc). assert (E0 : a_class a <> 0) by lia.
    destruct (live_small p h a Hok I Ha E0) as (_ & Hh). rewrite Z3 in Hh. unfold usable in Hx. destruct (Z.eqb_spec (a_class a) 0); [contradiction|]. rewrite Z3 in Hx.
    destruct (cgood_write _ _ _ (view h k) (a_ptr a) x v Hc (I1 k Hk) Hh Hx) as (sp & Esp & G).
    apply (cgood_env _ _ _ _ (upd (g_mem h) x v) (g_span h) (g_nidx h) (g_pm h)) in G; [exact G|].
    intros id Hid. cbn [view with_shared y_f f_span f_nidx f_pagemap f_mem]. rewrite Esp. auto.
  - apply (cgood_env _ _ _ (view h k)); [apply I1; assumption|]. intros id Hid. change (In id (y_ph (h_cl h k))) in Hid.
    split; [reflexivity|]. split; [reflexivity|]. split; [reflexivity|]. intros b Hb. cbn [view with_shared y_f f_span f_mem] in *.
    pose proof (in_class_all p h id (in_ph p h k id Hk Hid)) as Hid'. assert (Hne : id <> z) by (intros ->; contradiction).
    pose proof (ids_apart p h id z Hok I Hid' Z1 Hne) as D. destruct (I4 id Hid') as (_ & E1). destruct (I5 k id Hk Hid) as (E2 & _).
    unfold in_span_bytes in Z2. unfold sp_disj in D. fold (pg p) in Hb. cbn [set_env g_mem]. rewrite upd_other; [reflexivity|]. nia.
Qed.

(** ** All steps *)
Lemma tcs_start_ok l : tcs_start l -> HeapCaches.tcs_ok l /\ HeapCaches.tcs_objs l = [].
Proof.
  unfold tcs_start, HeapCaches.tcs_ok, HeapCaches.tcs_objs. induction 1 as [|(t & P) l (A & cap & mx & B & C) H IH]; [split; [constructor|reflexivity]|].
  cbn [fst snd] in *. subst P t. destruct IH as (IH1 & IH2). split.
  - constructor; [|assumption]. cbn [fst snd]. split; [|constructor]. unfold TransferCacheProps.tc_ok, TransferCache.tc_new.
    cbn [TransferCache.t_lwm TransferCache.t_used TransferCache.t_cap TransferCache.t_max]. lia.
  - cbn [flat_map fst snd]. rewrite IH2. reflexivity.
Qed.

Theorem hreach_inv p h : hpar_ok p -> hreach p h -> hinv p h.
Proof.
  intros Hok R. induction R as [m sp ni pm tc s desc t0 mo Htc Hsl Hid|h h' R IH S].
  - assert (Ec : class_ids p (h_cl (heap_init p m sp ni pm tc s desc t0 mo)) = []) by (unfold class_ids; cbn [heap_init h_cl]; induction (classes p); auto).
    assert (Ea : all_ids p (heap_init p m sp ni pm tc s desc t0 mo) = []) by (unfold all_ids; rewrite Ec; reflexivity).
    constructor.
    + intros k Hk. apply cgood_init. apply classes_in; assumption.
    + rewrite Ea. constructor.
    + intros t Ht. rewrite Ea. constructor.
    + intros x Hx. rewrite Ea in Hx. destruct Hx.
    + intros k x _ [].
    + intros id n al [].
    + intros a [].
    + intros a [].
    + intros k x q _ [].
    + intros q Hq. cbn in Hq. contradiction.
    + intros k. apply tcs_start_ok. apply Htc.
    + exact Hsl.
    + intros t _. apply Hid.
    + exists []. destruct (HeapCaches.slab_start (num_classes (p_c p))) as (A & B). split; [exact A|]. intros k Hk.
      cbn [heap_init h_cl h_hands h_live h_tc h_slab h_tr]. destruct (tcs_start_ok _ (Htc k)) as (_ & ->). rewrite B. rewrite app_nil_r. cbn [app live_of filter map cinit y_held].
      unfold HeapCaches.slab_hands.
      assert (E : forall l, flat_map (fun t => HeapCaches.pc_objs k (SlabRseq.pcs s t)) l = []).
      { induction l as [|t l IH]; [reflexivity|]. cbn [flat_map]. rewrite Hid, IH. reflexivity. }
      rewrite E. constructor.
    + apply HeapPages.back_init_inv.
  - destruct S.
    + eapply step_class; eassumption.
    + eapply step_tcs; eassumption.
    + apply step_slab; assumption.
    + apply step_malloc; assumption.
    + eapply step_malloc_pages; eassumption.
    + apply step_free; assumption.
    + eapply step_free_pages; eassumption.
    + apply step_page_quiet; assumption.
    + apply step_page_got; assumption.
    + eapply step_page_back; eassumption.
    + eapply step_write; eassumption.
    + apply step_env; assumption.
Qed.
