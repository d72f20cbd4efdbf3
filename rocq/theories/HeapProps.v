(** C38: what a program sees of the allocator as a whole, through all tiers. *)
From Coq Require Import Permutation.
From Verif Require HeapCaches Hpaa HpaaProofs HpaaProps SysAlloc SysAllocProps HeapPages.
From Verif Require Import Base SizeMap SizeMapProofs SizeMapProofs2 SizeMapProps FrontApi Bitmap Span SpanProofs SpanProofs2 CentralFreeList CFLProps HeapClass Heap HeapProofs.

(** ** Lemmas *)
Lemma fop_intro {A} (R : A -> A -> Prop) : forall l, (forall l1 a l2 b l3, l = l1 ++ a :: l2 ++ b :: l3 -> R a b) -> ForallOrdPairs R l.
Proof.
  induction l as [|x l IH]; intros H; constructor.
  - apply Forall_forall. intros y Hy. apply in_split in Hy. destruct Hy as (l1 & l2 & ->). apply (H [] x l1 y l2). reflexivity.
  - apply IH. intros l1 a l2 b l3 ->. apply (H (x :: l1) a l2 b l3). reflexivity.
Qed.

(** The bytes of a live object are in its span, which is one of the class's or its own. *)
Lemma live_span p h a : hpar_ok p -> hinv p h -> In a (h_live h) ->
  exists id, In id (all_ids p h) /\ 0 < usable p h a /\ sp_page (snd (h_desc h id)) * pg p <= a_ptr a /\
    a_ptr a + usable p h a <= (sp_page (snd (h_desc h id)) + sp_len (snd (h_desc h id))) * pg p /\
    (a_class a = 0 -> id = a_id a) /\ (a_class a <> 0 -> In (a_class a) (classes p) /\ In id (y_ph (h_cl h (a_class a))) /\
      exists j, 0 <= j /\ a_ptr a = sp_page (snd (h_desc h id)) * pg p + j * csize p (a_class a)).
Proof.
  intros Hok I Ha. pose proof (pages_pos p Hok) as Hpp. unfold usable. destruct (Z.eqb_spec (a_class a) 0) as [E0|E0].
  - pose proof (in_large_all p h _ (in_large h a Ha E0)) as Hx. exists (a_id a). destruct (id_span p h _ Hok I Hx) as (Hl & _). destruct (i_large _ _ I a Ha E0) as (Ep & _).
    split; [assumption|]. split; [nia|]. split; [lia|]. split; [lia|]. split; [reflexivity|]. intros; contradiction.
  - destruct (live_small p h a Hok I Ha E0) as (Hk & Hh). destruct (held_in_span p h _ _ Hok I Hk Hh) as (id & A1 & A2 & A3 & (j & A4 & A5) & _).
    destruct (classes_in p _ Hok Hk) as (_ & Hc). pose proof (g_size _ _ _ (class_geom _ _ _ Hc)) as Hsz. destruct (i_ph _ _ I _ id Hk A1) as (El & _).
    exists id. split; [apply in_class_all; apply (in_ph p h _ id Hk A1)|]. split; [unfold csize in *; lia|]. split; [assumption|]. split; [rewrite El; assumption|].
    split; [intros; contradiction|]. intros _. split; [assumption|]. split; [assumption|]. exists j. split; [lia|assumption].
Qed.

(** ** No two live objects overlap *)

(** Whatever the program and the threads of the allocator have done, the live objects occupy pairwise disjoint ranges of bytes. *)
Theorem live_objects_disjoint : forall p h, hpar_ok p -> hreach p h ->
  ForallOrdPairs disj (map (fun a => (a_ptr a, usable p h a)) (h_live h)).
Proof.
  intros p h Hok R. pose proof (hreach_inv p h Hok R) as I. pose proof (pages_pos p Hok) as Hpp.
  assert (G : ForallOrdPairs (fun a b => disj (a_ptr a, usable p h a) (a_ptr b, usable p h b)) (h_live h)).
  { apply fop_intro. intros l1 a l2 b l3 El.
    assert (Ha : In a (h_live h)) by (rewrite El; apply in_elt).
    assert (Hb : In b (h_live h)) by (rewrite El; apply in_or_app; right; right; apply in_elt).
    destruct (live_span p h a Hok I Ha) as (x & X1 & X2 & X3 & X4 & X5 & X6). destruct (live_span p h b Hok I Hb) as (y & Y1 & Y2 & Y3 & Y4 & Y5 & Y6).
    destruct (Z.eq_dec x y) as [<-|Hne].
    2:{ pose proof (ids_apart p h x y Hok I X1 Y1 Hne) as D. unfold sp_disj in D. unfold disj. cbn [fst snd]. nia. }
    destruct (Z.eq_dec (a_class a) 0) as [Ea|Ea], (Z.eq_dec (a_class b) 0) as [Eb|Eb].
    - exfalso. specialize (X5 Ea). specialize (Y5 Eb). pose proof (i_nd _ _ I) as N. unfold all_ids in N. apply NoDup_app_elim in N. destruct N as (_ & N & _).
      apply NoDup_app_elim in N. destruct N as (_ & N & _). apply NoDup_app_elim in N. destruct N as (N & _).
      unfold large_ids in N. rewrite El, !filter_app in N. cbn [filter] in N. rewrite Ea in N. cbn [Z.eqb] in N. rewrite !filter_app in N. cbn [filter] in N. rewrite Eb in N. cbn [Z.eqb] in N.
      rewrite !map_app in N. cbn [map] in N. rewrite map_app in N. cbn [map] in N. rewrite <- X5, <- Y5 in N.
      apply NoDup_remove_2 in N. apply N. rewrite !in_app_iff. cbn [In]. tauto.
    - exfalso. specialize (X5 Ea). destruct (Y6 Eb) as (K & Hin & _). subst x. apply (large_not_ph p h _ _ I K (in_large h a Ha Ea) Hin).
    - exfalso. specialize (Y5 Eb). destruct (X6 Ea) as (K & Hin & _). subst x. apply (large_not_ph p h _ _ I K (in_large h b Hb Eb) Hin).
    - destruct (X6 Ea) as (Ka & Ia & ja & Ja & Pa). destruct (Y6 Eb) as (Kb & Ib & jb & Jb & Pb). pose proof (ph_one p h _ _ x I Ka Kb Ia Ib) as Ek.
      unfold usable in *. destruct (Z.eqb_spec (a_class a) 0); [contradiction|]. destruct (Z.eqb_spec (a_class b) 0); [contradiction|]. rewrite <- Ek in *.
      assert (Hd : a_ptr a <> a_ptr b).
      { intros E. destruct (classes_in p _ Hok Ka) as (_ & Hc). pose proof (cf_hnd _ _ _ _ (good_facts _ _ _ _ Hc (i_class _ _ I _ Ka))) as N.
        change (NoDup (y_held (h_cl h (a_class a)))) in N. destruct (i_acct _ _ I) as (Rg & _ & P). apply (Permutation_NoDup (P _ Ka)) in N.
        apply NoDup_app_elim in N. destruct N as (_ & N & _). apply NoDup_app_elim in N. destruct N as (N & _).
        unfold live_of in N. rewrite El, !filter_app in N. cbn [filter] in N. rewrite Z.eqb_refl in N. rewrite !filter_app in N. cbn [filter] in N. rewrite <- Ek, Z.eqb_refl in N.
        rewrite !map_app in N. cbn [map] in N. rewrite map_app in N. cbn [map] in N. rewrite E in N.
        apply NoDup_remove_2 in N. apply N. rewrite !in_app_iff. cbn [In]. tauto. }
      unfold disj. cbn [fst snd]. assert (ja <> jb) by congruence. nia. }
  revert G. generalize (h_live h). intros l G. induction G as [|a l F G IH]; [constructor|]. cbn [map]. constructor; [|assumption].
  rewrite Forall_forall in *. intros r Hr. apply in_map_iff in Hr. destruct Hr as (b & <- & Hb). apply F. assumption.
Qed.
Print Assumptions live_objects_disjoint.

(** ** What the program gets *)

(** Every live object has at least the size asked for, has the alignment asked for, is in the user half of the address space
    and not at address 0; and all of it has the memory tag of its class or, for whole pages, the tag asked for. *)
Theorem live_object_good : forall p h a, hpar_ok p -> hreach p h -> In a (h_live h) ->
  0 <= a_req a <= usable p h a /\ 0 < usable p h a /\ (a_align a | a_ptr a) /\ 0 < a_ptr a /\ a_ptr a + usable p h a <= 2 ^ 47 /\
  exists tag, SysAlloc.is_tag tag /\ (forall x, a_ptr a <= x < a_ptr a + usable p h a -> get_memory_tag x = tag) /\
    (a_class a <> 0 -> memory_tag_from_size_class (p_c p) (p_parts p) (a_class a) = Some tag) /\ (a_class a = 0 -> tag = a_tag a).
Proof.
  intros p h a Hok R Ha. pose proof (hreach_inv p h Hok R) as I. pose proof (pages_pos p Hok) as Hpp.
  destruct (live_span p h a Hok I Ha) as (x & X1 & X2 & X3 & X4 & X5 & X6). destruct (id_span p h x Hok I X1) as (Hl & Ht & Hu0 & Hu).
  unfold SysAllocProps.bytes in *. cbn [fst snd] in *.
  assert (Hreq : 0 <= a_req a <= usable p h a /\ (a_align a | a_ptr a)).
  { unfold usable. destruct (Z.eqb_spec (a_class a) 0) as [E0|E0].
    - destruct (i_large _ _ I a Ha E0) as (_ & A & B & _). auto.
    - destruct (i_small _ _ I a Ha E0) as (pol & A & Eal & B & C). destruct (small_class p pol _ _ Hok A B C) as (_ & D). split; [lia|].
      destruct (X6 E0) as (_ & _ & j & _ & ->). rewrite <- Eal. destruct Hok as (O1 & O2 & O3 & O4 & _).
      apply (aligned_objects _ _ _ _ _ pol (a_req a) _ _ _ O1 O2 O3 O4 A B C). apply Z.divide_factor_r. }
  destruct Hreq as (Hr & Hal). split; [assumption|]. split; [assumption|]. split; [assumption|]. split; [lia|]. split; [nia|].
  exists (fst (h_desc h x)). split; [apply (i_desc _ _ I x X1)|]. split.
  - intros b Hb. apply Ht. unfold in_rng. cbn [fst snd]. nia.
  - split; [intros E0; destruct (X6 E0) as (K & Hin & _); apply (i_ph _ _ I _ x K Hin)|].
    intros E0. rewrite (X5 E0). apply (i_large _ _ I a Ha E0).
Qed.
Print Assumptions live_object_good.

(** ** The contents *)

(** A step of the allocator, or of the program on other objects, leaves the contents and the extent of a live object alone: a
    byte changes only if it is the program's own write to it. *)
Theorem live_contents_kept : forall p h h' a x, hpar_ok p -> hreach p h -> hstep p h h' -> In a (h_live h) -> In a (h_live h') ->
  usable p h' a = usable p h a /\
  (a_ptr a <= x < a_ptr a + usable p h a ->
     g_mem h' x = g_mem h x \/ exists v, h' = set_env h (upd (g_mem h) x v) (g_span h) (g_nidx h)).
Proof.
  intros p h h' a x Hok R S Ha Ha'. pose proof (hreach_inv p h Hok R) as I. pose proof (pages_pos p Hok) as Hpp.
  destruct (live_span p h a Hok I Ha) as (z & X1 & X2 & X3 & X4 & X5 & X6).
  destruct S as [h k e y' hands' got rest tag Hk St Hh Ht Hf Eg Hg Hs|h k given back L' hands' Hk St Hh|h ls s' hands' St Hi Hh|h pol size k l1 y l2 Hp Hsz Eg Eh
    |h pol size L1 id n L2 Hp Hsz Hn Ef|h L1 b L2 k El Ek Hk|h L1 b L2 id El Ek Hk|h b' St|h t s n al b' id s0 St Hid Es|h t s b' R1 id R2 St Er Et Es
    |h b y v Hb Hy|h m sp ni Hsp Hm]; try (split; [reflexivity|]; intros _; left; reflexivity).
  - split; [reflexivity|]. intros Hx. left. cbn [set_class g_mem].
    destruct (classes_in p k Hok Hk) as (Hr & Hc).
    destruct (class_frame p h k e y' got rest tag Hok I Hk St Hf Eg Hg Hs) as (F & _).
    destruct (in_dec Z.eq_dec z (y_ph (h_cl h k))) as [Hz|Hz].
    + assert (E0 : a_class a <> 0).
      { intros E0. specialize (X5 E0). subst z. apply (large_not_ph p h k _ I Hk (in_large h a Ha E0) Hz). }
      destruct (X6 E0) as (K & Hin & _). pose proof (ph_one p h _ _ z I K Hk Hin Hz) as <-. unfold usable in Hx. destruct (Z.eqb_spec (a_class a) 0); [contradiction|].
      apply (fr_live _ _ _ _ _ _ F (a_ptr a)); [apply (live_small p h a Hok I Ha E0)| |assumption].
      pose proof (step_class p h _ e y' hands' got rest tag Hok I Hk St Hh Ht Hf Eg Hg Hs) as I'.
      destruct (live_small p _ a Hok I' Ha' E0) as (_ & Hh'). cbn [set_class h_cl] in Hh'. rewrite upd_same in Hh'. exact Hh'.
    + apply (fr_mem _ _ _ _ _ _ F).
      * intros w Hw Hb. change (In w (y_ph (h_cl h k))) in Hw. assert (Hne : w <> z) by (intros ->; contradiction).
        pose proof (in_class_all p h w (in_ph p h k w Hk Hw)) as Hw'. pose proof (ids_apart p h w z Hok I Hw' X1 Hne) as D.
        destruct (i_desc _ _ I w Hw') as (_ & E1). destruct (i_ph _ _ I k w Hk Hw) as (E2 & _). unfold in_pages in Hb. cbn [view with_shared y_f f_span] in Hb.
        fold (pg p) in Hb. unfold sp_disj in D. nia.
      * intros w s0 Hw Hb. rewrite Forall_forall in Hs. pose proof (Hs _ Hw) as E1. cbn [fst snd] in E1.
        destruct (got_spec p h k e got rest tag I Hf Eg Hg w) as (G1 & G2 & _); [apply in_map_iff; exists (w, s0); auto|].
        assert (Hw' : In w (all_ids p h)) by (unfold all_ids; apply in_or_app; left; assumption).
        assert (Hne : w <> z).
        { intros ->. destruct (Z.eq_dec (a_class a) 0) as [E0|E0].
          - specialize (X5 E0). subst z. apply (fresh_not_large p h _ I G1 (in_large h a Ha E0)).
          - destruct (X6 E0) as (K & Hin & _). apply (fresh_not_ph p h _ z I K G1 Hin). }
        pose proof (ids_apart p h w z Hok I Hw' X1 Hne) as D. destruct (i_desc _ _ I w Hw') as (_ & E2). subst s0. unfold in_pages in Hb. fold (pg p) in Hb. unfold sp_disj in D. nia.
  - split; [|intros _; left; reflexivity]. unfold usable. destruct (Z.eqb_spec (a_class a) 0) as [E0|E0]; [|reflexivity]. cbn [set_pages h_desc].
    rewrite upd_other; [reflexivity|]. intros E. specialize (X5 E0). subst z. rewrite E in X1. contradiction.
  - split; [reflexivity|]. intros Hx. destruct (Z.eq_dec x y) as [->|Hne]; [right; exists v; reflexivity|]. left. cbn [set_env g_mem]. apply upd_other. assumption.
  - split; [reflexivity|]. intros Hx. left. cbn [set_env g_mem]. apply (Hm z).
    + apply in_or_app. destruct (Z.eq_dec (a_class a) 0) as [E0|E0].
      * left. rewrite (X5 E0). apply in_large; assumption.
      * right. destruct (X6 E0) as (K & Hin & _). apply (in_ph p h _ z K Hin).
    + unfold in_span_bytes. lia.
Qed.
Print Assumptions live_contents_kept.

(** ** Freeing *)

(** Freeing a live object, by its address alone, is always possible and finds where it belongs: the page map has the object's
    class, and the object is then in a thread's hands, to be put into a cache of that class; or the page map has no class but
    the object's own span, which is then on its way to the page heap.  All other live objects stay. *)
Theorem free_finds_owner : forall p h L1 a L2, hpar_ok p -> hreach p h -> h_live h = L1 ++ a :: L2 ->
  g_sc h (a_ptr a / pg p) = a_class a /\
  exists h', hstep p h h' /\ h_live h' = L1 ++ L2 /\
    (a_class a <> 0 -> h_hands h' (a_class a) = a_ptr a :: h_hands h (a_class a)) /\
    (a_class a = 0 -> g_pm h (a_ptr a / pg p) = Some (a_id a) /\ h_ret h' = a_id a :: h_ret h).
Proof.
  intros p h L1 a L2 Hok R El. pose proof (hreach_inv p h Hok R) as I. assert (Ha : In a (h_live h)) by (rewrite El; apply in_elt).
  destruct (free_class p h a Hok I Ha) as (E & Eid). split; [assumption|]. destruct (Z.eq_dec (a_class a) 0) as [E0|E0].
  - specialize (Eid E0). eexists. split; [apply (S_free_pages p h L1 a L2 (a_id a) El); [congruence|assumption]|]. split; [reflexivity|].
    split; [intros; contradiction|]. intros _. split; [assumption|reflexivity].
  - eexists. split; [apply (S_free p h L1 a L2 (a_class a) El E E0)|]. split; [reflexivity|]. split; [|intros; contradiction].
    intros _. cbn [set_objs h_hands]. apply upd_same.
Qed.
Print Assumptions free_finds_owner.

(** tcmalloc.cc:556-573 GetSizeAndSampled, malloc_usable_size: from the page map (None: ReportCorruptedFree, ReportDoubleFree).
    Simplified: for a sampled allocation the code returns a smaller size that it recorded, see C21. *)
Definition get_size (p : hpar) (h : heap) (ptr : Z) : option Z :=
  let sc := g_sc h (ptr / pg p) in
  if negb (sc =? 0) then Some (csize p sc)
  else match g_pm h (ptr / pg p) with Some id => Some (sp_len (snd (h_desc h id)) * pg p) | None => None end.

(** The usable size of a live object is found from its address, and all of it is the program's: it overlaps no other object. *)
Theorem usable_size_found : forall p h a, hpar_ok p -> hreach p h -> In a (h_live h) ->
  get_size p h (a_ptr a) = Some (usable p h a) /\ a_req a <= usable p h a.
Proof.
  intros p h a Hok R Ha. pose proof (hreach_inv p h Hok R) as I. split; [|apply (live_object_good p h a Hok R Ha)].
  destruct (free_class p h a Hok I Ha) as (E & Eid). unfold get_size, usable. rewrite E. destruct (Z.eqb_spec (a_class a) 0) as [E0|E0]; cbn [negb]; [|reflexivity].
  rewrite (Eid E0). reflexivity.
Qed.
Print Assumptions usable_size_found.

(** Freeing an allocation of whole pages a second time, after its pages have gone back to the page heap and before they are
    handed out again, finds no span. *)
Theorem double_free_found : forall p h t s b' R1 id R2, hpar_ok p -> hreach p h -> HeapPages.bstep (p_q p) (h_back h) (HeapPages.BBack t s) b' ->
  h_ret h = R1 ++ id :: R2 -> t = get_memory_tag (first_page (g_span h id) * pg p) -> s = snd (h_desc h id) ->
  let h' := set_pages h (g_span h) (upd (g_pm h) (sp_page s) None) (h_fresh h) (R1 ++ R2) (h_desc h) b' in
  hstep p h h' /\ get_size p h' (first_page (g_span h id) * pg p) = None.
Proof.
  intros p h t s b' R1 id R2 Hok R St Er Et Es h'. split; [apply (S_page_back p h t s b' R1 id R2); assumption|].
  pose proof (hreach_inv p h Hok R) as I. pose proof (pages_pos p Hok) as Hpp.
  assert (Hid : In id (all_ids p h)) by (apply in_ret; rewrite Er; apply in_elt). destruct (i_desc _ _ I id Hid) as (_ & Ef).
  unfold get_size. rewrite Z.div_mul by lia. cbn [h' set_pages g_sc g_pm]. rewrite Ef, <- Es, upd_same.
  destruct (Z.eq_dec (g_sc h (sp_page s)) 0) as [E|E]; [rewrite E; reflexivity|exfalso].
  destruct (i_sc0 _ _ I _ E) as (k & x & Hk & Hx & Hr). destruct (i_ph _ _ I k x Hk Hx) as (El & _).
  assert (Hne : x <> id).
  { intros ->. pose proof (i_nd _ _ I) as N. unfold all_ids in N. apply NoDup_app_elim in N. destruct N as (_ & N & _). apply NoDup_app_elim in N.
    destruct N as (_ & _ & N). apply (N id); [rewrite Er; apply in_elt|]. apply in_or_app. right. apply (in_ph p h k id Hk Hx). }
  pose proof (ids_apart p h x id Hok I (in_class_all p h x (in_ph p h k x Hk Hx)) Hid Hne) as D. rewrite <- Es in D.
  destruct (id_span p h id Hok I Hid) as (Hl & _). rewrite <- Es in Hl. unfold sp_disj in D. lia.
Qed.
Print Assumptions double_free_found.

(** ** Nothing is lost *)

(** The objects of a class outside its central free list are each in exactly one place: in a thread's hands, in use by the
    program, in a transfer cache (or being moved into or out of it), in the hands of an operation on the per-CPU caches, or in
    a per-CPU cache. *)
Theorem objects_accounted : forall p h, hpar_ok p -> hreach p h ->
  exists R, HeapCaches.regions_of (num_classes (p_c p)) (h_tr h) R /\ forall k, In k (classes p) ->
    NoDup (h_hands h k ++ live_of k (h_live h) ++ HeapCaches.tcs_objs (h_tc h k) ++
      HeapCaches.slab_hands (p_nthr p) k (h_slab h) ++ HeapCaches.slab_objs R (h_tr h) k) /\
    Permutation (y_held (h_cl h k)) (h_hands h k ++ live_of k (h_live h) ++ HeapCaches.tcs_objs (h_tc h k) ++
      HeapCaches.slab_hands (p_nthr p) k (h_slab h) ++ HeapCaches.slab_objs R (h_tr h) k).
Proof.
  intros p h Hok R. pose proof (hreach_inv p h Hok R) as I. destruct (i_acct _ _ I) as (Rg & HR & P). exists Rg. split; [assumption|]. intros k Hk.
  split; [|apply P; assumption]. apply (Permutation_NoDup (P k Hk)). destruct (classes_in p _ Hok Hk) as (_ & Hc).
  apply (cf_hnd _ _ _ _ (good_facts _ _ _ _ Hc (i_class _ _ I _ Hk))).
Qed.
Print Assumptions objects_accounted.

(** The ranges of pages that the page heap of a tag has handed out are exactly those of the spans: not used yet, on their way
    back, allocations of whole pages, or in use by a class of that tag; each is counted once. *)
Theorem pages_accounted : forall p h, hpar_ok p -> hreach p h ->
  NoDup (fresh_ids (h_fresh h) ++ h_ret h ++ large_ids (h_live h) ++ class_ids p (h_cl h)) /\
  (forall t, SysAlloc.is_tag t -> Permutation (HeapPages.b_L (h_back h) t)
     (map (fun x => snd (h_desc h x)) (filter (fun x => fst (h_desc h x) =? t)
        (fresh_ids (h_fresh h) ++ h_ret h ++ large_ids (h_live h) ++ class_ids p (h_cl h))))) /\
  (forall k x, In k (classes p) -> In x (y_ph (h_cl h k)) ->
     memory_tag_from_size_class (p_c p) (p_parts p) k = Some (fst (h_desc h x)) /\ sp_len (snd (h_desc h x)) = cpages p k).
Proof.
  intros p h Hok R. pose proof (hreach_inv p h Hok R) as I. split; [apply (i_nd _ _ I)|]. split; [apply (i_tag _ _ I)|].
  intros k x Hk Hx. destruct (i_ph _ _ I k x Hk Hx). auto.
Qed.
Print Assumptions pages_accounted.

(** A span of pages that a class or the program gave up can always be returned to the page heap it came from, found by the
    address; it is then no longer counted as handed out. *)
Theorem pages_returned : forall p h R1 id R2, hpar_ok p -> hreach p h -> h_ret h = R1 ++ id :: R2 ->
  exists h' L1 L2, hstep p h h' /\ h_ret h' = R1 ++ R2 /\ h_live h' = h_live h /\
    HeapPages.b_L (h_back h) (get_memory_tag (first_page (g_span h id) * pg p)) = L1 ++ snd (h_desc h id) :: L2 /\
    HeapPages.b_L (h_back h') (get_memory_tag (first_page (g_span h id) * pg p)) = L1 ++ L2.
Proof.
  intros p h R1 id R2 Hok R Er. pose proof (hreach_inv p h Hok R) as I.
  assert (Hid : In id (all_ids p h)) by (apply in_ret; rewrite Er; apply in_elt).
  rewrite (id_tag p h id Hok I Hid). set (t := fst (h_desc h id)). destruct (i_desc _ _ I id Hid) as (Tx & _). fold t in Tx.
  assert (Hi : In (snd (h_desc h id)) (HeapPages.b_L (h_back h) t)).
  { apply (Permutation_in _ (Permutation_sym (i_tag _ _ I _ Tx))). apply in_map_iff. exists id. split; [reflexivity|]. apply filter_In. unfold t. split; [assumption|lia]. }
  apply in_split in Hi. destruct Hi as (L1 & L2 & EL). pose proof Hok as (_ & _ & _ & _ & (HP & HK & _) & _).
  pose proof (HeapPages.bi_hp _ _ (i_back _ _ I) t Tx) as Rp. rewrite EL in Rp.
  destruct (HpaaProps.page_free _ _ _ _ _ _ _ _ _ _ true (fun _ _ => true) 0 0 HP HK Rp) as (a' & E & _).
  pose proof (HeapPages.b_free (p_q p) (h_back h) t L1 _ L2 _ _ _ _ a' Tx EL E) as St.
  eexists. exists L1, L2. split; [|split; [|split; [|split; [exact EL|]]]].
  - apply (S_page_back p h t (snd (h_desc h id)) _ R1 id R2 St Er); [unfold t; rewrite (id_tag p h id Hok I Hid); reflexivity|reflexivity].
  - reflexivity.
  - reflexivity.
  - cbn [set_pages h_back HeapPages.set_hp HeapPages.b_L]. apply upd_same.
Qed.
Print Assumptions pages_returned.

(** Objects in a thread's hands can always be put back into the central free list: up to a batch's size if the spans of the
    class have several objects, any number if they have one.  The list recognises each as its own, from the address. *)
Theorem objects_returned : forall p h k batch rest, hpar_ok p -> hreach p h -> In k (classes p) ->
  (exists tag, memory_tag_from_size_class (p_c p) (p_parts p) k = Some tag) ->
  Permutation (h_hands h k) (batch ++ rest) -> batch <> [] -> Z.of_nat (length batch) <= 128 ->
  exists h', hstep p h h' /\ h_hands h' k = rest /\ h_live h' = h_live h /\ Permutation (y_held (h_cl h k)) (batch ++ y_held (h_cl h' k)).
Proof.
  intros p h k batch rest Hok R Hk (tag & Ht) Hp Hb Hl. pose proof (hreach_inv p h Hok R) as I. destruct (classes_in p k Hok Hk) as (Hr & Hc).
  destruct (i_acct _ _ I) as (Rg & _ & A). specialize (A k Hk).
  set (o := live_of k (h_live h) ++ HeapCaches.tcs_objs (h_tc h k) ++ HeapCaches.slab_hands (p_nthr p) k (h_slab h) ++ HeapCaches.slab_objs Rg (h_tr h) k) in *.
  assert (A' : Permutation (y_held (view h k)) (batch ++ rest ++ o)).
  { change (y_held (view h k)) with (y_held (h_cl h k)). rewrite A, Hp, app_assoc. reflexivity. }
  assert (St : exists y', cstep (p_c p) (csize p k) (cpages p k) (view h k) (Ev [] batch [] []) y' /\ y_held y' = rest ++ o).
  { destruct (i_class _ _ I k Hk) as [(H1 & Rc)|(H1 & pend1 & Ep & Rc)].
    - destruct (cfl_insert_succeeds _ _ _ _ Hc H1 Rc) as (S & _). destruct (S batch (rest ++ o) (fun _ => 0) A' Hb Hl) as (pr & E & _).
      eexists. split; [apply (k_prepare _ _ _ _ _ _ _ _ H1 A' E)|reflexivity].
    - destruct (cfl_one_object _ _ _ _ Hc H1 Rc) as (_ & _ & _ & S & _). cbn [z_f z_held] in S. destruct (S batch (rest ++ o) A') as (ids & E).
      eexists. split; [apply (k_map1 _ _ _ _ _ _ _ H1 A' E)|reflexivity]. }
  destruct St as (y' & St & Ey). eexists. split; [|split; [|split]].
  - apply (S_class p h k _ y' rest [] (h_fresh h) tag Hk St); cbn [e_out e_in e_got e_gave].
    + rewrite app_nil_r. exact Hp.
    + exact Ht.
    + reflexivity.
    + reflexivity.
    + constructor.
    + constructor.
  - cbn [set_class h_hands]. apply upd_same.
  - reflexivity.
  - cbn [set_class h_cl]. rewrite upd_same, Ey. exact A'.
Qed.
Print Assumptions objects_returned.

(** A request to the central free list of a class with several objects in a span never fails a check and returns objects that
    are nowhere else.  If it cannot be served in full, then every object of every span the list works with is in one of the
    places of [objects_accounted] or being moved by the list: there is no object that is free and cannot be had. *)
Theorem free_objects_found : forall p h k n tag, hpar_ok p -> hreach p h -> In k (classes p) -> 1 < cpages p k * pg p / csize p k ->
  memory_tag_from_size_class (p_c p) (p_parts p) k = Some tag -> 1 <= n ->
  exists l full f, remove_locked (p_c p) (csize p k) (cpages p k * pg p / csize p k) (y_f (view h k)) n = Some (l, full, f) /\
    NoDup l /\ (forall x, In x l -> ~ In x (y_held (h_cl h k))) /\
    (if full
     then Z.of_nat (length l) = n /\ exists h', hstep p h h' /\ h_hands h' k = l ++ h_hands h k /\ h_live h' = h_live h
     else forall id j, In id (published (view h k)) -> 0 <= j < cpages p k * pg p / csize p k ->
       In (sp_page (snd (h_desc h id)) * pg p + j * csize p k) (l ++ y_held (h_cl h k) ++ flat_map pend_objs (y_pend (h_cl h k)))).
Proof.
  intros p h k n tag Hok R Hk Hn Ht H1. pose proof (hreach_inv p h Hok R) as I. destruct (classes_in p k Hok Hk) as (Hr & Hc).
  pose proof (i_class _ _ I k Hk) as G. destruct G as [(Hn' & Rc)|(Hn' & _)]; [|fold (pg p) in Hn'; lia].
  destruct (cfl_remove_exact _ _ _ _ n Hc Hn Rc H1) as (l & full & f & E & N & Nin & T). exists l, full, f. split; [exact E|]. split; [exact N|].
  split.
  - intros x Hx Hh. apply (Nin x Hx). unfold out. apply in_or_app. left. exact Hh.
  - destruct full.
    + split; [assumption|]. pose proof (k_remove _ _ _ _ _ _ _ Hn H1 E) as St. eexists. split; [|split].
      * apply (S_class p h k _ _ (l ++ h_hands h k) [] (h_fresh h) tag Hk St); cbn [e_out e_in e_got e_gave app].
        -- apply Permutation_app_comm.
        -- exact Ht.
        -- reflexivity.
        -- reflexivity.
        -- constructor.
        -- constructor.
      * cbn [set_class h_hands]. apply upd_same.
      * reflexivity.
    + destruct T as (_ & T). intros id j Hid Hj. specialize (T id j Hid Hj).
      assert (Hph : In id (y_ph (h_cl h k))) by (apply filter_In in Hid; apply Hid).
      destruct (i_desc _ _ I id (in_class_all p h id (in_ph p h k id Hk Hph))) as (_ & Ef). cbn [view with_shared y_f f_span] in T. rewrite Ef in T. exact T.
Qed.
Print Assumptions free_objects_found.

(** The per-CPU caches are not held up by the others: a step of theirs can always be taken, given the objects it starts with
    if it is the start of an insertion; what it returns goes to the threads' hands. *)
Theorem cpu_caches_run : forall p h ls s', hpar_ok p -> hreach p h -> SlabRseq.rstep (p_ncpu p) (num_classes (p_c p)) (h_slab h) ls s' ->
  (forall t, t < 0 \/ p_nthr p <= t -> SlabRseq.pcs s' t = SlabRseq.Idle) ->
  (forall t o, SlabRseq.pcs (h_slab h) t = SlabRseq.Idle -> SlabRseq.pcs s' t = SlabRseq.Enter o ->
     exists rest : Z -> list Z, forall k, Permutation (h_hands h k) (HeapCaches.lop_objs k o ++ rest k)) ->
  exists hands', hstep p h (set_slab h s' (h_tr h ++ ls) hands').
Proof.
  intros p h ls s' Hok R St Hi He. pose proof (hreach_inv p h Hok R) as I.
  destruct (HeapCaches.slab_moves _ _ (p_nthr p) _ _ _ St) as (given & back & Hg & P).
  { intros t Ht. split; [apply (i_idle _ _ I); assumption|apply Hi; assumption]. }
  assert (Hr : exists rest : Z -> list Z, forall k, Permutation (h_hands h k) (given k ++ rest k)).
  { destruct Hg as [Hg|(t & o & A & B & C)].
    - exists (h_hands h). intros k. rewrite Hg. reflexivity.
    - destruct (He t o A B) as (rest & Hrest). exists rest. intros k. rewrite C. apply Hrest. }
  destruct Hr as (rest & Hrest). exists (fun k => rest k ++ back k ++ HeapCaches.takens k ls). apply S_slab; [assumption|assumption|].
  intros k _. specialize (P k). specialize (Hrest k). rewrite Hrest. clear - P. pcnt.
Qed.
Print Assumptions cpu_caches_run.
