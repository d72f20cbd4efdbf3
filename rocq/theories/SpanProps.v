(** C16 and C17: objects of a span. *)
From Coq Require Import Permutation.
From Verif Require Import Base SizeMap SizeMapProofs SizeMapProofs2 Bitmap Span SpanProofs SpanProofs2.

(** A history of one span of a size class with objects of [size] bytes and
    [pages] pages: the span descriptor and the memory may hold anything before
    the span is carved up; then objects are popped, returned (in any order and
    grouping, by address or by index), and the owners of live objects write
    anything into them.  [live] are the objects that have been handed out and not
    returned. *)
Inductive history (c : cfg) (size pages : Z) : memory -> span -> list Z -> Prop :=
| h_build m0 s0 n l m s :
    0 <= n -> build_freelist c m0 s0 size (pages * page_size c / size) n = (l, m, s) ->
    history c size pages m s l
| h_pop m s live n l s' : history c size pages m s live ->
    0 <= n -> freelist_pop_batch c m s n size = (l, s') ->
    history c size pages m s' (l ++ live)
| h_push m s live batch rest m' s' : history c size pages m s live ->
    Permutation live (batch ++ rest) ->
    freelist_push_batch c m s batch size (calc_reciprocal size) = (m', s', true) ->
    history c size pages m' s' rest
| h_push_idx m s live batch rest m' s' : history c size pages m s live ->
    Permutation live (batch ++ rest) ->
    freelist_push_idx_batch c m s (ptrs_to_idx c s size (calc_reciprocal size) batch) size = (m', s', true) ->
    history c size pages m' s' rest
| h_write m s live p a v : history c size pages m s live ->
    In p live -> p <= a < p + size ->
    history c size pages (upd m a v) s live.

Definition span_inv (c : cfg) (size pages : Z) (m : memory) (s : span) (live : list Z) : Prop :=
  exists F, Permutation (live ++ F) (objs (span_start c s) size 0 (Z.to_nat (objects c size pages))) /\
    span_repr c size pages m s F /\ allocated s = Z.of_nat (length live).

Lemma span_inv_facts c size pages s live F : class_ok c size pages ->
  Permutation (live ++ F) (objs (span_start c s) size 0 (Z.to_nat (objects c size pages))) ->
  NoDup (live ++ F) /\ Forall (valid (span_start c s) size (objects c size pages)) (live ++ F) /\
  Z.of_nat (length live) + Z.of_nat (length F) = objects c size pages.
Proof.
  intros Hc HP. pose proof (g_size _ _ _ (class_geom _ _ _ Hc)). pose proof (objects_small _ _ _ Hc).
  split; [rewrite HP; apply objs_NoDup; lia|]. split.
  - rewrite HP. apply Forall_forall. intros p. apply valid_objs.
  - apply Permutation_length in HP. rewrite app_length in HP. unfold objs in HP. rewrite map_length, zseq_length in HP. lia.
Qed.

Lemma push_inv c size pages m s live batch rest m' s' r : class_ok c size pages ->
  span_inv c size pages m s live -> Permutation live (batch ++ rest) ->
  freelist_push_batch c m s batch size (calc_reciprocal size) = (m', s', r) ->
  (r = false <-> rest = []) /\ (r = false -> m' = m /\ s' = s) /\
  (r = true -> span_inv c size pages m' s' rest /\ first_page s' = first_page s /\
     forall p a, In p rest -> p <= a < p + size -> m' a = m a).
Proof.
  intros Hc (F & HP & HR & HA) HL E.
  destruct (span_inv_facts _ _ _ _ _ _ Hc HP) as (Hnd & Hv & Hlen).
  assert (HPb : Permutation (live ++ F) (rest ++ batch ++ F)).
  { rewrite HL, (Permutation_app_comm batch rest), <- app_assoc. reflexivity. }
  rewrite HPb in Hnd, Hv. pose proof (NoDup_app_elim _ _ Hnd) as (_ & Hnd2 & Hno). pose proof Hv as Hv2. apply Forall_app in Hv2.
  apply (repr_push c size pages m s F) in E; try assumption; [|tauto].
  destruct E as (E1 & E2 & E3). pose proof (Permutation_length HL) as Hll. rewrite app_length in Hll.
  split; [|split; [assumption|]].
  - rewrite E1, HA. destruct rest as [|x rest]; cbn [length] in Hll.
    + split; [reflexivity|intros _]. replace (_ =? _) with true by lia. reflexivity.
    + split; [|discriminate]. replace (_ =? _) with false by lia. discriminate.
  - intros Hr. destruct (E3 Hr) as (F' & P1 & P2 & P3 & P4 & P5).
    assert (Hst : span_start c s' = span_start c s) by (unfold span_start; rewrite P3; reflexivity).
    split; [|split; [assumption|]].
    + exists F'. split; [rewrite Hst, P1, <- HPb; assumption|]. split; [assumption|].
      rewrite P4, HA. pose proof (objects_small _ _ _ Hc). unfold u16. rewrite Z.mod_small; lia.
    + intros p a Hp Ha. apply P5. intros q Hq Hqa. apply (Hno p Hp).
      destruct (Z.eq_dec p q) as [->|Hne]; [assumption|].
      destruct Hv2 as (Hv3 & Hv4). rewrite Forall_forall in Hv3, Hv4.
      pose proof (g_size _ _ _ (class_geom _ _ _ Hc)).
      destruct (valid_apart (span_start c s) size (objects c size pages) p q) as [?|?]; auto; lia.
Qed.

Lemma pop_inv c size pages m s live n l s' : class_ok c size pages ->
  span_inv c size pages m s live -> 0 <= n -> freelist_pop_batch c m s n size = (l, s') ->
  span_inv c size pages m s' (l ++ live) /\ first_page s' = first_page s /\
  Z.of_nat (length l) = Z.min n (objects c size pages - Z.of_nat (length live)).
Proof.
  intros Hc (F & HP & HR & HA) Hn E.
  destruct (span_inv_facts _ _ _ _ _ _ Hc HP) as (Hnd & Hv & Hlen).
  apply (repr_pop c size pages m s F) in E; try assumption. destruct E as (F' & P1 & P2 & P3 & P4 & P5).
  pose proof (Permutation_length P1) as Hll. rewrite app_length in Hll.
  split; [|split; [assumption|lia]].
  exists F'. unfold span_start in *. rewrite P4. split.
  - rewrite <- HP, P1. rewrite app_assoc. apply Permutation_app_tail. apply Permutation_app_comm.
  - split; [assumption|]. rewrite P5, HA, app_length. pose proof (objects_small _ _ _ Hc). unfold u16. rewrite Z.mod_small; lia.
Qed.

Lemma history_inv c size pages m s live : class_ok c size pages ->
  history c size pages m s live -> span_inv c size pages m s live.
Proof.
  intros Hc H. induction H as [m0 s0 n l m s Hn E|m s live n l s' H IH Hn E|m s live batch rest m' s' H IH HL E|m s live batch rest m' s' H IH HL E|m s live p a v H IH Hp Ha].
  - apply (repr_build c size pages) in E; try assumption. destruct E as (F & P1 & P2 & P3 & P4 & P5 & P6).
    exists F. split; [|auto]. unfold span_start in *. rewrite P4. assumption.
  - apply (pop_inv c size pages m s live) in E as (? & _); assumption.
  - apply (push_inv c size pages m s live batch rest) in E as (_ & _ & E); try assumption. apply E. reflexivity.
  - assert (Hv : Forall (valid (span_start c s) size (objects c size pages)) batch).
    { destruct IH as (F & HP & _). destruct (span_inv_facts _ _ _ _ _ _ Hc HP) as (_ & Hv & _).
      apply Forall_app in Hv. destruct Hv as (Hv & _). rewrite HL in Hv. apply Forall_app in Hv. tauto. }
    rewrite (push_idx_eq c size pages) in E by assumption.
    apply (push_inv c size pages m s live batch rest) in E as (_ & _ & E); try assumption. apply E. reflexivity.
  - destruct IH as (F & HP & HR & HA). exists F. split; [assumption|]. split; [|assumption].
    destruct (span_inv_facts _ _ _ _ _ _ Hc HP) as (Hnd & Hv & _).
    apply NoDup_app_elim in Hnd. destruct Hnd as (_ & _ & Hno). apply Forall_app in Hv. destruct Hv as (V1 & V2).
    rewrite Forall_forall in V1, V2.
    apply (repr_write c size pages m); [assumption|assumption|]. intros q b Hq Hb. unfold upd.
    destruct (Z.eqb_spec b a) as [->|]; [|reflexivity]. exfalso.
    destruct (Z.eq_dec p q) as [->|Hne]; [apply (Hno q); assumption|].
    pose proof (g_size _ _ _ (class_geom _ _ _ Hc)).
    destruct (valid_apart (span_start c s) size (objects c size pages) p q) as [?|?]; auto; lia.
Qed.

(** C16: at every point of every history, live objects are distinct, sit inside the
    span at multiples of the object size, and their byte ranges are disjoint; the
    span's counter is exact and the span reports itself exhausted exactly when
    every object is live. *)
Theorem span_live_objects : forall c size pages m s live,
  class_ok c size pages -> history c size pages m s live ->
  NoDup live /\
  (forall p, In p live -> exists k, 0 <= k < pages * page_size c / size /\
     p = first_page s * page_size c + k * size /\
     first_page s * page_size c <= p /\ p + size <= (first_page s + pages) * page_size c) /\
  (forall p q, In p live -> In q live -> p <> q -> p + size <= q \/ q + size <= p) /\
  allocated s = Z.of_nat (length live) /\
  (freelist_empty s (pages * page_size c / size) = true <-> Z.of_nat (length live) = pages * page_size c / size).
Proof.
  intros c size pages m s live Hc H. apply history_inv in H; [|assumption].
  destruct H as (F & HP & HR & HA). destruct (span_inv_facts _ _ _ _ _ _ Hc HP) as (Hnd & Hv & Hlen).
  apply NoDup_app_elim in Hnd. apply Forall_app in Hv. destruct Hv as (V1 & V2). rewrite Forall_forall in V1.
  pose proof (class_geom _ _ _ Hc) as G. pose proof (g_fit _ _ _ G). pose proof (g_size _ _ _ G).
  split; [tauto|]. split; [|split; [|split; [assumption|]]].
  - intros p Hp. destruct (V1 p Hp) as (k & Hk & ->). exists k. unfold obj, span_start. unfold objects in *.
    split; [assumption|]. split; [reflexivity|]. nia.
  - intros p q Hp Hq. apply (valid_apart (span_start c s) size (objects c size pages)); auto. lia.
  - unfold freelist_empty. rewrite HA. lia.
Qed.
Print Assumptions span_live_objects.

(** C16: what a pop returns was not live, and a pop returns as many objects as were
    asked for unless fewer than that are free: no free object is ever lost. *)
Theorem span_pop_exact : forall c size pages m s live n l s',
  class_ok c size pages -> history c size pages m s live -> 0 <= n ->
  freelist_pop_batch c m s n size = (l, s') ->
  NoDup l /\ (forall p, In p l -> ~ In p live) /\
  Z.of_nat (length l) = Z.min n (pages * page_size c / size - Z.of_nat (length live)).
Proof.
  intros c size pages m s live n l s' Hc H Hn E.
  assert (H' := h_pop c size pages m s live n l s' H Hn E).
  apply span_live_objects in H'; [|assumption]. destruct H' as (Hnd & _). apply NoDup_app_elim in Hnd.
  split; [tauto|]. split; [tauto|]. apply history_inv in H; [|assumption].
  apply (pop_inv c size pages m s live) in E; [|assumption..]. apply E.
Qed.
Print Assumptions span_pop_exact.

(** C16: carving up a fresh span hands out min(n, all) distinct objects and does not
    touch their memory. *)
Theorem span_build_exact : forall c size pages m0 s0 n l m s,
  class_ok c size pages -> 0 <= n ->
  build_freelist c m0 s0 size (pages * page_size c / size) n = (l, m, s) ->
  first_page s = first_page s0 /\ NoDup l /\
  Z.of_nat (length l) = Z.min n (pages * page_size c / size) /\
  (forall p a, In p l -> p <= a < p + size -> m a = m0 a).
Proof.
  intros c size pages m0 s0 n l m s Hc Hn E.
  assert (E' := E). apply (repr_build c size pages) in E'; try assumption.
  destruct E' as (F & P1 & P2 & P3 & P4 & P5 & P6).
  destruct (span_inv_facts c size pages s0 l F Hc P1) as (Hnd & Hv & Hlen).
  apply NoDup_app_elim in Hnd. destruct Hnd as (N1 & N2 & N3). apply Forall_app in Hv. destruct Hv as (V1 & V2).
  rewrite Forall_forall in V1, V2.
  split; [assumption|]. split; [assumption|]. split; [assumption|].
  intros p a Hp Ha. apply P6. intros q Hq Hqa.
  destruct (Z.eq_dec p q) as [->|Hne]; [apply (N3 q); assumption|].
  pose proof (g_size _ _ _ (class_geom _ _ _ Hc)).
  destruct (valid_apart (span_start c s0) size (objects c size pages) p q) as [?|?]; auto; lia.
Qed.
Print Assumptions span_build_exact.

(** C16: returning objects, by address or by index, succeeds exactly when some other
    object of the span stays live; otherwise the whole span is reported free.  The
    bookkeeping written into free objects never touches an object that stays live. *)
Theorem span_push_exact : forall c size pages m s live batch rest,
  class_ok c size pages -> history c size pages m s live -> Permutation live (batch ++ rest) ->
  freelist_push_idx_batch c m s (ptrs_to_idx c s size (calc_reciprocal size) batch) size =
    freelist_push_batch c m s batch size (calc_reciprocal size) /\
  forall m' s' r, freelist_push_batch c m s batch size (calc_reciprocal size) = (m', s', r) ->
  (r = false <-> rest = []) /\ first_page s' = first_page s /\
  (forall p a, In p rest -> p <= a < p + size -> m' a = m a).
Proof.
  intros c size pages m s live batch rest Hc H HL. apply history_inv in H; [|assumption]. split.
  - apply push_idx_eq with pages; [assumption|].
    destruct H as (F & HP & _). destruct (span_inv_facts _ _ _ _ _ _ Hc HP) as (_ & Hv & _).
    apply Forall_app in Hv. destruct Hv as (Hv & _). rewrite HL in Hv. apply Forall_app in Hv. tauto.
  - intros m' s' r E. apply (push_inv c size pages m s live batch rest) in E; try assumption.
    destruct E as (E1 & E2 & E3). split; [assumption|]. destruct r.
    + destruct E3 as (_ & A & B); auto.
    + destruct E2 as (-> & ->); auto.
Qed.
Print Assumptions span_push_exact.

(** C17: for every object of a span, both index computations are the exact quotients:
    the reciprocal one gives the object's number, the shift one its offset in
    8-byte units; and the indices map back to the object. *)
Theorem span_index_exact : forall c size pages fp k,
  class_ok c size pages -> 0 <= k < pages * page_size c / size ->
  let start := fp * page_size c in
  let p := start + k * size in
  (use_bitmap_for_size c size = true ->
     bitmap_ptr_to_idx start p (calc_reciprocal size) = (p - start) / size /\
     bitmap_idx_to_ptr start ((p - start) / size) size = p) /\
  (use_bitmap_for_size c size = false ->
     ptr_to_idx c p = (p - start) / 8 /\ ptr_to_idx c p <> k_list_end /\
     idx_to_ptr start (ptr_to_idx c p) = p).
Proof.
  intros c size pages fp k Hc Hk start p. pose proof (g_size _ _ _ (class_geom _ _ _ Hc)) as Hs.
  pose proof (g_size8 _ _ _ (class_geom _ _ _ Hc)) as H8.
  assert (Hq : (p - start) / size = k).
  { unfold p. replace (start + k * size - start) with (k * size) by lia. apply Z.div_mul. lia. }
  split; intros Hu.
  - rewrite Hq. split; [|reflexivity]. apply (bitmap_idx_exact c size pages); assumption.
  - destruct (list_idx_exact c size pages fp k Hc Hk Hu) as (I1 & I2 & I3 & _).
    change (ptr_to_idx c p = k * (size / 8)) in I1. rewrite I1. split; [|split; [unfold k_list_end; lia|assumption]].
    unfold p. replace (start + k * size - start) with (k * (size / 8) * 8).
    + rewrite Z.div_mul by lia. reflexivity.
    + pose proof (Z.div_mod size 8 ltac:(lia)). nia.
Qed.
Print Assumptions span_index_exact.

(** The hypotheses are met: an 8-byte class (list) and a 512-byte class (bitmap)
    of an 8 KiB-page configuration, each with a history that pops, returns out of
    order and pops again. *)
Definition ex_cfg : cfg := cfg13 2 1.
Example class_8 : class_ok ex_cfg 8 1.
Proof.
  split; [exists 2, 1; split; [lia|auto]|]. split; [lia|]. split; [lia|].
  exists 32. vm_compute. reflexivity.
Qed.
Example class_512 : class_ok ex_cfg 512 1.
Proof.
  split; [exists 2, 1; split; [lia|auto]|]. split; [lia|]. split; [lia|].
  exists 32. vm_compute. reflexivity.
Qed.

Definition garbage : span := MkSpan 7 9 4 11 5 (fun _ => 77) (fun _ => 99).
Definition ex_live (size : Z) (ks : list Z) : list Z := map (fun k => 7 * 8192 + k * size) ks.

Lemma triple {A B} (x : A * B * bool) : snd x = true -> x = (fst (fst x), snd (fst x), true).
Proof. destruct x as [[a b] r]. cbn. congruence. Qed.

(** 16 objects handed out, one of them written to, then 15 returned in two groups,
    then 14 handed out again.  With 8-byte objects the cache is full of never used
    objects, so the returned ones are threaded through the free objects. *)
Definition ex_build size pages := build_freelist ex_cfg (fun _ => 5) garbage size (pages * page_size ex_cfg / size) 16.
Definition ex_mem1 size pages := upd (snd (fst (ex_build size pages))) (7 * 8192 + 15 * size) 1234.
Definition ex_push1 size pages :=
  freelist_push_batch ex_cfg (ex_mem1 size pages) (snd (ex_build size pages)) (ex_live size (zseq 0 6)) size (calc_reciprocal size).
Definition ex_push2 size pages :=
  freelist_push_idx_batch ex_cfg (fst (fst (ex_push1 size pages))) (snd (fst (ex_push1 size pages)))
   (ptrs_to_idx ex_cfg (snd (fst (ex_push1 size pages))) size (calc_reciprocal size) (ex_live size (zseq 6 9))) size.
Definition ex_pop size pages :=
  freelist_pop_batch ex_cfg (fst (fst (ex_push2 size pages))) (snd (fst (ex_push2 size pages))) 14 size.

Lemma example_history size pages :
  fst (fst (ex_build size pages)) = ex_live size (zseq 0 16) ->
  snd (ex_push1 size pages) = true -> snd (ex_push2 size pages) = true -> 0 < size ->
  history ex_cfg size pages (fst (fst (ex_push2 size pages))) (snd (ex_pop size pages))
    (fst (ex_pop size pages) ++ ex_live size [15]).
Proof.
  intros H1 H2 H3 Hs. eapply h_pop with (n := 14); [|lia|apply surjective_pairing].
  eapply h_push_idx; [| |apply (triple _ H3)].
  - eapply h_push with (live := ex_live size (zseq 0 16)) (rest := ex_live size (zseq 6 10)); [| |apply (triple _ H2)].
    + apply h_write with (p := 7 * 8192 + 15 * size); [| |lia].
      * apply h_build with (m0 := fun _ => 5) (s0 := garbage) (n := 16); [lia|]. unfold ex_build.
        rewrite <- H1. unfold ex_build. destruct (build_freelist _ _ _ _ _ _) as [[a b] d]. reflexivity.
      * apply in_map_iff. exists 15. split; [reflexivity|]. apply zseq_In. lia.
    + unfold ex_live. rewrite <- map_app. reflexivity.
  - unfold ex_live. rewrite <- map_app. reflexivity.
Qed.

Example history_8 : exists m s,
  history ex_cfg 8 1 m s (ex_live 8 [27; 26; 25; 24; 23; 22; 21; 20; 19; 18; 17; 16; 14; 13; 15]).
Proof.
  exists (fst (fst (ex_push2 8 1))), (snd (ex_pop 8 1)).
  assert (E : ex_live 8 [27; 26; 25; 24; 23; 22; 21; 20; 19; 18; 17; 16; 14; 13; 15] = fst (ex_pop 8 1) ++ ex_live 8 [15])
    by (vm_compute; reflexivity).
  rewrite E. apply example_history; [vm_compute; reflexivity..|lia].
Qed.

Example history_512 : exists m s,
  history ex_cfg 512 1 m s (ex_live 512 [0; 1; 2; 3; 4; 5; 6; 7; 8; 9; 10; 11; 12; 13; 15]).
Proof.
  exists (fst (fst (ex_push2 512 1))), (snd (ex_pop 512 1)).
  assert (E : ex_live 512 [0; 1; 2; 3; 4; 5; 6; 7; 8; 9; 10; 11; 12; 13; 15] = fst (ex_pop 512 1) ++ ex_live 512 [15])
    by (vm_compute; reflexivity).
  rewrite E. apply example_history; [vm_compute; reflexivity..|lia].
Qed.
