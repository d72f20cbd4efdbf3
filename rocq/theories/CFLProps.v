(** C18 and C19: the central free list under every interleaving. *)
From Coq Require Import Permutation.
From Verif Require Import Base SizeMap SizeMapProofs SizeMapProofs2 Bitmap BitmapProofs BitmapProofs2 Span SpanProofs SpanProofs2 SpanProps
  HintedLists HintedListsProofs CentralFreeList CFLProofs CFLProofs2 CFLProofs3.

(** ** The system: any number of threads using one central free list

    A thread inside an operation, between two critical sections. *)
Inductive pend :=
| PRemove (objs : list Z) (room : Z)        (* in Populate, lock dropped: objects popped so far, room left *)
| PPublish (objs l : list Z) (id : Z)       (* in Populate, new span [id] built, [l] taken from it; lock not yet reacquired *)
| PInsert (p : prepared)                    (* in InsertRange, before the lock *)
| PFree (ids : list Z).                     (* in InsertRange, after the lock: spans to give back to the page heap *)

(** [y_ph]: descriptors of the spans the page heap has handed to this list and not got
    back; [y_held]: objects in the hands of callers; [y_pend]: the threads. *)
Record sys := MkSys { y_f : cfl; y_ph : list Z; y_held : list Z; y_pend : list pend }.

Definition p_objs (p : prepared) : list Z := map (p_batch p) (zseq 0 (Z.to_nat (p_n p))).

(** What a caller may do to the rest of the process: the memory, page map entries and
    descriptors of spans not owned by this list change arbitrarily. *)
Definition env_ok (c : cfg) (pages : Z) (f : cfl) (ph : list Z) (m : memory) (sp : Z -> span) (ni : Z -> Z) (pm : Z -> option Z) : Prop :=
  forall id, In id ph ->
    sp id = f_span f id /\ ni id = f_nidx f id /\
    (forall pg, first_page (f_span f id) <= pg < first_page (f_span f id) + pages -> pm pg = f_pagemap f pg) /\
    (forall a, first_page (f_span f id) * page_size c <= a < (first_page (f_span f id) + pages) * page_size c -> m a = f_mem f a).

(** The page heap's promise (C09): a new span does not overlap the spans it has already
    handed out, and has its own descriptor. *)
Definition fresh_span (pages : Z) (f : cfl) (ph : list Z) (id : Z) (s : span) : Prop :=
  ~ In id ph /\ forall x, In x ph ->
    first_page (f_span f x) + pages <= first_page s \/ first_page s + pages <= first_page (f_span f x).

Inductive reach (c : cfg) (size pages : Z) : sys -> Prop :=
| r_init m sp ni pm :
    reach c size pages (MkSys (MkCfl m sp ni pm hl_empty 0 0 0 (fun _ => 0)) [] [] [])
(* RemoveRange: the loop fills the batch *)
| r_remove y n l f : reach c size pages y -> 1 <= n ->
    remove_locked c size (pages * page_size c / size) (y_f y) n = Some (l, true, f) ->
    reach c size pages (MkSys (update_object_counts f (- Z.of_nat (length l))) (y_ph y) (l ++ y_held y) (y_pend y))
(* RemoveRange: the lists run empty, Populate drops the lock *)
| r_remove_short y n l f : reach c size pages y -> 1 <= n ->
    remove_locked c size (pages * page_size c / size) (y_f y) n = Some (l, false, f) ->
    reach c size pages (MkSys f (y_ph y) (y_held y) (PRemove l (n - Z.of_nat (length l)) :: y_pend y))
(* Populate: the page heap has no memory *)
| r_oom y objs room a b : reach c size pages y -> y_pend y = a ++ PRemove objs room :: b ->
    reach c size pages (MkSys (update_object_counts (y_f y) (- Z.of_nat (length objs))) (y_ph y) (objs ++ y_held y) (a ++ b))
(* Populate: a new span, carved up without the lock *)
| r_span y objs room a b id s0 l m s : reach c size pages y -> y_pend y = a ++ PRemove objs room :: b ->
    fresh_span pages (y_f y) (y_ph y) id s0 ->
    build_freelist c (f_mem (y_f y)) s0 size (pages * page_size c / size) room = (l, m, s) ->
    reach c size pages (MkSys (set_mem_span (register (y_f y) pages id s0) m id s) (id :: y_ph y) (y_held y) (a ++ PPublish objs l id :: b))
(* Populate: the lock is reacquired; RemoveRange returns *)
| r_publish y objs l id a b : reach c size pages y -> y_pend y = a ++ PPublish objs l id :: b ->
    reach c size pages (MkSys
      (update_object_counts (populate_locked (pages * page_size c / size) (y_f y) id (Z.of_nat (length l)))
         (- Z.of_nat (length (objs ++ l))))
      (y_ph y) (objs ++ l ++ y_held y) (a ++ b))
(* InsertRange: before the lock *)
| r_prepare y batch rest runs0 p : reach c size pages y -> Permutation (y_held y) (batch ++ rest) ->
    insert_prepare c size (y_f y) batch runs0 = Some p ->
    reach c size pages (MkSys (y_f y) (y_ph y) rest (PInsert p :: y_pend y))
(* InsertRange: the critical section *)
| r_insert y p a b ids f : reach c size pages y -> y_pend y = a ++ PInsert p :: b ->
    insert_locked c size (pages * page_size c / size) (y_f y) p = Some (ids, f) ->
    reach c size pages (MkSys f (y_ph y) (y_held y) (a ++ PFree ids :: b))
(* InsertRange: give a span back to the page heap *)
| r_free y id ids a b : reach c size pages y -> y_pend y = a ++ PFree (id :: ids) :: b ->
    reach c size pages (MkSys (unregister (y_f y) pages id) (rem1 id (y_ph y)) (y_held y) (a ++ PFree ids :: b))
(* a caller writes into an object it holds *)
| r_write y p a v : reach c size pages y -> In p (y_held y) -> p <= a < p + size ->
    reach c size pages (MkSys (set_mem_span (y_f y) (upd (f_mem (y_f y)) a v) 0 (f_span (y_f y) 0)) (y_ph y) (y_held y) (y_pend y))
(* anything else in the process *)
| r_env y m sp ni pm : reach c size pages y -> env_ok c pages (y_f y) (y_ph y) m sp ni pm ->
    reach c size pages (MkSys
      (MkCfl m sp ni pm (f_nonempty (y_f y)) (f_counter (y_f y)) (f_requested (y_f y)) (f_returned (y_f y)) (f_util (y_f y)))
      (y_ph y) (y_held y) (y_pend y)).

(** ** Observations *)
Definition pend_objs (x : pend) : list Z :=
  match x with PRemove o _ => o | PPublish o l _ => o ++ l | PInsert p => p_objs p | PFree _ => [] end.
Definition pend_inserting (x : pend) : list Z := match x with PInsert p => p_objs p | _ => [] end.
Definition pend_private (x : pend) : list Z := match x with PPublish _ _ id => [id] | _ => [] end.
Definition pend_freeing (x : pend) : list Z := match x with PFree ids => ids | _ => [] end.

(** Objects outside the free lists: held by callers, or in the hands of a thread inside an
    operation. *)
Definition out (y : sys) : list Z := y_held y ++ flat_map pend_objs (y_pend y).
(** Objects that have been returned by RemoveRange and not yet put back. *)
Definition in_use (y : sys) : list Z := y_held y ++ flat_map pend_inserting (y_pend y).
Definition private (y : sys) : list Z := flat_map pend_private (y_pend y).
Definition freeing (y : sys) : list Z := flat_map pend_freeing (y_pend y).
(** The spans the list works with. *)
Definition published (y : sys) : list Z := filter (fun id => negb (zmem id (private y ++ freeing y))) (y_ph y).

Definition in_span (c : cfg) (pages : Z) (f : cfl) (id p : Z) : bool :=
  (first_page (f_span f id) * page_size c <=? p) && (p <? (first_page (f_span f id) + pages) * page_size c).
(** Number of objects of span [id] that are out. *)
Definition n_out (c : cfg) (pages : Z) (y : sys) (id : Z) : Z :=
  Z.of_nat (length (filter (in_span c pages (y_f y) id) (out y))).

(** ** The invariant *)
Definition pend_ok (c : cfg) (size : Z) (f : cfl) (pub : list Z) (L : Z -> list Z) (x : pend) : Prop :=
  match x with
  | PRemove o room => 1 <= room
  | PPublish o l id => L id = l
  | PInsert p => 1 <= p_n p /\ good_runs (p_n p) (p_spans p) (p_runs p) 0 /\
      forall j, 0 <= j < p_n p -> In (p_spans p j) pub /\ In (p_batch p j) (L (p_spans p j)) /\
        p_idx p j = obj_idx c size (first_page (f_span f (p_spans p j))) (p_batch p j)
  | PFree ids => True
  end.

Record inv (c : cfg) (size pages : Z) (y : sys) (own pub : list Z) (L : Z -> list Z) : Prop := {
  i_core : core c size pages (y_f y) own pub L;
  i_ph : Permutation (y_ph y) (own ++ freeing y);
  i_phn : NoDup (y_ph y);
  i_apart : apart pages (y_f y) (y_ph y);
  i_pm : forall id pg, In id (y_ph y) -> first_page (f_span (y_f y) id) <= pg < first_page (f_span (y_f y) id) + pages ->
     f_pagemap (y_f y) pg = Some id;
  i_own : Permutation own (pub ++ private y);
  i_out : Permutation (cat L own) (out y);
  i_pend : Forall (pend_ok c size (y_f y) pub L) (y_pend y);
  i_counter : f_counter (y_f y) = objects c size pages * Z.of_nat (length pub) - Z.of_nat (length (in_use y));
  i_spans : f_requested (y_f y) - f_returned (y_f y) = Z.of_nat (length pub)
}.

Lemma flat_map_mid {A} (h : A -> list Z) a x b : Permutation (flat_map h (a ++ x :: b)) (h x ++ flat_map h (a ++ b)).
Proof.
  rewrite !flat_map_app. cbn [flat_map]. rewrite !app_assoc. apply Permutation_app_tail. apply Permutation_app_comm.
Qed.

Lemma span_inv_write c size pages m s live p a v : class_ok c size pages -> span_inv c size pages m s live ->
  In p live -> p <= a < p + size -> span_inv c size pages (upd m a v) s live.
Proof.
  intros Hc (F & HP & HR & HA) Hp Ha. exists F. split; [assumption|]. split; [|assumption].
  destruct (span_inv_facts _ _ _ _ _ _ Hc HP) as (Hnd & Hv & _).
  apply NoDup_app_elim in Hnd. destruct Hnd as (_ & _ & Hno). apply Forall_app in Hv. destruct Hv as (V1 & V2).
  rewrite Forall_forall in V1, V2.
  apply (repr_write c size pages m); [assumption|assumption|]. intros q b Hq Hb. unfold upd.
  destruct (Z.eqb_spec b a) as [->|]; [|reflexivity]. exfalso.
  destruct (Z.eq_dec p q) as [->|Hne]; [apply (Hno q); assumption|].
  pose proof (g_size _ _ _ (class_geom _ _ _ Hc)).
  destruct (valid_apart (span_start c s) size (objects c size pages) p q) as [?|?]; auto; lia.
Qed.

(** The core only depends on part of the state. *)
Lemma core_same c size pages f g own pub L : core c size pages f own pub L ->
  f_mem g = f_mem f -> f_span g = f_span f -> f_nidx g = f_nidx f -> f_nonempty g = f_nonempty f -> f_util g = f_util f ->
  core c size pages g own pub L.
Proof.
  intros [A1 A2 A3 A4 A5 A6 A7] E1 E2 E3 E4 E5. constructor; rewrite ?E1, ?E2, ?E3, ?E4, ?E5; auto.
  intros x y. rewrite E2. apply A4.
Qed.

Lemma counts_core c size pages f own pub L a b d : core c size pages f own pub L -> core c size pages (set_counts f a b d) own pub L.
Proof. intros H. apply (core_same c size pages f); auto. Qed.

Lemma held_pub c size pages y own pub L p : class_ok c size pages -> inv c size pages y own pub L -> In p (y_held y) ->
  exists id, In id pub /\ In p (L id) /\ valid (span_start c (f_span (y_f y) id)) size (objects c size pages) p.
Proof.
  intros Hc I Hp. pose proof (i_core _ _ _ _ _ _ _ I) as Co.
  assert (Hin : In p (cat L own)) by (rewrite (i_out _ _ _ _ _ _ _ I); apply in_or_app; auto).
  apply cat_In in Hin. destruct Hin as (id & Hid & Hpl). exists id.
  assert (Hv : valid (span_start c (f_span (y_f y) id)) size (objects c size pages) p).
  { destruct (co_span _ _ _ _ _ _ _ Co id Hid) as (S & _). apply (span_bounds _ _ _ _ _ _ p Hc S Hpl). }
  split; [|auto]. pose proof Hid as Hid'. rewrite (i_own _ _ _ _ _ _ _ I) in Hid'. apply in_app_or in Hid'. destruct Hid' as [|Hpr]; [assumption|exfalso].
  unfold private in Hpr. apply in_flat_map in Hpr. destruct Hpr as (x & Hx & Hix).
  destruct x as [| o l id' | |]; cbn [pend_private] in Hix; try contradiction. destruct Hix as [->|[]].
  pose proof (i_pend _ _ _ _ _ _ _ I) as Hpo. rewrite Forall_forall in Hpo. specialize (Hpo _ Hx). cbn in Hpo.
  pose proof (core_NoDup _ _ _ _ _ _ _ Hc Co) as Hnd. rewrite (i_out _ _ _ _ _ _ _ I) in Hnd. unfold out in Hnd.
  apply NoDup_app_elim in Hnd. destruct Hnd as (_ & _ & Hno). apply (Hno p Hp). apply in_flat_map. exists (PPublish o l id).
  split; [assumption|]. cbn [pend_objs]. apply in_or_app. right. rewrite <- Hpo. assumption.
Qed.

Ltac invd I := let H := fresh in pose proof I as H; destruct H as [Ico Iph Iphn Iap Ipm Iown Iout Ipend Icnt Isp].

Lemma inv_remove c size pages y own pub L n l full f : class_ok c size pages -> inv c size pages y own pub L -> 1 <= n ->
  remove_locked c size (objects c size pages) (y_f y) n = Some (l, full, f) ->
  exists L', 
    core c size pages f own pub L' /\ same_frame (y_f y) f /\ f_mem f = f_mem (y_f y) /\
    Permutation (cat L' own) (l ++ cat L own) /\ grown L L' pub /\
    (if full then Z.of_nat (length l) = n
     else Z.of_nat (length l) < n /\ forall id, In id pub -> alen L' id = objects c size pages) /\
    (forall x, ~ In x pub -> f_span f x = f_span (y_f y) x /\ f_nidx f x = f_nidx (y_f y) x).
Proof.
  intros Hc I Hn E. unfold remove_locked in E.
  destruct (remove_loop_spec c size pages Hc (Z.to_nat n) (y_f y) own pub L n (i_core _ _ _ _ _ _ _ I) ltac:(lia))
    as (l' & full' & f' & L' & E' & A1 & A2 & A3 & A4 & A5 & A6 & A7 & A8).
  rewrite E in E'. injection E' as <- <- <-. exists L'. auto 10.
Qed.

Lemma grown_pend_ok c size f f' pub L L' x : grown L L' pub -> (forall id, first_page (f_span f' id) = first_page (f_span f id)) ->
  (forall o l id, x = PPublish o l id -> ~ In id pub) ->
  pend_ok c size f pub L x -> pend_ok c size f' pub L' x.
Proof.
  intros (G1 & G2) Hf Hp H. destruct x as [o room|o l id|p|ids]; cbn in *; auto.
  - rewrite G1; [assumption|]. apply (Hp o l). reflexivity.
  - destruct H as (A & B & C). split; [assumption|]. split; [assumption|]. intros j Hj. destruct (C j Hj) as (C1 & C2 & C3).
    rewrite Hf. auto.
Qed.

Lemma private_not_pub c size pages y own pub L o l id : inv c size pages y own pub L -> In (PPublish o l id) (y_pend y) -> ~ In id pub.
Proof.
  intros I Hx. pose proof (co_own _ _ _ _ _ _ _ (i_core _ _ _ _ _ _ _ I)) as Hn. rewrite (i_own _ _ _ _ _ _ _ I) in Hn.
  apply NoDup_app_elim in Hn. destruct Hn as (_ & _ & Hno). intros Hid. apply (Hno id Hid). unfold private.
  apply in_flat_map. eexists. split; [exact Hx|]. left. reflexivity.
Qed.

Lemma reach_inv c size pages y : class_ok c size pages -> 1 < objects c size pages -> reach c size pages y ->
  exists own pub L, inv c size pages y own pub L.
Proof.
  intros Hc Hcount H. pose proof (objects_small _ _ _ Hc) as Hob.
  assert (Hpg : 0 < page_size c). { pose proof (g_page _ _ _ (class_geom _ _ _ Hc)). pose proof (g_size _ _ _ (class_geom _ _ _ Hc)). lia. }
  induction H as [m sp ni pm|y n l f H IH Hn E|y n l f H IH Hn E|y objs room a b H IH Ep|y objs room a b id s0 l m s H IH Ep Hfr E
    |y objs l id a b H IH Ep|y batch rest runs0 p H IH HP E|y p a b ids f H IH Ep E|y id ids a b H IH Ep|y p a v H IH Hp Ha|y m sp ni pm H IH He].
  - (* init *)
    exists [], [], (fun _ => []). constructor; cbn; try reflexivity; try constructor; try (intros; contradiction).
    + apply NoDup_nil.
    + apply NoDup_nil.
    + intros x [].
    + intros x y [].
    + constructor; [apply hl_empty_ok; unfold k_num_lists; lia|intros; constructor| |intros id []].
      intros i id Hi. split; [intros []|intros ([] & _)].
    + intros b. reflexivity.
    + lia.
  - (* remove *)
    destruct IH as (own & pub & L & I). invd I. change (pages * page_size c / size) with (objects c size pages) in E.
    apply (inv_remove c size pages y own pub L) in E; try assumption.
    destruct E as (L' & A1 & (F1 & F2 & F3 & F4 & F5) & A3 & A4 & A5 & A6 & _).
    exists own, pub, L'. constructor; cbn [y_f y_ph y_held y_pend update_object_counts set_counts f_counter f_requested f_returned f_pagemap f_span];
      try assumption.
    + apply counts_core. assumption.
    + apply (apart_frame pages (y_f y)); assumption.
    + intros x pg Hx. rewrite F5, F1. apply Ipm. assumption.
    + unfold out in *. cbn [y_held y_pend]. rewrite A4, Iout, app_assoc. reflexivity.
    + apply Forall_forall. intros x Hx. rewrite Forall_forall in Ipend. specialize (Ipend x Hx).
      apply (grown_pend_ok c size (y_f y) _ pub L L'); [assumption|assumption| |assumption].
      intros o l' id' ->. apply (private_not_pub c size pages y own pub L o l'); assumption.
    + rewrite F2, Icnt. unfold in_use in *. cbn [y_held y_pend]. rewrite !app_length. lia.
    + rewrite F3, F4. assumption.
  - (* remove, short *)
    destruct IH as (own & pub & L & I). invd I. change (pages * page_size c / size) with (objects c size pages) in E.
    apply (inv_remove c size pages y own pub L) in E; try assumption.
    destruct E as (L' & A1 & (F1 & F2 & F3 & F4 & F5) & A3 & A4 & A5 & A6 & _).
    exists own, pub, L'. constructor; cbn [y_f y_ph y_held y_pend]; try assumption.
    + apply (apart_frame pages (y_f y)); assumption.
    + intros x pg Hx. rewrite F5, F1. apply Ipm. assumption.
    + unfold out in *. cbn [y_held y_pend flat_map pend_objs]. rewrite A4, Iout, !app_assoc.
      apply Permutation_app_tail, Permutation_app_comm.
    + constructor; [cbn; lia|]. apply Forall_forall. intros x Hx. rewrite Forall_forall in Ipend. specialize (Ipend x Hx).
      apply (grown_pend_ok c size (y_f y) _ pub L L'); [assumption|assumption| |assumption].
      intros o l' id' ->. apply (private_not_pub c size pages y own pub L o l'); assumption.
    + rewrite F2, Icnt. reflexivity.
    + rewrite F3, F4. assumption.
  - (* out of memory *)
    destruct IH as (own & pub & L & I). invd I. unfold out, in_use, private, freeing in *. rewrite Ep in *.
    exists own, pub, L. constructor; unfold out, in_use, private, freeing;
      cbn [y_f y_ph y_held y_pend update_object_counts set_counts f_counter f_requested f_returned f_pagemap f_span]; try assumption.
    + apply counts_core. assumption.
    + rewrite Iph. apply Permutation_app_head. rewrite flat_map_mid. reflexivity.
    + rewrite Iown. apply Permutation_app_head. rewrite flat_map_mid. reflexivity.
    + rewrite Iout, flat_map_mid. cbn [pend_objs]. rewrite !app_assoc. apply Permutation_app_tail, Permutation_app_comm.
    + apply Forall_app in Ipend. destruct Ipend as (P1 & P2). apply Forall_inv_tail in P2. apply Forall_app. auto.
    + rewrite Icnt. rewrite !app_length. rewrite (Permutation_length (flat_map_mid pend_inserting a _ b)). cbn [pend_inserting app]. lia.
  - (* new span *)
    destruct IH as (own & pub & L & I). invd I. change (pages * page_size c / size) with (objects c size pages) in E.
    destruct Hfr as (Hf1 & Hf2). unfold out, in_use, private, freeing in *.
    assert (Hido : ~ In id own) by (intros Hx; apply Hf1; rewrite Iph; apply in_or_app; auto).
    assert (Hroom : 1 <= room).
    { rewrite Forall_forall in Ipend. apply (Ipend (PRemove objs room)). rewrite Ep. apply in_elt. }
    apply (fresh_spec c size pages (y_f y) own pub L id) in E; try assumption.
    2:{ intros x Hx. apply Hf2. rewrite Iph. apply in_or_app. auto. }
    destruct E as (Co' & Hl & Hll & Hfp).
    set (g := set_mem_span _ _ _ _) in *.
    assert (Hsp : forall x, In x (y_ph y) -> f_span g x = f_span (y_f y) x).
    { intros x Hx. cbn [g set_mem_span register f_span]. rewrite !upd_other; auto; intros ->; contradiction. }
    assert (Hid : f_span g id = s) by (cbn [g set_mem_span register f_span]; apply upd_same).
    exists (id :: own), pub, (upd L id l). rewrite Ep in *.
    constructor; unfold out, in_use, private, freeing; cbn [y_f y_ph y_held y_pend]; try assumption.
    + cbn [app]. constructor. rewrite Iph. apply Permutation_app_head. rewrite !flat_map_mid. reflexivity.
    + constructor; assumption.
    + intros x x' [<-|Hx] [<-|Hx'] Hne; [congruence| | |]; rewrite ?Hid, ?Hsp, ?Hfp by assumption.
      * destruct (Hf2 x' Hx'); auto.
      * apply Hf2. assumption.
      * apply Iap; assumption.
    + intros x pg [<-|Hx] Hr; cbn [g f_pagemap set_mem_span register].
      * rewrite Hid, Hfp in Hr. replace ((_ <=? _) && (_ <? _)) with true by lia. reflexivity.
      * rewrite Hsp in Hr by assumption. destruct (Hf2 x Hx); (replace ((_ <=? _) && (_ <? _)) with false by lia); apply Ipm; assumption.
    + rewrite !flat_map_mid in *. cbn [pend_private app] in *. rewrite Iown, <- Permutation_middle. reflexivity.
    + rewrite !flat_map_mid in *. cbn [pend_objs app] in *. unfold cat at 1. cbn [map concat]. rewrite upd_same. fold (cat (upd L id l) own).
      rewrite (cat_ext _ L) by (intros x Hx; apply upd_other; intros ->; contradiction). rewrite Iout, !app_assoc.
      apply Permutation_app_tail. rewrite (Permutation_app_comm l). rewrite <- !app_assoc. apply Permutation_app_head, Permutation_app_comm.
    + assert (Hpub : forall x, In x pub -> x <> id /\ In x (y_ph y)).
      { intros x Hx. assert (Hxo : In x own) by (apply Ico; assumption). split; [intros ->; contradiction|]. rewrite Iph. apply in_or_app. auto. }
      apply Forall_app in Ipend. destruct Ipend as (P1 & P2). pose proof (Forall_inv_tail P2) as P4.
      assert (Hk : forall x, In x (a ++ b) -> pend_ok c size (y_f y) pub L x -> pend_ok c size g pub (upd L id l) x).
      { intros x Hx Hpo. destruct x as [o r|o l' id'|p|ids]; cbn in *; auto.
        - rewrite upd_other; [assumption|]. intros ->. apply Hido. rewrite Iown. apply in_or_app. right.
          rewrite flat_map_mid. cbn [pend_private app]. apply in_flat_map. eexists. split; [exact Hx|]. left. reflexivity.
        - destruct Hpo as (B1 & B2 & B3). split; [assumption|]. split; [assumption|]. intros j Hj. destruct (B3 j Hj) as (C1 & C2 & C3).
          destruct (Hpub _ C1) as (D1 & D2). rewrite upd_other, Hsp by assumption. auto. }
      rewrite Forall_forall in P1, P4. apply Forall_app. split; [|constructor].
      * apply Forall_forall. intros x Hx. apply Hk; [apply in_or_app; auto|auto].
      * cbn. apply upd_same.
      * apply Forall_forall. intros x Hx. apply Hk; [apply in_or_app; auto|auto].
    + cbn [g f_counter set_mem_span register]. rewrite Icnt, !app_length.
      rewrite !(Permutation_length (flat_map_mid pend_inserting a _ b)). reflexivity.
  - (* publish *)
    destruct IH as (own & pub & L & I). invd I. change (pages * page_size c / size) with (objects c size pages).
    assert (Hx : In (PPublish objs l id) (y_pend y)) by (rewrite Ep; apply in_elt).
    pose proof (private_not_pub _ _ _ _ _ _ _ _ _ _ I Hx) as Hnp.
    assert (HL : L id = l) by (rewrite Forall_forall in Ipend; apply (Ipend _ Hx)).
    assert (Hido : In id own).
    { rewrite Iown. apply in_or_app. right. unfold private. apply in_flat_map. eexists. split; [exact Hx|]. left. reflexivity. }
    destruct (populate_spec c size pages (y_f y) own pub L id Hc Ico Hido Hnp) as (P1 & P2 & P3 & P4 & P5 & P6 & P7).
    unfold alen in *. rewrite HL in *. set (g := populate_locked _ _ _ _) in *.
    unfold out, in_use, private, freeing in *. rewrite Ep in *.
    exists own, (id :: pub), L. constructor; unfold out, in_use, private, freeing;
      cbn [y_f y_ph y_held y_pend update_object_counts set_counts f_counter f_requested f_returned f_pagemap f_span]; try assumption.
    + apply counts_core. assumption.
    + rewrite Iph. apply Permutation_app_head. rewrite flat_map_mid. reflexivity.
    + apply (apart_frame pages (y_f y)); [|assumption]. intros x. cbn [f_span update_object_counts set_counts]. rewrite P4. reflexivity.
    + intros x pg. rewrite P4, P2. apply Ipm.
    + rewrite Iown, flat_map_mid. cbn [pend_private app]. rewrite <- Permutation_middle. reflexivity.
    + rewrite Iout, flat_map_mid. cbn [pend_objs]. rewrite !app_assoc. apply Permutation_app_tail. rewrite <- app_assoc. apply Permutation_app_comm.
    + apply Forall_app in Ipend. destruct Ipend as (Q1 & Q2). pose proof (Forall_inv_tail Q2) as Q4.
      assert (Hk : forall x, pend_ok c size (y_f y) pub L x ->
         pend_ok c size (update_object_counts g (- Z.of_nat (length (objs ++ l)))) (id :: pub) L x).
      { intros x Hpo. destruct x as [o r|o l' id'|p|ids]; cbn in *; auto. rewrite P4. destruct Hpo as (B1 & B2 & B3).
        split; [assumption|]. split; [assumption|]. intros j Hj. destruct (B3 j Hj) as (C1 & C2 & C3). auto. }
      apply Forall_app. split; apply Forall_forall; intros x Hx'; apply Hk; [rewrite Forall_forall in Q1|rewrite Forall_forall in Q4]; auto.
    + rewrite P5, Icnt. rewrite !app_length, (Permutation_length (flat_map_mid pend_inserting a _ b)). cbn [pend_inserting app length]. lia.
    + rewrite P6, P7. cbn [length]. lia.
  - (* prepare *)
    destruct IH as (own & pub & L & I). invd I.
    unfold insert_prepare in E. set (n := Z.of_nat (length batch)) in *.
    destruct ((n =? 0) || (k_max_objects_to_move <? n)) eqn:En; [discriminate|].
    destruct (map_objects_to_spans c (y_f y) batch) as [spans|] eqn:Em; [|discriminate]. cbn [obind] in E.
    apply map_objects_spec in Em. destruct Em as (M1 & M2).
    assert (Hpn : p_n p = n /\ p_batch p = arr batch /\ p_spans p = arr spans /\ p_runs p = record_same_span_runs n (arr spans) runs0 /\
       forall j, p_idx p j = obj_idx c size (first_page (f_span (y_f y) (arr spans j))) (arr batch j)).
    { injection E as <-. cbn. repeat split. intros j. unfold obj_idx. destruct (use_bitmap_for_size c size); reflexivity. }
    destruct Hpn as (E1 & E2 & E3 & E4 & E5).
    assert (Hobjs : p_objs p = batch).
    { unfold p_objs. rewrite E1, E2. unfold n. rewrite Nat2Z.id. apply map_arr. }
    exists own, pub, L. constructor; unfold out, in_use, private, freeing in *; cbn [y_f y_ph y_held y_pend flat_map pend_objs pend_private pend_freeing pend_inserting app]; try assumption.
    + rewrite Iout, HP, Hobjs. rewrite !app_assoc. apply Permutation_app_tail, Permutation_app_comm.
    + constructor; [|assumption]. cbn. rewrite E1, E2, E3, E4. split; [lia|]. split; [apply runs_ok; lia|].
      intros j Hj. rewrite E5.
      assert (Hh : In (arr batch j) (y_held y)).
      { rewrite HP. apply in_or_app. left. unfold arr. apply nth_In. lia. }
      destruct (held_pub _ _ _ _ _ _ _ _ Hc I Hh) as (id & J1 & J2 & J3). apply valid_page in J3; [|assumption].
      assert (Hid : f_pagemap (y_f y) (arr batch j / page_size c) = Some id).
      { apply Ipm; [|assumption]. rewrite Iph. apply in_or_app. left. apply Ico. assumption. }
      assert (Ej : arr spans j = id).
      { specialize (M2 (Z.to_nat j) ltac:(lia)). unfold arr in Hid |- *. congruence. }
      rewrite Ej. auto.
    + rewrite Icnt, Hobjs. rewrite (Permutation_length (Permutation_app_tail _ HP)). rewrite !app_length. lia.
  - (* insert *)
    destruct IH as (own & pub & L & I). invd I. change (pages * page_size c / size) with (objects c size pages) in E.
    unfold insert_locked in E.
    assert (Hx : In (PInsert p) (y_pend y)) by (rewrite Ep; apply in_elt).
    assert (Hpo : pend_ok c size (y_f y) pub L (PInsert p)) by (rewrite Forall_forall in Ipend; apply (Ipend _ Hx)).
    cbn in Hpo. destruct Hpo as (B1 & B2 & B3).
    pose proof (core_NoDup _ _ _ _ _ _ _ Hc Ico) as Hnd. rewrite Iout in Hnd.
    unfold out, in_use, private, freeing in *. rewrite Ep, flat_map_mid in Hnd. cbn [pend_objs] in Hnd.
    apply NoDup_app_elim in Hnd. destruct Hnd as (_ & Hnd & _). apply NoDup_app_elim in Hnd. destruct Hnd as (Nobj & _ & Nrest).
    destruct (insert_loop_spec c size pages (p_n p) (p_batch p) (p_idx p) (p_runs p) Hc (Z.to_nat (p_n p)) (y_f y) own pub L 0 0 (p_spans p) Ico
      ltac:(lia) ltac:(lia) ltac:(lia) B2 B3)
      as (fc & spans & f1 & own' & pub' & L' & E' & A1 & (F1 & F2 & F3 & F4 & F5) & A3 & A4 & A5 & A6 & A7 & A8 & A9 & A10 & A11 & A12 & _ & _).
    { replace (p_n p - 0) with (p_n p) by lia. exact Nobj. }
    cbv zeta in *. replace (p_n p - 0) with (p_n p) in * by lia. replace (fc - 0) with fc in * by lia. fold (p_objs p) in A8, A9, A11.
    rewrite E' in E. cbn [obind] in E. injection E as <- <-.
    set (ids := map spans (zseq 0 (Z.to_nat fc))) in *.
    assert (Hlen : Z.of_nat (length pub) = fc + Z.of_nat (length pub')).
    { rewrite (Permutation_length A7), app_length. unfold ids. rewrite map_length, zseq_length. lia. }
    exists own', pub', L'. rewrite Ep in *.
    constructor; unfold out, in_use, private, freeing;
      cbn [y_f y_ph y_held y_pend update_object_counts record_multi_spans_deallocated set_counts f_counter f_requested f_returned f_pagemap f_span]; try assumption.
    + do 2 apply counts_core. assumption.
    + rewrite flat_map_mid in Iph |- *. cbn [pend_freeing app] in *. rewrite Iph, A6, (Permutation_app_comm ids), <- app_assoc. reflexivity.
    + apply (apart_frame pages (y_f y)); assumption.
    + intros x pg. rewrite F5, F1. apply Ipm.
    + rewrite flat_map_mid in Iown |- *. cbn [pend_private app] in *. rewrite A6, A7, <- app_assoc in Iown.
      apply Permutation_app_inv_l in Iown. assumption.
    + rewrite flat_map_mid in Iout |- *. cbn [pend_objs app] in *.
      apply (Permutation_app_inv_l (p_objs p)). rewrite <- A8, Iout, !app_assoc. apply Permutation_app_tail, Permutation_app_comm.
    + apply Forall_app in Ipend. destruct Ipend as (Q1 & Q2). pose proof (Forall_inv_tail Q2) as Q4. rewrite Forall_forall in Q1, Q4.
      assert (Hk : forall x, In x (a ++ b) -> pend_ok c size (y_f y) pub L x ->
         pend_ok c size (update_object_counts (record_multi_spans_deallocated f1 fc (objects c size pages)) (p_n p)) pub' L' x).
      { intros x Hx' Hpo. destruct x as [o r|o l' id'|q|jds]; cbn in *; auto.
        - rewrite A10; [assumption|]. apply (private_not_pub c size pages y own pub L o l'); [assumption|]. rewrite Ep.
          apply in_app_or in Hx'. apply in_or_app. destruct Hx'; [auto|right; right; assumption].
        - destruct Hpo as (C1 & C2 & C3). split; [assumption|]. split; [assumption|]. intros j Hj. destruct (C3 j Hj) as (D1 & D2 & D3).
          rewrite F5. destruct (A11 _ _ D2) as [D4|D4].
          + split; [|auto]. rewrite A7 in D1. apply in_app_or in D1. destruct D1 as [D1|D1]; [|assumption].
            exfalso. rewrite (A12 _ D1) in D4. destruct D4.
          + exfalso. apply (Nrest _ D4). apply in_flat_map. exists (PInsert q). split; [assumption|]. cbn [pend_objs]. unfold p_objs.
            apply in_map. apply zseq_In. lia. }
      apply Forall_app. split; [|constructor; [exact Logic.I|]]; apply Forall_forall; intros x Hx'; apply Hk; auto; apply in_or_app; auto.
    + rewrite F2, Icnt, !app_length, !(Permutation_length (flat_map_mid pend_inserting a _ b)). cbn [pend_inserting app]. rewrite app_length.
      assert (Z.of_nat (length (p_objs p)) = p_n p) by (unfold p_objs; rewrite map_length, zseq_length; lia). nia.
    + rewrite F3, F4. lia.
  - (* give a span back *)
    destruct IH as (own & pub & L & I). invd I. unfold out, in_use, private, freeing in *. rewrite Ep in *.
    assert (Hin : In id (y_ph y)).
    { rewrite Iph. apply in_or_app. right. rewrite flat_map_mid. left. reflexivity. }
    exists own, pub, L. 
    assert (Hph : Permutation (rem1 id (y_ph y)) (own ++ flat_map pend_freeing (a ++ PFree ids :: b))).
    { rewrite flat_map_mid in Iph |- *. cbn [pend_freeing app] in *. rewrite <- Permutation_middle in Iph.
      apply (Permutation_cons_inv (a := id)). rewrite <- Iph. symmetry. apply rem1_perm. assumption. }
    constructor; unfold out, in_use, private, freeing; cbn [y_f y_ph y_held y_pend unregister f_counter f_requested f_returned f_span]; try assumption.
    + apply (core_same c size pages (y_f y)); auto.
    + apply rem1_NoDup. assumption.
    + intros x x' Hx Hx'. cbn [f_span]. apply Iap; apply (rem1_In id); assumption.
    + intros x pg Hx Hr. apply rem_In_iff in Hx; [|assumption]. destruct Hx as (Hx & Hne). cbn [f_pagemap unregister].
      destruct (Iap x id Hx Hin Hne); (replace ((_ <=? _) && (_ <? _)) with false by lia); apply Ipm; assumption.
    + rewrite Iown. apply Permutation_app_head. rewrite !flat_map_mid. reflexivity.
    + rewrite Iout. apply Permutation_app_head. rewrite !flat_map_mid. reflexivity.
    + apply Forall_app in Ipend. destruct Ipend as (Q1 & Q2). apply Forall_inv_tail in Q2. apply Forall_app. split; [|constructor; [exact Logic.I|]]; assumption.
    + rewrite Icnt, !app_length, !(Permutation_length (flat_map_mid pend_inserting a _ b)). reflexivity.
  - (* a write *)
    destruct IH as (own & pub & L & I). invd I. exists own, pub, L.
    destruct (held_pub _ _ _ _ _ _ _ _ Hc I Hp) as (id & J1 & J2 & J3).
    assert (Hu : forall x, upd (f_span (y_f y)) 0 (f_span (y_f y) 0) x = f_span (y_f y) x).
    { intros x. unfold upd. destruct (Z.eqb_spec x 0) as [->|]; reflexivity. }
    constructor; cbn [y_f y_ph y_held y_pend set_mem_span f_counter f_requested f_returned f_span f_pagemap]; try assumption.
    + destruct Ico as [K1 K2 K3 K4 K5 K6 K7]. constructor; cbn [f_mem f_span f_nidx f_nonempty f_util set_mem_span]; try assumption.
      * intros x x'. cbn [f_span set_mem_span]. rewrite !Hu. apply K4.
      * intros x Hx. rewrite Hu. destruct (K5 x Hx) as (S & N). split; [|assumption].
        destruct (Z.eq_dec x id) as [->|Hne]; [apply (span_inv_write c size pages _ _ _ p); assumption|].
        apply (span_inv_mem c size pages (f_mem (y_f y))); [assumption|assumption|]. intros q Hq. apply upd_other. intros ->.
        apply valid_range in J3; [|assumption]. destruct (K4 x id Hx (K3 _ J1) Hne); nia.
    + intros x x'. cbn [f_span set_mem_span]. rewrite !Hu. apply Iap.
    + intros x pg. rewrite Hu. apply Ipm.
    + apply Forall_forall. intros x Hx. rewrite Forall_forall in Ipend. specialize (Ipend x Hx).
      destruct x as [o r|o l' id'|q|jds]; cbn in *; auto. destruct Ipend as (B1 & B2 & B3). split; [assumption|]. split; [assumption|].
      intros j Hj. rewrite Hu. apply B3. assumption.
  - (* environment *)
    destruct IH as (own & pub & L & I). invd I. exists own, pub, L.
    assert (Hown : forall x, In x own -> In x (y_ph y)) by (intros x Hx; rewrite Iph; apply in_or_app; auto).
    assert (Hsp : forall x, In x (y_ph y) -> sp x = f_span (y_f y) x) by (intros x Hx; apply He; assumption).
    constructor; cbn [y_f y_ph y_held y_pend f_counter f_requested f_returned f_span f_pagemap]; try assumption.
    + destruct Ico as [K1 K2 K3 K4 K5 K6 K7]. constructor; cbn [f_mem f_span f_nidx f_nonempty f_util set_mem_span]; try assumption.
      * intros x x' Hx Hx'. cbn [f_span]. rewrite !Hsp by auto. apply K4; assumption.
      * intros x Hx. rewrite Hsp by auto. destruct (K5 x Hx) as (S & N). split; [|assumption].
        apply (span_inv_mem c size pages (f_mem (y_f y))); [assumption|assumption|]. apply He. auto.
      * destruct K6 as [P1 P2 P3 P4]. constructor; try assumption. intros x Hx. destruct (He x (Hown x (K3 x Hx))) as (_ & -> & _). auto.
    + intros x x' Hx Hx'. cbn [f_span]. rewrite !Hsp by assumption. apply Iap; assumption.
    + intros x pg Hx. rewrite Hsp by assumption. intros Hr. destruct (He x Hx) as (_ & _ & Hq & _). rewrite Hq by assumption. apply Ipm; assumption.
    + apply Forall_forall. intros x Hx. rewrite Forall_forall in Ipend. specialize (Ipend x Hx).
      destruct x as [o r|o l' id'|q|jds]; cbn in *; auto. destruct Ipend as (B1 & B2 & B3). split; [assumption|]. split; [assumption|].
      intros j Hj. destruct (B3 j Hj) as (C1 & C2 & C3). rewrite Hsp by (apply Hown, Ico; assumption). auto.
Qed.

Lemma published_pub c size pages y own pub L : inv c size pages y own pub L -> Permutation (published y) pub.
Proof.
  intros I. invd I. apply NoDup_Permutation; [apply NoDup_filter; assumption|apply Ico|]. intros x. unfold published. rewrite filter_In.
  rewrite Iph in Iphn. apply NoDup_app_elim in Iphn. destruct Iphn as (N1 & N2 & N3). rewrite Iown in N1. apply NoDup_app_elim in N1.
  destruct N1 as (N4 & N5 & N6). split.
  - intros (H1 & H2). rewrite Iph, in_app_iff in H1. destruct (zmem x (private y ++ freeing y)) eqn:E; [discriminate|].
    assert (Hn : ~ In x (private y ++ freeing y)) by (rewrite <- zmem_In, E; discriminate). rewrite in_app_iff in Hn.
    destruct H1 as [H1|H1]; [|tauto]. rewrite Iown, in_app_iff in H1. tauto.
  - intros Hx. assert (Hxo : In x own) by (apply Ico; assumption). split; [rewrite Iph; apply in_or_app; auto|].
    destruct (zmem x (private y ++ freeing y)) eqn:E; [|reflexivity]. apply zmem_In in E. apply in_app_or in E. exfalso.
    destruct E as [E|E]; [apply (N6 x); assumption|apply (N3 x); assumption].
Qed.

Lemma in_span_iff c size pages f own pub L id p : class_ok c size pages -> core c size pages f own pub L -> apart pages f own -> In id own ->
  In p (cat L own) -> (in_span c pages f id p = true <-> In p (L id)).
Proof.
  intros Hc Co Hap Hid Hp. apply cat_In in Hp. destruct Hp as (x & Hx & Hpx).
  destruct (co_span _ _ _ _ _ _ _ Co x Hx) as (S & _). pose proof (span_bounds _ _ _ _ _ _ p Hc S Hpx) as V.
  apply valid_range in V; [|assumption]. pose proof (g_size _ _ _ (class_geom _ _ _ Hc)).
  assert (Hpg : 0 < page_size c) by (pose proof (g_page _ _ _ (class_geom _ _ _ Hc)); lia).
  unfold in_span. split.
  - intros E. assert (x = id); [|subst; assumption]. destruct (Z.eq_dec x id) as [|Hne]; [assumption|exfalso].
    destruct (Hap x id Hx Hid Hne); nia.
  - intros H0. assert (x = id) by (apply (core_owner c size pages f own pub L x id p); assumption). subst. lia.
Qed.

Lemma n_out_alen c size pages y own pub L id : class_ok c size pages -> inv c size pages y own pub L -> In id own ->
  n_out c pages y id = alen L id.
Proof.
  intros Hc I Hid. invd I. unfold n_out, alen. f_equal. 
  assert (Permutation (filter (in_span c pages (y_f y) id) (out y)) (L id)); [|apply Permutation_length; assumption].
  pose proof (core_NoDup _ _ _ _ _ _ _ Hc Ico) as Hnd.
  apply NoDup_Permutation; [apply NoDup_filter; rewrite <- Iout; assumption| |].
  - destruct (co_span _ _ _ _ _ _ _ Ico id Hid) as (S & _). apply span_inv_len in S; [tauto|assumption].
  - intros p. rewrite filter_In. rewrite <- Iout. split.
    + intros (A & B). apply (in_span_iff c size pages (y_f y) own pub L); auto. apply Ico.
    + intros Hp. assert (Hin : In p (cat L own)) by (apply cat_In; eauto). split; [assumption|].
      apply (in_span_iff c size pages (y_f y) own pub L); auto. apply Ico.
Qed.

(** ** C18 *)

(** In every reachable state, the objects outside the free lists are pairwise distinct
    objects of spans that the page heap has given to this list and that are not on
    their way back, and no two of them overlap. *)
Theorem cfl_objects : forall c size pages y, class_ok c size pages -> 1 < pages * page_size c / size ->
  reach c size pages y ->
  NoDup (out y) /\
  (forall p, In p (out y) -> exists id k, In id (y_ph y) /\ ~ In id (freeing y) /\ 0 <= k < pages * page_size c / size /\
     p = first_page (f_span (y_f y) id) * page_size c + k * size) /\
  (forall p q, In p (out y) -> In q (out y) -> p <> q -> p + size <= q \/ q + size <= p).
Proof.
  intros c size pages y Hc Hn H. destruct (reach_inv c size pages y Hc Hn H) as (own & pub & L & I). invd I.
  pose proof (core_NoDup _ _ _ _ _ _ _ Hc Ico) as Hnd. 
  assert (Hpg : 0 < page_size c). { pose proof (g_page _ _ _ (class_geom _ _ _ Hc)). pose proof (g_size _ _ _ (class_geom _ _ _ Hc)). lia. }
  assert (Hown : forall p, In p (out y) -> exists id, In id own /\ In p (L id) /\ valid (span_start c (f_span (y_f y) id)) size (objects c size pages) p).
  { intros p Hp. rewrite <- Iout in Hp. apply cat_In in Hp. destruct Hp as (id & Hid & Hp). exists id. split; [assumption|]. split; [assumption|].
    destruct (co_span _ _ _ _ _ _ _ Ico id Hid) as (S & _). apply (span_bounds _ _ _ _ _ _ p Hc S Hp). }
  split; [rewrite <- Iout; assumption|]. split.
  - intros p Hp. destruct (Hown p Hp) as (id & Hid & _ & (k & Hk & ->)). exists id, k.
    split; [rewrite Iph; apply in_or_app; auto|]. split; [|auto].
    rewrite Iph in Iphn. apply NoDup_app_elim in Iphn. apply Iphn. assumption.
  - intros p q Hp Hq Hne. destruct (Hown p Hp) as (i & Hi & _ & Vp). destruct (Hown q Hq) as (j & Hj & _ & Vq).
    pose proof (g_size _ _ _ (class_geom _ _ _ Hc)) as Hs.
    destruct (Z.eq_dec i j) as [->|Hij].
    + apply (valid_apart (span_start c (f_span (y_f y) j)) size (objects c size pages)); auto. lia.
    + apply valid_range in Vp, Vq; try assumption. destruct (co_apart _ _ _ _ _ _ _ Ico i j Hi Hj Hij); nia.
Qed.
Print Assumptions cfl_objects.

(** Removal never fails an internal assumption; what it pops was free; it pops as many
    as asked for, or every object of every span of the list is then out: no free
    object is ever lost. *)
Theorem cfl_remove_exact : forall c size pages y n, class_ok c size pages -> 1 < pages * page_size c / size ->
  reach c size pages y -> 1 <= n ->
  exists l full f, remove_locked c size (pages * page_size c / size) (y_f y) n = Some (l, full, f) /\
    NoDup l /\ (forall p, In p l -> ~ In p (out y)) /\
    (if full then Z.of_nat (length l) = n
     else Z.of_nat (length l) < n /\
       forall id k, In id (published y) -> 0 <= k < pages * page_size c / size ->
         In (first_page (f_span (y_f y) id) * page_size c + k * size) (l ++ out y)).
Proof.
  intros c size pages y n Hc Hn H H1. destruct (reach_inv c size pages y Hc Hn H) as (own & pub & L & I).
  pose proof (published_pub _ _ _ _ _ _ _ I) as Hpp. invd I.
  destruct (remove_loop_spec c size pages Hc (Z.to_nat n) (y_f y) own pub L n Ico ltac:(lia))
    as (l & full & f & L' & E & A1 & A2 & A3 & A4 & A5 & A6 & A7 & _).
  exists l, full, f. split; [exact E|]. pose proof (core_NoDup _ _ _ _ _ _ _ Hc A1) as Hnd. rewrite A4, Iout in Hnd.
  apply NoDup_app_elim in Hnd. destruct Hnd as (N1 & N2 & N3). split; [assumption|]. split; [assumption|].
  destruct full; [assumption|]. destruct A7 as (A7 & A8). split; [assumption|]. intros id k Hid Hk.
  rewrite Hpp in Hid. specialize (A8 id Hid). rewrite <- Iout, <- A4. apply cat_In. exists id. 
  pose proof (co_incl _ _ _ _ _ _ _ A1 id Hid) as Hido. split; [assumption|].
  destruct (co_span _ _ _ _ _ _ _ A1 id Hido) as ((F & HP & _ & _) & _).
  destruct (span_inv_facts _ _ _ _ _ _ Hc HP) as (_ & _ & Hl). unfold alen in A8.
  assert (F = []) by (destruct F; [reflexivity|cbn [length] in Hl; lia]). subst F. rewrite app_nil_r in HP. rewrite HP.
  apply valid_objs. exists k. split; [assumption|]. unfold obj, span_start. destruct A2 as (_ & _ & _ & _ & ->). reflexivity.
Qed.
Print Assumptions cfl_remove_exact.

(** Putting back a batch of held objects succeeds: every object is recognised, and the
    critical section, whenever it runs, violates no internal assumption. *)
Theorem cfl_insert_succeeds : forall c size pages y, class_ok c size pages -> 1 < pages * page_size c / size ->
  reach c size pages y ->
  (forall batch rest runs0, Permutation (y_held y) (batch ++ rest) -> batch <> [] -> Z.of_nat (length batch) <= 128 ->
     exists p, insert_prepare c size (y_f y) batch runs0 = Some p /\ p_objs p = batch) /\
  (forall p, In (PInsert p) (y_pend y) ->
     exists ids f, insert_locked c size (pages * page_size c / size) (y_f y) p = Some (ids, f)).
Proof.
  intros c size pages y Hc Hn H. destruct (reach_inv c size pages y Hc Hn H) as (own & pub & L & I). invd I. split.
  - intros batch rest runs0 HP Hb Hl. unfold insert_prepare.
    destruct (map_objects_some c (y_f y) batch) as (spans & E).
    { intros p Hp. assert (Hh : In p (y_held y)) by (rewrite HP; apply in_or_app; auto).
      destruct (held_pub _ _ _ _ _ _ _ _ Hc I Hh) as (id & J1 & J2 & J3). apply valid_page in J3; [|assumption].
      rewrite (Ipm id); [discriminate| |assumption]. rewrite Iph. apply in_or_app. left. apply Ico. assumption. }
    apply nonempty_len in Hb. unfold k_max_objects_to_move.
    replace ((_ =? 0) || (_ <? _)) with false by lia. rewrite E. cbn [obind]. eexists. split; [reflexivity|].
    unfold p_objs. cbn [p_batch p_n]. rewrite Nat2Z.id. apply map_arr.
  - intros p Hp. rewrite Forall_forall in Ipend. specialize (Ipend _ Hp). cbn in Ipend. destruct Ipend as (B1 & B2 & B3).
    pose proof (core_NoDup _ _ _ _ _ _ _ Hc Ico) as Hnd. rewrite Iout in Hnd. unfold out in Hnd.
    apply NoDup_app_elim in Hnd. destruct Hnd as (_ & Hnd & _).
    apply in_split in Hp. destruct Hp as (a & b & Ep). rewrite Ep, flat_map_mid in Hnd. cbn [pend_objs] in Hnd. apply NoDup_app_elim in Hnd. destruct Hnd as (Nobj & _).
    destruct (insert_loop_spec c size pages (p_n p) (p_batch p) (p_idx p) (p_runs p) Hc (Z.to_nat (p_n p)) (y_f y) own pub L 0 0 (p_spans p) Ico
      ltac:(lia) ltac:(lia) ltac:(lia) B2 B3) as (fc & spans & f1 & own' & pub' & L' & E' & _).
    { replace (p_n p - 0) with (p_n p) by lia. exact Nobj. }
    change (pages * page_size c / size) with (objects c size pages). unfold insert_locked. rewrite E'. cbn [obind]. eauto.
Qed.
Print Assumptions cfl_insert_succeeds.

(** A span on its way back to the page heap was obtained from it and not yet returned, is
    on its way only once, has no object out and is on no list; a span that is kept has
    an object out. *)
Theorem cfl_span_return : forall c size pages y, class_ok c size pages -> 1 < pages * page_size c / size ->
  reach c size pages y ->
  NoDup (y_ph y) /\ NoDup (freeing y) /\
  (forall id, In id (freeing y) -> In id (y_ph y) /\ ~ In id (private y) /\
     (forall p, In p (out y) -> p + size <= first_page (f_span (y_f y) id) * page_size c \/
                                (first_page (f_span (y_f y) id) + pages) * page_size c <= p) /\
     (forall i, 0 <= i < k_num_lists -> ~ In id (hl (f_nonempty (y_f y)) i))) /\
  (forall id, In id (y_ph y) -> ~ In id (freeing y) -> exists p, In p (out y) /\ in_span c pages (y_f y) id p = true).
Proof.
  intros c size pages y Hc Hn H. destruct (reach_inv c size pages y Hc Hn H) as (own & pub & L & I). invd I.
  assert (Hpg : 0 < page_size c). { pose proof (g_page _ _ _ (class_geom _ _ _ Hc)). pose proof (g_size _ _ _ (class_geom _ _ _ Hc)). lia. }
  split; [assumption|]. pose proof Iphn as N. rewrite Iph in N. apply NoDup_app_elim in N. destruct N as (N1 & N2 & N3).
  split; [assumption|]. split.
  - intros id Hid. assert (Hph : In id (y_ph y)) by (rewrite Iph; apply in_or_app; auto).
    assert (Hno : ~ In id own) by (intros Hx; apply (N3 id); assumption).
    split; [assumption|]. split; [intros Hx; apply Hno; rewrite Iown; apply in_or_app; auto|]. split.
    + intros p Hp. rewrite <- Iout in Hp. apply cat_In in Hp. destruct Hp as (x & Hx & Hp).
      destruct (co_span _ _ _ _ _ _ _ Ico x Hx) as (S & _). pose proof (span_bounds _ _ _ _ _ _ p Hc S Hp) as V.
      apply valid_range in V; [|assumption]. assert (Hne : x <> id) by (intros ->; contradiction).
      assert (Hxp : In x (y_ph y)) by (rewrite Iph; apply in_or_app; auto).
      destruct (Iap x id Hxp Hph Hne); [left|right]; nia.
    + intros i Hi Hin. apply (pl_in _ _ _ _ _ (co_placed _ _ _ _ _ _ _ Ico)) in Hin; [|assumption]. apply Hno. apply Ico. tauto.
  - intros id Hid Hnf. rewrite Iph in Hid. apply in_app_or in Hid. destruct Hid as [Hid|]; [|contradiction].
    destruct (co_span _ _ _ _ _ _ _ Ico id Hid) as (S & Nn). destruct (L id) as [|p l] eqn:E; [congruence|]. exists p.
    assert (Hin : In p (cat L own)) by (apply cat_In; exists id; rewrite E; split; [assumption|left; reflexivity]).
    split; [rewrite <- Iout; assumption|]. apply (in_span_iff c size pages (y_f y) own pub L); auto; [apply Ico|]. rewrite E. left. reflexivity.
Qed.
Print Assumptions cfl_span_return.

(** ** C19 *)

(** The list a span with [a] objects out belongs to: with few objects per span one list
    per count, otherwise one per power of two; fewer objects out, higher index. *)
Definition list_index (count a i : Z) : Prop :=
  if count <=? 16 then i = Z.max 0 (8 - a)
  else (i = 0 /\ 128 <= a) \/ (1 <= i < 8 /\ 2 ^ (7 - i) <= a < 2 ^ (8 - i)).

Lemma bit_width_spec a b : 1 <= a -> 1 <= b -> (bit_width a = b <-> 2 ^ (b - 1) <= a < 2 ^ b).
Proof.
  intros Ha Hb. unfold bit_width. replace (a =? 0) with false by lia.
  pose proof (Z.log2_spec a ltac:(lia)) as (A & B). pose proof (Z.log2_nonneg a). split.
  - intros <-. replace (Z.log2 a + 1 - 1) with (Z.log2 a) by lia. auto.
  - intros (C & D). assert (Z.log2 a = b - 1); [|lia].
    apply Z.log2_unique; [lia|]. replace (Z.succ (b - 1)) with b by lia. auto.
Qed.

Lemma idxf_spec count a i : 1 <= a -> 0 <= i < 8 -> (i = idxf count a <-> list_index count a i).
Proof.
  intros Ha Hi. unfold idxf, index_for, list_index, k_num_lists. change (2 * 8) with 16.
  destruct (count <=? 16) eqn:E.
  - destruct (a <=? 8) eqn:E2; lia.
  - pose proof (bit_width_pos a Ha). destruct (Z.eq_dec i 0) as [->|Hne].
    + assert (Hw : 8 <= bit_width a <-> 128 <= a).
      { split; intros Hx.
        - pose proof (proj1 (bit_width_spec a (bit_width a) Ha ltac:(lia)) eq_refl) as (P & _).
          assert (2 ^ 7 <= 2 ^ (bit_width a - 1)) by (apply Z.pow_le_mono_r; lia). lia.
        - destruct (Z.lt_ge_cases (bit_width a) 8) as [Hlt|]; [exfalso|assumption].
          pose proof (proj1 (bit_width_spec a (bit_width a) Ha ltac:(lia)) eq_refl) as (_ & P).
          assert (2 ^ bit_width a <= 2 ^ 7) by (apply Z.pow_le_mono_r; lia). lia. }
      lia.
    + pose proof (bit_width_spec a (8 - i) Ha ltac:(lia)) as Hw. replace (8 - i - 1) with (7 - i) in Hw by lia. lia.
Qed.

(** At all times, each span of the list that still has free objects is on exactly the
    list its number of outstanding objects maps to, exactly once; every other span is
    on no list; and the emptiness hints and the size of the lists are exact. *)
Theorem cfl_lists : forall c size pages y, class_ok c size pages -> 1 < pages * page_size c / size ->
  reach c size pages y ->
  let f := y_f y in let count := pages * page_size c / size in
  (forall i, 0 <= i < k_num_lists -> NoDup (hl (f_nonempty f) i)) /\
  (forall i id, 0 <= i < k_num_lists ->
     (In id (hl (f_nonempty f) i) <-> In id (published y) /\ n_out c pages y id < count /\ list_index count (n_out c pages y id) i)) /\
  (forall i, 0 <= i < k_num_lists -> (bit (hbits (f_nonempty f)) i = true <-> hl (f_nonempty f) i <> [])).
Proof.
  intros c size pages y Hc Hn H f count. destruct (reach_inv c size pages y Hc Hn H) as (own & pub & L & I).
  pose proof (published_pub _ _ _ _ _ _ _ I) as Hpp. invd I.
  pose proof (co_placed _ _ _ _ _ _ _ Ico) as [P1 P2 P3 P4]. split; [exact P2|]. split; [|apply P1].
  intros i id Hi. unfold f. rewrite P3 by exact Hi. rewrite Hpp. split; intros (A & B).
  - pose proof (co_incl _ _ _ _ _ _ _ Ico id A) as Ho. rewrite (n_out_alen c size pages y own pub L) by assumption.
    destruct B as (B & D). split; [assumption|]. split; [exact B|].
    destruct (co_span _ _ _ _ _ _ _ Ico id Ho) as (_ & Hne). apply nonempty_len in Hne. apply idxf_spec; assumption.
  - pose proof (co_incl _ _ _ _ _ _ _ Ico id A) as Ho. rewrite (n_out_alen c size pages y own pub L) in B by assumption.
    destruct B as (B & D). split; [assumption|]. split; [exact B|].
    destruct (co_span _ _ _ _ _ _ _ Ico id Ho) as (_ & Hne). apply nonempty_len in Hne. apply idxf_spec; assumption.
Qed.
Print Assumptions cfl_lists.

(** At all times, the reported number of spans is the number of spans of the list; the
    reported length is the number of their objects that are not in use; the
    utilization histogram counts the spans by number of outstanding objects; the
    overhead is the unusable tail of every span. *)
Theorem cfl_statistics : forall c size pages y, class_ok c size pages -> 1 < pages * page_size c / size ->
  reach c size pages y ->
  let f := y_f y in let count := pages * page_size c / size in
  num_spans f = Z.of_nat (length (published y)) /\
  cfl_length f = num_spans f * count - Z.of_nat (length (in_use y)) /\
  overhead_bytes c size pages f = Z.of_nat (length (published y)) * (pages * page_size c - count * size) /\
  (forall b, 1 <= b <= 16 -> num_spans_with f b =
     Z.of_nat (length (filter (fun id => (2 ^ (b - 1) <=? n_out c pages y id) && (n_out c pages y id <? 2 ^ b)) (published y)))).
Proof.
  intros c size pages y Hc Hn H f count. destruct (reach_inv c size pages y Hc Hn H) as (own & pub & L & I).
  pose proof (published_pub _ _ _ _ _ _ _ I) as Hpp. invd I.
  assert (E1 : num_spans f = Z.of_nat (length (published y))).
  { unfold num_spans, f. rewrite (Permutation_length Hpp). destruct (Z.ltb_spec (f_requested (y_f y)) (f_returned (y_f y))); lia. }
  split; [assumption|]. split; [|split].
  - rewrite E1, (Permutation_length Hpp). unfold cfl_length, f. rewrite Icnt. unfold objects. fold count. lia.
  - unfold overhead_bytes. rewrite E1. f_equal. pose proof (g_size _ _ _ (class_geom _ _ _ Hc)) as Hs.
    rewrite Z.mod_eq by lia. fold count. lia.
  - intros b Hb. unfold num_spans_with, f. rewrite (co_util _ _ _ _ _ _ _ Ico b).
    fold (cnt (fun id => (2 ^ (b - 1) <=? n_out c pages y id) && (n_out c pages y id <? 2 ^ b)) (published y)).
    rewrite (cnt_perm _ _ _ Hpp). apply cnt_ext. intros id Hid.
    pose proof (co_incl _ _ _ _ _ _ _ Ico id Hid) as Ho. rewrite (n_out_alen c size pages y own pub L) by assumption.
    destruct (co_span _ _ _ _ _ _ _ Ico id Ho) as (_ & Hne). apply nonempty_len in Hne. fold (alen L id) in Hne.
    pose proof (bit_width_spec (alen L id) b Hne ltac:(lia)). lia.
Qed.
Print Assumptions cfl_statistics.

(** ** A concrete history

    A script of steps, run by computation; [CInsert k], [CSpan k ..] and so on act on
    the [k]th pending thread. *)
Inductive cmd := CRemove (n : Z) | COom (k : nat) | CSpan (k : nat) (id page : Z) | CPublish (k : nat)
  | CPrepare (skip take : nat) | CInsert (k : nat) | CFree (k : nat).

Definition take_pend (k : nat) (l : list pend) : option (list pend * pend * list pend) :=
  match skipn k l with x :: b => Some (firstn k l, x, b) | [] => None end.

Definition fresh_span_b (pages : Z) (f : cfl) (ph : list Z) (id : Z) (s : span) : bool :=
  negb (zmem id ph) && forallb (fun x => (first_page (f_span f x) + pages <=? first_page s) || (first_page s + pages <=? first_page (f_span f x))) ph.

Definition run1 (c : cfg) (size pages : Z) (y : sys) (k : cmd) : option sys :=
  let count := pages * page_size c / size in
  match k with
  | CRemove n =>
    if n <? 1 then None else
    match remove_locked c size count (y_f y) n with
    | Some (l, true, f) => Some (MkSys (update_object_counts f (- Z.of_nat (length l))) (y_ph y) (l ++ y_held y) (y_pend y))
    | Some (l, false, f) => Some (MkSys f (y_ph y) (y_held y) (PRemove l (n - Z.of_nat (length l)) :: y_pend y))
    | None => None
    end
  | COom k => match take_pend k (y_pend y) with
    | Some (a, PRemove objs room, b) => Some (MkSys (update_object_counts (y_f y) (- Z.of_nat (length objs))) (y_ph y) (objs ++ y_held y) (a ++ b))
    | _ => None end
  | CSpan k id page => match take_pend k (y_pend y) with
    | Some (a, PRemove objs room, b) =>
      let s0 := MkSpan page 9 4 11 5 (fun _ => 77) (fun _ => 99) in
      if fresh_span_b pages (y_f y) (y_ph y) id s0 then
        let '(l, m, s) := build_freelist c (f_mem (y_f y)) s0 size count room in
        Some (MkSys (set_mem_span (register (y_f y) pages id s0) m id s) (id :: y_ph y) (y_held y) (a ++ PPublish objs l id :: b))
      else None
    | _ => None end
  | CPublish k => match take_pend k (y_pend y) with
    | Some (a, PPublish objs l id, b) =>
      Some (MkSys (update_object_counts (populate_locked count (y_f y) id (Z.of_nat (length l))) (- Z.of_nat (length (objs ++ l))))
        (y_ph y) (objs ++ l ++ y_held y) (a ++ b))
    | _ => None end
  | CPrepare s t =>
    match insert_prepare c size (y_f y) (firstn t (skipn s (y_held y))) (fun _ => 55) with
    | Some p => Some (MkSys (y_f y) (y_ph y) (firstn s (y_held y) ++ skipn t (skipn s (y_held y))) (PInsert p :: y_pend y))
    | None => None end
  | CInsert k => match take_pend k (y_pend y) with
    | Some (a, PInsert p, b) => match insert_locked c size count (y_f y) p with
      | Some (ids, f) => Some (MkSys f (y_ph y) (y_held y) (a ++ PFree ids :: b))
      | None => None end
    | _ => None end
  | CFree k => match take_pend k (y_pend y) with
    | Some (a, PFree (id :: ids), b) => Some (MkSys (unregister (y_f y) pages id) (rem1 id (y_ph y)) (y_held y) (a ++ PFree ids :: b))
    | _ => None end
  end.

Fixpoint run (c : cfg) (size pages : Z) (y : sys) (ks : list cmd) : option sys :=
  match ks with [] => Some y | k :: ks => let? y := run1 c size pages y k in run c size pages y ks end.

Lemma take_pend_spec k l a x b : take_pend k l = Some (a, x, b) -> l = a ++ x :: b.
Proof.
  unfold take_pend. pose proof (firstn_skipn k l) as E. destruct (skipn k l); [discriminate|]. intros [= <- <- <-]. auto.
Qed.

Lemma run1_reach c size pages y k y' : reach c size pages y -> run1 c size pages y k = Some y' -> reach c size pages y'.
Proof.
  intros H. destruct k as [n|k|k id page|k|s t|k|k]; unfold run1.
  - destruct (Z.ltb_spec n 1); [discriminate|]. destruct (remove_locked _ _ _ _ _) as [[[l [|]] f]|] eqn:E; [| |discriminate]; intros [= <-].
    + apply (r_remove _ _ _ y n); assumption.
    + apply (r_remove_short _ _ _ y n l f); assumption.
  - destruct (take_pend _ _) as [[[a [o r|o l i|p|i]] b]|] eqn:E; try discriminate. intros [= <-]. apply take_pend_spec in E.
    apply (r_oom _ _ _ y _ r _ _ H E).
  - destruct (take_pend _ _) as [[[a [o r|o l i|p|i]] b]|] eqn:E; try discriminate. apply take_pend_spec in E.
    destruct (fresh_span_b _ _ _ _ _) eqn:F; [|discriminate]. destruct (build_freelist _ _ _ _ _ _) as [[l m] s] eqn:B. intros [= <-].
    apply (r_span _ _ _ y o r a b id _ l m s H E); [|exact B]. unfold fresh_span_b in F. apply andb_prop in F. destruct F as (F1 & F2).
    split; [rewrite <- zmem_In; destruct (zmem id (y_ph y)); discriminate|].
    intros x Hx. rewrite forallb_forall in F2. specialize (F2 x Hx). cbn [first_page] in F2 |- *. lia.
  - destruct (take_pend _ _) as [[[a [o r|o l i|p|i]] b]|] eqn:E; try discriminate. intros [= <-]. apply take_pend_spec in E.
    apply (r_publish _ _ _ y o l i a b H E).
  - destruct (insert_prepare _ _ _ _ _) as [p|] eqn:E; [|discriminate]. intros [= <-].
    apply (r_prepare _ _ _ y (firstn t (skipn s (y_held y))) (firstn s (y_held y) ++ skipn t (skipn s (y_held y))) (fun _ => 55) p H); [|exact E].
    rewrite <- (firstn_skipn s (y_held y)) at 1. rewrite <- (firstn_skipn t (skipn s (y_held y))) at 1. rewrite !app_assoc.
    apply Permutation_app_tail. apply Permutation_app_comm.
  - destruct (take_pend _ _) as [[[a [o r|o l i|p|i]] b]|] eqn:E; try discriminate. apply take_pend_spec in E.
    destruct (insert_locked _ _ _ _ _) as [[ids f]|] eqn:F; [|discriminate]. intros [= <-]. apply (r_insert _ _ _ y p a b ids f H E F).
  - destruct (take_pend _ _) as [[[a [o r|o l i|p|[|i is]]] b]|] eqn:E; try discriminate. intros [= <-]. apply take_pend_spec in E.
    apply (r_free _ _ _ y i is a b H E).
Qed.

Lemma run_reach c size pages ks : forall y y', reach c size pages y -> run c size pages y ks = Some y' -> reach c size pages y'.
Proof.
  induction ks as [|k ks IH]; intros y y' H; cbn [run].
  - intros [= <-]. assumption.
  - destruct (run1 c size pages y k) as [y1|] eqn:E; [|discriminate]. cbn [obind]. apply IH. apply (run1_reach c size pages y k); assumption.
Qed.

Definition start0 : sys := MkSys (MkCfl (fun _ => 3) (fun _ => garbage) (fun _ => 44) (fun _ => None) hl_empty 0 0 0 (fun _ => 0)) [] [] [].

(** 512-byte objects, 16 to a span.  Two threads populate concurrently, one span is
    emptied and partly refilled, the other fully given back; two threads are still
    inside InsertRange when we stop. *)
Definition ex_script : list cmd :=
  [CRemove 5; CRemove 16; CSpan 0 1 7; CSpan 1 2 8; CPublish 0; CPublish 0; CRemove 3;
   CPrepare 0 2; CInsert 0; CPrepare 6 16; CInsert 0; CPrepare 2 2].

Definition ex_obs (y : sys) : list (list Z) :=
  [out y; in_use y; published y; freeing y; map (n_out ex_cfg 1 y) [2]; hl (f_nonempty (y_f y)) 2; [num_spans (y_f y); cfl_length (y_f y)]].

Example cfl_history : exists y, reach ex_cfg 512 1 y /\ 1 < 1 * page_size ex_cfg / 512 /\ ex_obs y =
  [[69120; 65536; 67072; 67584; 66048; 66560];
   [69120; 65536; 67072; 67584; 66048; 66560]; [2]; [1]; [6]; [2]; [1; 10]].
Proof.
  assert (H : option_map ex_obs (run ex_cfg 512 1 start0 ex_script) = Some
    [[69120; 65536; 67072; 67584; 66048; 66560];
   [69120; 65536; 67072; 67584; 66048; 66560]; [2]; [1]; [6]; [2]; [1; 10]]) by (vm_compute; reflexivity).
  destruct (run ex_cfg 512 1 start0 ex_script) as [y|] eqn:E; [|discriminate]. cbn [option_map] in H.
  exists y. split; [apply (run_reach _ _ _ _ _ _ (r_init ex_cfg 512 1 _ _ _ _) E)|]. split; [reflexivity|]. congruence.
Qed.

(** ** Size classes with one object per span

    central_freelist.h:599 and central_freelist.h:700: the list is bypassed.  RemoveRange registers a span from the
    page heap and returns its start; InsertRange maps its objects to spans (before
    anything else) and deallocates them one after the other. *)
Record sys1 := MkSys1 { z_f : cfl; z_ph : list Z; z_held : list Z; z_pend : list (list Z) }.

Inductive reach1 (c : cfg) (pages : Z) : sys1 -> Prop :=
| s_init m sp ni pm : reach1 c pages (MkSys1 (MkCfl m sp ni pm hl_empty 0 0 0 (fun _ => 0)) [] [] [])
| s_remove y id s0 : reach1 c pages y -> fresh_span pages (z_f y) (z_ph y) id s0 ->
    reach1 c pages (MkSys1 (register (z_f y) pages id s0) (id :: z_ph y) (span_start c s0 :: z_held y) (z_pend y))
| s_map y batch rest ids : reach1 c pages y -> Permutation (z_held y) (batch ++ rest) ->
    map_objects_to_spans c (z_f y) batch = Some ids ->
    reach1 c pages (MkSys1 (z_f y) (z_ph y) rest (ids :: z_pend y))
| s_free y id ids a b : reach1 c pages y -> z_pend y = a ++ (id :: ids) :: b ->
    reach1 c pages (MkSys1 (unregister (z_f y) pages id) (rem1 id (z_ph y)) (z_held y) (a ++ ids :: b))
| s_write y p a v : reach1 c pages y -> In p (z_held y) -> p <= a < p + pages * page_size c ->
    reach1 c pages (MkSys1 (set_mem_span (z_f y) (upd (f_mem (z_f y)) a v) 0 (f_span (z_f y) 0)) (z_ph y) (z_held y) (z_pend y))
| s_env y m sp ni pm : reach1 c pages y -> env_ok c pages (z_f y) (z_ph y) m sp ni pm ->
    reach1 c pages (MkSys1
      (MkCfl m sp ni pm (f_nonempty (z_f y)) (f_counter (z_f y)) (f_requested (z_f y)) (f_returned (z_f y)) (f_util (z_f y)))
      (z_ph y) (z_held y) (z_pend y)).

Definition start_of (c : cfg) (f : cfl) (id : Z) : Z := first_page (f_span f id) * page_size c.

Record inv1 (c : cfg) (pages : Z) (y : sys1) (own : list Z) : Prop := {
  j_ph : Permutation (z_ph y) (own ++ concat (z_pend y));
  j_nd : NoDup (z_ph y);
  j_apart : apart pages (z_f y) (z_ph y);
  j_pm : forall id pg, In id (z_ph y) -> first_page (f_span (z_f y) id) <= pg < first_page (f_span (z_f y) id) + pages -> f_pagemap (z_f y) pg = Some id;
  j_held : Permutation (z_held y) (map (start_of c (z_f y)) own)
}.

Lemma Permutation_eq {A} (a b : list A) : a = b -> Permutation a b.
Proof. intros ->. reflexivity. Qed.

Lemma inv1_map c pages y own : 1 <= pages -> 0 < page_size c -> inv1 c pages y own ->
  forall b rest, Permutation (z_held y) (b ++ rest) -> forall ids, map_objects_to_spans c (z_f y) b = Some ids ->
  b = map (start_of c (z_f y)) ids /\ incl ids own.
Proof.
  intros Hp Hpg I. pose proof I as I0. destruct I0 as [I1 I2 I3 I4 I5].
  induction b as [|p b IH]; intros rest HP ids E.
  - injection E as <-. split; [reflexivity|]. intros x [].
  - cbn [map_objects_to_spans fold_right] in E. change (fold_right _ (Some []) b) with (map_objects_to_spans c (z_f y) b) in E.
    destruct (map_objects_to_spans c (z_f y) b) as [r|] eqn:Er; [|discriminate]. cbn [obind] in E.
    destruct (f_pagemap (z_f y) (p / page_size c)) as [id|] eqn:Ei; [|discriminate]. cbn [obind] in E. injection E as <-.
    destruct (IH (p :: rest) ltac:(rewrite HP; apply Permutation_cons_app; reflexivity) r eq_refl) as (B & O).
    assert (Hin : In p (map (start_of c (z_f y)) own)) by (rewrite <- I5, HP; left; reflexivity).
    apply in_map_iff in Hin. destruct Hin as (x & <- & Hx). unfold start_of in Ei. rewrite Z.div_mul in Ei by lia.
    rewrite (I4 x) in Ei; [|rewrite I1; apply in_or_app; auto|lia]. injection Ei as ->.
    split; [cbn [map]; f_equal; assumption|]. intros z [<-|Hz]; auto.
Qed.

Lemma rem1_perm' id (l l2 : list Z) : Permutation l (id :: l2) -> Permutation (rem1 id l) l2.
Proof.
  intros H. assert (Hin : In id l) by (rewrite H; left; reflexivity). apply rem1_perm in Hin. rewrite Hin in H. apply Permutation_cons_inv in H. assumption.
Qed.

Lemma starts_inj c pages f l i j : 1 <= pages -> 0 < page_size c -> apart pages f l -> In i l -> In j l -> start_of c f i = start_of c f j -> i = j.
Proof.
  intros Hp Hpg Ha Hi Hj E. destruct (Z.eq_dec i j) as [|Hne]; [assumption|exfalso]. unfold start_of in E.
  apply Z.mul_reg_r in E; [|lia]. destruct (Ha i j Hi Hj Hne); lia.
Qed.

Lemma NoDup_map_inv' c pages f l : 1 <= pages -> 0 < page_size c -> apart pages f l -> forall k, incl k l -> NoDup k -> NoDup (map (start_of c f) k).
Proof.
  intros Hp Hpg Ha. induction k as [|x k IH]; intros Hi Hn; cbn [map]; [constructor|].
  inversion Hn; subst. constructor; [|apply IH; [intros z Hz; apply Hi; right; assumption|assumption]].
  intros Hin. apply in_map_iff in Hin. destruct Hin as (z & E & Hz).
  assert (z = x) by (apply (starts_inj c pages f l); auto; apply Hi; [right|left]; auto). subst. contradiction.
Qed.

Lemma reach1_inv c pages y : 1 <= pages -> 0 < page_size c -> reach1 c pages y -> exists own, inv1 c pages y own.
Proof.
  intros Hp Hpg H. induction H as [m sp ni pm|y id s0 H IH Hf|y batch rest ids H IH HP HM|y id ids a b H IH HE|y p a v H IH Hp' Ha|y m sp ni pm H IH HV].
  - exists []. constructor; cbn; auto; [constructor|intros ? ? []|intros ? ? []].
  - destruct IH as (own & [I1 I2 I3 I4 I5]). destruct Hf as (F1 & F2). exists (id :: own).
    constructor; cbn [register z_f z_ph z_held z_pend f_span f_pagemap].
    + cbn [app]. constructor. assumption.
    + constructor; assumption.
    + intros i j Hi Hj Hne. destruct Hi as [<-|Hi], Hj as [<-|Hj]; [contradiction| | |]; cbn [f_span register]; rewrite ?upd_same.
      * rewrite upd_other by (intros ->; contradiction). destruct (F2 j Hj); auto.
      * rewrite upd_other by (intros ->; contradiction). destruct (F2 i Hi); auto.
      * rewrite !upd_other by (intros ->; contradiction). apply I3; assumption.
    + intros i pg [<-|Hi] Hpg'; rewrite ?upd_same in Hpg'.
      * replace (_ && _) with true by lia. reflexivity.
      * rewrite upd_other in Hpg' by (intros ->; contradiction).
        destruct (F2 i Hi); replace (_ && _) with false by lia; apply I4; assumption.
    + cbn [map]. unfold start_of at 1. cbn [register f_span]. rewrite upd_same. constructor. rewrite I5. apply Permutation_eq.
      apply map_ext_in. intros x Hx. unfold start_of. cbn [register f_span]. rewrite upd_other; [reflexivity|]. intros ->.
      apply F1. rewrite I1. apply in_or_app. auto.
  - destruct IH as (own & I). destruct (inv1_map c pages y own Hp Hpg I batch rest HP ids HM) as (B & O). destruct I as [I1 I2 I3 I4 I5].
    assert (Hown : apart pages (z_f y) own) by (intros i j Hi Hj; apply I3; rewrite I1; apply in_or_app; auto).
    assert (NDo : NoDup own) by (rewrite I1 in I2; apply NoDup_app_elim in I2; apply I2).
    assert (NDh : NoDup (batch ++ rest)) by (rewrite <- HP, I5; apply (NoDup_map_inv' c pages (z_f y) own); auto; apply incl_refl).
    assert (NDi : NoDup ids).
    { apply NoDup_app_elim in NDh. destruct NDh as (NDb & _). rewrite B in NDb. apply NoDup_map_inv in NDb. assumption. }
    destruct (sub_perm ids own NDi O) as (own' & HO). exists own'. constructor; cbn [z_f z_ph z_held z_pend concat]; try assumption.
    + rewrite I1, HO. rewrite (Permutation_app_comm ids own'), <- app_assoc. reflexivity.
    + apply (Permutation_app_inv_l batch). rewrite <- HP, I5, HO, map_app, B. reflexivity.
  - destruct IH as (own & [I1 I2 I3 I4 I5]). exists own.
    assert (HC : Permutation (z_ph y) (id :: own ++ concat (a ++ ids :: b))).
    { rewrite I1, HE, !concat_app. cbn [concat app]. rewrite !app_assoc. symmetry. rewrite <- app_assoc. 
      rewrite (Permutation_middle (own ++ concat a) (ids ++ concat b) id). rewrite <- !app_assoc. reflexivity. }
    pose proof (rem1_perm' id _ _ HC) as HR. pose proof I2 as ND2. rewrite HC in ND2. inversion ND2 as [|? ? N1 N2]; subst.
    assert (Hsub : forall x, In x (rem1 id (z_ph y)) -> In x (z_ph y) /\ x <> id).
    { intros x Hx. rewrite HR in Hx. split; [rewrite HC; right; assumption|]. intros ->. contradiction. }
    constructor; cbn [unregister z_f z_ph z_held z_pend f_span f_pagemap].
    + assumption.
    + rewrite HR. assumption.
    + intros i j Hi Hj Hne. apply Hsub in Hi, Hj. cbn [f_span unregister]. apply I3; tauto.
    + intros x pg Hx Hr. apply Hsub in Hx. destruct Hx as (Hx & Hne).
      assert (Hid : In id (z_ph y)) by (rewrite HC; left; reflexivity).
      destruct (I3 x id Hx Hid Hne); replace (_ && _) with false by lia; apply I4; assumption.
    + exact I5.
  - destruct IH as (own & [I1 I2 I3 I4 I5]). exists own.
    assert (Hu : forall x, upd (f_span (z_f y)) 0 (f_span (z_f y) 0) x = f_span (z_f y) x).
    { intros x. unfold upd. destruct (Z.eqb_spec x 0) as [->|]; reflexivity. }
    constructor; cbn [z_f z_ph z_held z_pend f_span f_pagemap set_mem_span]; try assumption.
    + intros i j. cbn [f_span set_mem_span]. rewrite !Hu. apply I3.
    + intros x pg. rewrite Hu. apply I4.
    + rewrite I5. apply Permutation_eq. apply map_ext. intros x. unfold start_of. cbn [f_span set_mem_span]. rewrite Hu. reflexivity.
  - destruct IH as (own & [I1 I2 I3 I4 I5]). exists own. constructor; cbn [z_f z_ph z_held z_pend f_span f_pagemap]; try assumption.
    + intros i j Hi Hj Hne. cbn [f_span]. destruct (HV i Hi) as (-> & _). destruct (HV j Hj) as (-> & _). apply I3; assumption.
    + intros id pg Hid Hr. destruct (HV id Hid) as (E & _ & E2 & _). rewrite E in Hr. rewrite E2 by assumption. apply I4; assumption.
    + rewrite I5. apply Permutation_eq. apply map_ext_in. intros x Hx. unfold start_of. cbn [f_span].
      destruct (HV x) as (-> & _); [rewrite I1; apply in_or_app; auto|reflexivity].
Qed.

(** C18 for such a class: the objects held are distinct and do not overlap; each is the
    start of a span obtained from the page heap and not on its way back; putting back
    held objects is always possible; a span on its way back is on its way only once. *)
Theorem cfl_one_object : forall c size pages y, class_ok c size pages -> pages * page_size c / size = 1 -> reach1 c pages y ->
  NoDup (z_held y) /\
  (forall p, In p (z_held y) -> exists id, In id (z_ph y) /\ ~ In id (concat (z_pend y)) /\ p = first_page (f_span (z_f y) id) * page_size c) /\
  (forall p q, In p (z_held y) -> In q (z_held y) -> p <> q -> p + size <= q \/ q + size <= p) /\
  (forall batch rest, Permutation (z_held y) (batch ++ rest) -> exists ids, map_objects_to_spans c (z_f y) batch = Some ids) /\
  NoDup (concat (z_pend y)) /\ (forall id, In id (concat (z_pend y)) -> In id (z_ph y)) /\
  (forall id, In id (z_ph y) -> ~ In id (concat (z_pend y)) -> In (first_page (f_span (z_f y) id) * page_size c) (z_held y)).
Proof.
  intros c size pages y Hc H1 H. pose proof (g_size _ _ _ (class_geom _ _ _ Hc)) as Hs. pose proof (g_pages _ _ _ (class_geom _ _ _ Hc)) as Hp.
  assert (Hpg : 0 < page_size c) by (pose proof (g_page _ _ _ (class_geom _ _ _ Hc)); lia).
  destruct (reach1_inv c pages y) as (own & I); [lia|assumption|assumption|]. pose proof I as I0. destruct I0 as [I1 I2 I3 I4 I5].
  pose proof I2 as N. rewrite I1 in N. apply NoDup_app_elim in N. destruct N as (N1 & N2 & N3).
  assert (Hown : apart pages (z_f y) own) by (intros i j Hi Hj; apply I3; rewrite I1; apply in_or_app; auto).
  assert (Hh : forall p, In p (z_held y) -> exists id, In id own /\ p = start_of c (z_f y) id).
  { intros p Hp'. rewrite I5 in Hp'. apply in_map_iff in Hp'. destruct Hp' as (id & <- & Hid). eauto. }
  assert (Hfit : size <= pages * page_size c) by nia.
  split. { rewrite I5. apply (NoDup_map_inv' c pages (z_f y) own); auto; [lia|apply incl_refl]. }
  split. { intros p Hp'. destruct (Hh p Hp') as (id & Hid & ->). exists id. split; [rewrite I1; apply in_or_app; auto|]. split; [apply N3; assumption|reflexivity]. }
  split.
  { intros p q Hp' Hq Hne. destruct (Hh p Hp') as (i & Hi & ->). destruct (Hh q Hq) as (j & Hj & ->). unfold start_of in *.
    assert (Hij : i <> j) by (intros ->; contradiction). destruct (Hown i j Hi Hj Hij); nia. }
  split.
  { intros batch rest HP. apply map_objects_some. intros p Hp'. assert (Hin : In p (z_held y)) by (rewrite HP; apply in_or_app; auto).
    destruct (Hh p Hin) as (id & Hid & ->). unfold start_of. rewrite Z.div_mul by lia.
    rewrite (I4 id); [discriminate|rewrite I1; apply in_or_app; auto|lia]. }
  split; [assumption|]. split; [intros id Hid; rewrite I1; apply in_or_app; auto|].
  intros id Hid Hno. rewrite I1 in Hid. apply in_app_or in Hid. destruct Hid as [Hid|]; [|contradiction]. rewrite I5.
  apply in_map_iff. exists id. split; [reflexivity|assumption].
Qed.
Print Assumptions cfl_one_object.

(** Two objects of a 262144-byte class (32 pages of 8192 bytes, one object) held, a third being
    returned. *)
Example one_object_history : exists y, class_ok ex_cfg 262144 32 /\ 32 * page_size ex_cfg / 262144 = 1 /\
  reach1 ex_cfg 32 y /\ z_held y = [819200; 81920] /\ z_pend y = [[2]].
Proof.
  pose (s := fun pg => MkSpan pg 9 4 11 5 (fun _ => 77) (fun _ => 99)).
  pose (y0 := MkSys1 (MkCfl (fun _ => 3) (fun _ => garbage) (fun _ => 44) (fun _ => None) hl_empty 0 0 0 (fun _ => 0)) [] [] []).
  pose (f1 := register (z_f y0) 32 1 (s 10)). pose (f2 := register f1 32 2 (s 42)). pose (f3 := register f2 32 3 (s 100)).
  assert (R0 : reach1 ex_cfg 32 y0) by constructor.
  assert (R1 : reach1 ex_cfg 32 (MkSys1 f1 [1] [81920] [])).
  { apply (s_remove ex_cfg 32 y0 1 (s 10) R0). split; [intros []|intros x []]. }
  assert (R2 : reach1 ex_cfg 32 (MkSys1 f2 [2; 1] [344064; 81920] [])).
  { apply (s_remove ex_cfg 32 _ 2 (s 42) R1). split; [cbn; lia|]. intros x [<-|[]]. cbn. lia. }
  assert (R3 : reach1 ex_cfg 32 (MkSys1 f3 [3; 2; 1] [819200; 344064; 81920] [])).
  { apply (s_remove ex_cfg 32 _ 3 (s 100) R2). split; [cbn; lia|]. intros x [<-|[<-|[]]]; cbn; lia. }
  exists (MkSys1 f3 [3; 2; 1] [819200; 81920] [[2]]). split.
  { split; [exists 2, 1; split; [lia|auto]|]. split; [lia|]. split; [lia|]. exists 2. vm_compute. reflexivity. }
  split; [reflexivity|]. split; [|split; reflexivity].
  apply (s_map ex_cfg 32 _ [344064] [819200; 81920] [2] R3); [|vm_compute; reflexivity]. cbn [z_held app]. apply perm_swap.
Qed.
