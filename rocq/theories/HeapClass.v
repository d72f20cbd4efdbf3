(** One size class inside the whole allocator: the steps of its central free list (central_freelist.h, central_freelist.cc)
    with what they exchange with the rest, and what they leave alone. *)
From Coq Require Import Permutation.
From Verif Require Import Base SizeMap SizeMapProofs SizeMapProofs2 Bitmap BitmapProofs BitmapProofs2 Span SpanProofs SpanProofs2 SpanProps
  HintedLists HintedListsProofs CentralFreeList CFLProofs CFLProofs2 CFLProofs3 CFLProps.

(** What a step exchanges: objects returned to the caller of RemoveRange, objects taken from the caller of InsertRange,
    spans obtained from the page heap (with the descriptor the page heap filled in), spans on their way back to it. *)
Record cev := Ev { e_out : list Z; e_in : list Z; e_got : list (Z * span); e_gave : list Z }.
Definition ev_none : cev := Ev [] [] [] [].

(** The steps of the list, as in CFLProps.v ([reach], [reach1]), for a class with several objects per span and for a class
    with one.  Nothing is assumed about the span that the page heap returns. *)
Inductive cstep (c : cfg) (size pages : Z) : sys -> cev -> sys -> Prop :=
| k_remove y n l f : 1 < pages * page_size c / size -> 1 <= n ->
    remove_locked c size (pages * page_size c / size) (y_f y) n = Some (l, true, f) ->
    cstep c size pages y (Ev l [] [] []) (MkSys (update_object_counts f (- Z.of_nat (length l))) (y_ph y) (l ++ y_held y) (y_pend y))
| k_remove_short y n l f : 1 < pages * page_size c / size -> 1 <= n ->
    remove_locked c size (pages * page_size c / size) (y_f y) n = Some (l, false, f) ->
    cstep c size pages y ev_none (MkSys f (y_ph y) (y_held y) (PRemove l (n - Z.of_nat (length l)) :: y_pend y))
| k_oom y objs room a b : 1 < pages * page_size c / size -> y_pend y = a ++ PRemove objs room :: b ->
    cstep c size pages y (Ev objs [] [] []) (MkSys (update_object_counts (y_f y) (- Z.of_nat (length objs))) (y_ph y) (objs ++ y_held y) (a ++ b))
| k_span y objs room a b id s0 l m s : 1 < pages * page_size c / size -> y_pend y = a ++ PRemove objs room :: b ->
    build_freelist c (f_mem (y_f y)) s0 size (pages * page_size c / size) room = (l, m, s) ->
    cstep c size pages y (Ev [] [] [(id, s0)] [])
      (MkSys (set_mem_span (register (y_f y) pages id s0) m id s) (id :: y_ph y) (y_held y) (a ++ PPublish objs l id :: b))
| k_publish y objs l id a b : 1 < pages * page_size c / size -> y_pend y = a ++ PPublish objs l id :: b ->
    cstep c size pages y (Ev (objs ++ l) [] [] []) (MkSys
      (update_object_counts (populate_locked (pages * page_size c / size) (y_f y) id (Z.of_nat (length l)))
         (- Z.of_nat (length (objs ++ l))))
      (y_ph y) (objs ++ l ++ y_held y) (a ++ b))
| k_prepare y batch rest runs0 p : 1 < pages * page_size c / size -> Permutation (y_held y) (batch ++ rest) ->
    insert_prepare c size (y_f y) batch runs0 = Some p ->
    cstep c size pages y (Ev [] batch [] []) (MkSys (y_f y) (y_ph y) rest (PInsert p :: y_pend y))
| k_insert y p a b ids f : 1 < pages * page_size c / size -> y_pend y = a ++ PInsert p :: b ->
    insert_locked c size (pages * page_size c / size) (y_f y) p = Some (ids, f) ->
    cstep c size pages y ev_none (MkSys f (y_ph y) (y_held y) (a ++ PFree ids :: b))
(* one object per span, central_freelist.h:599 and central_freelist.h:700 *)
| k_remove1 y id s0 : pages * page_size c / size = 1 ->
    cstep c size pages y (Ev [span_start c s0] [] [(id, s0)] [])
      (MkSys (register (y_f y) pages id s0) (id :: y_ph y) (span_start c s0 :: y_held y) (y_pend y))
| k_map1 y batch rest ids : pages * page_size c / size = 1 -> Permutation (y_held y) (batch ++ rest) ->
    map_objects_to_spans c (y_f y) batch = Some ids ->
    cstep c size pages y (Ev [] batch [] []) (MkSys (y_f y) (y_ph y) rest (PFree ids :: y_pend y))
(* both *)
| k_free y id ids a b : y_pend y = a ++ PFree (id :: ids) :: b ->
    cstep c size pages y (Ev [] [] [] [id]) (MkSys (unregister (y_f y) pages id) (rem1 id (y_ph y)) (y_held y) (a ++ PFree ids :: b)).

(** The states the list can be in. *)
Definition cgood (c : cfg) (size pages : Z) (y : sys) : Prop :=
  (1 < pages * page_size c / size /\ reach c size pages y) \/
  (pages * page_size c / size = 1 /\ exists pend1, y_pend y = map PFree pend1 /\ reach1 c pages (MkSys1 (y_f y) (y_ph y) (y_held y) pend1)).

Definition cinit (m : memory) (sp : Z -> span) (ni : Z -> Z) (pm : Z -> option Z) : sys :=
  MkSys (MkCfl m sp ni pm hl_empty 0 0 0 (fun _ => 0)) [] [] [].

Lemma cgood_init c size pages m sp ni pm : class_ok c size pages -> cgood c size pages (cinit m sp ni pm).
Proof.
  intros Hc. assert (H : 1 <= pages * page_size c / size).
  { pose proof (g_count _ _ _ (class_geom _ _ _ Hc)) as K. unfold objects in K. lia. }
  destruct (Z.eq_dec (pages * page_size c / size) 1) as [E|E].
  - right. split; [assumption|]. exists []. split; [reflexivity|]. apply s_init.
  - left. split; [lia|]. apply r_init.
Qed.

(** Whatever else happens in the process. *)
Definition with_shared (y : sys) (m : memory) (sp : Z -> span) (ni : Z -> Z) (pm : Z -> option Z) : sys :=
  MkSys (MkCfl m sp ni pm (f_nonempty (y_f y)) (f_counter (y_f y)) (f_requested (y_f y)) (f_returned (y_f y)) (f_util (y_f y)))
    (y_ph y) (y_held y) (y_pend y).

Lemma cgood_env c size pages y m sp ni pm : cgood c size pages y -> env_ok c pages (y_f y) (y_ph y) m sp ni pm ->
  cgood c size pages (with_shared y m sp ni pm).
Proof.
  intros [(H & R)|(H & pend1 & E & R)] He.
  - left. split; [assumption|]. apply r_env; assumption.
  - right. split; [assumption|]. exists pend1. split; [exact E|]. apply (s_env c pages _ m sp ni pm R). exact He.
Qed.

(** The steps keep the list in a reachable state, if the page heap hands out fresh spans. *)
Definition got_fresh (pages : Z) (y : sys) (e : cev) : Prop :=
  forall id s0, In (id, s0) (e_got e) -> fresh_span pages (y_f y) (y_ph y) id s0.

Lemma map_mid {A B} (f : A -> B) (l : list A) a x b : map f l = a ++ x :: b ->
  exists a' x' b', l = a' ++ x' :: b' /\ a = map f a' /\ x = f x' /\ b = map f b'.
Proof.
  intros E. symmetry in E. destruct (map_eq_app _ _ _ _ (eq_sym E)) as (l1 & l2 & -> & <- & E2).
  destruct l2 as [|x' b']; cbn [map] in E2; [discriminate|]. injection E2 as <- <-. exists l1, x', b'. auto.
Qed.

Lemma cstep_good c size pages y e y' : cgood c size pages y -> cstep c size pages y e y' -> got_fresh pages y e -> cgood c size pages y'.
Proof.
  intros G S F. destruct S as [y n l f H1 Hn E|y n l f H1 Hn E|y objs room a b H1 Ep|y objs room a b id s0 l m s H1 Ep E
    |y objs l id a b H1 Ep|y batch rest runs0 p H1 HP E|y p a b ids f H1 Ep E|y id s0 H1|y batch rest ids H1 HP E|y id ids a b Ep].
  10:{ destruct G as [(H1 & R)|(H1 & pend1 & Eq & R)].
    - left. split; [assumption|]. eapply r_free; eassumption.
    - right. split; [assumption|]. rewrite Eq in Ep. apply map_mid in Ep. destruct Ep as (a' & x' & b' & -> & -> & Ex & ->).
      injection Ex as <-. exists (a' ++ ids :: b'). split; [cbn [y_pend]; rewrite map_app; reflexivity|].
      apply (s_free c pages _ id ids a' b' R). reflexivity. }
  8,9: destruct G as [(H2 & R)|(H2 & pend1 & Eq & R)]; [lia|]; right; split; [assumption|].
  8:{ exists pend1. split; [exact Eq|]. apply (s_remove c pages _ id s0 R). apply F. left. reflexivity. }
  8:{ exists (ids :: pend1). split; [cbn [y_pend map]; rewrite Eq; reflexivity|]. apply (s_map c pages _ batch rest ids R HP E). }
  all: destruct G as [(H2 & R)|(H2 & _)]; [|lia]; left; split; [assumption|].
  - eapply r_remove; eassumption.
  - eapply r_remove_short; eassumption.
  - eapply r_oom; eassumption.
  - eapply r_span; try eassumption. apply F. left. reflexivity.
  - eapply r_publish; eassumption.
  - eapply r_prepare; eassumption.
  - eapply r_insert; eassumption.
Qed.

(** What the rest of the allocator sees of the list. *)
Record cfacts (c : cfg) (size pages : Z) (y : sys) : Prop := {
  cf_nd : NoDup (y_ph y);
  cf_apart : apart pages (y_f y) (y_ph y);
  cf_pm : forall id pg, In id (y_ph y) -> first_page (f_span (y_f y) id) <= pg < first_page (f_span (y_f y) id) + pages ->
     f_pagemap (y_f y) pg = Some id;
  cf_hnd : NoDup (y_held y);
  cf_held : forall p, In p (y_held y) -> exists id k, In id (y_ph y) /\ ~ In id (freeing y) /\ 0 <= k < pages * page_size c / size /\
     p = first_page (f_span (y_f y) id) * page_size c + k * size
}.

Lemma freeing_map l : flat_map pend_freeing (map PFree l) = concat l.
Proof. induction l as [|x l IH]; cbn; [reflexivity|]. rewrite IH. reflexivity. Qed.

Lemma good_facts c size pages y : class_ok c size pages -> cgood c size pages y -> cfacts c size pages y.
Proof.
  intros Hc. pose proof (class_geom _ _ _ Hc) as Ge. pose proof (g_size _ _ _ Ge) as Hsz. pose proof (g_pages _ _ _ Ge) as Hpgs. pose proof (g_page _ _ _ Ge) as Hpg.
  intros [(H1 & R)|(H1 & pend1 & E & R)].
  - destruct (reach_inv c size pages y Hc H1 R) as (own & pub & L & I). invd I. constructor; try assumption.
    + pose proof (core_NoDup _ _ _ _ _ _ _ Hc Ico) as Hnd. rewrite Iout in Hnd. apply NoDup_app_elim in Hnd. apply Hnd.
    + intros p Hp. destruct (held_pub _ _ _ _ _ _ _ _ Hc I Hp) as (id & J1 & J2 & k & Hk & ->). exists id, k.
      pose proof (co_incl _ _ _ _ _ _ _ Ico id J1) as J3. split; [rewrite Iph; apply in_or_app; auto|]. split; [|split; [exact Hk|reflexivity]].
      rewrite Iph in Iphn. apply NoDup_app_elim in Iphn. apply Iphn. assumption.
  - destruct (cfl_one_object c size pages _ Hc H1 R) as (A1 & A2 & A3 & A4 & A5 & A6 & A7).
    destruct (reach1_inv c pages _ ltac:(lia) ltac:(lia) R) as (own & [I1 I2 I3 I4 I5]). cbn [z_f z_ph z_held z_pend] in *. constructor; try assumption.
    intros p Hp. destruct (A2 p Hp) as (id & B1 & B2 & ->). exists id, 0. split; [assumption|].
    unfold freeing. rewrite E, freeing_map. split; [assumption|]. split; lia.
Qed.

(** What a step leaves alone. *)
Definition in_pages (c : cfg) (pages fp a : Z) : Prop := fp * page_size c <= a < (fp + pages) * page_size c.

Record cframe (c : cfg) (size pages : Z) (y : sys) (e : cev) (y' : sys) : Prop := {
  fr_held : Permutation (y_held y ++ e_out e) (e_in e ++ y_held y');
  fr_ph : Permutation (y_ph y' ++ e_gave e) (map fst (e_got e) ++ y_ph y);
  fr_span : forall x, ~ In x (y_ph y) -> ~ In x (map fst (e_got e)) ->
     f_span (y_f y') x = f_span (y_f y) x /\ f_nidx (y_f y') x = f_nidx (y_f y) x;
  fr_first : forall x, In x (y_ph y) -> first_page (f_span (y_f y') x) = first_page (f_span (y_f y) x);
  fr_got : forall id s0, In (id, s0) (e_got e) -> first_page (f_span (y_f y') id) = first_page s0;
  fr_pm : forall pg, (forall x, In x (y_ph y) -> ~ (first_page (f_span (y_f y) x) <= pg < first_page (f_span (y_f y) x) + pages)) ->
     (forall id s0, In (id, s0) (e_got e) -> ~ (first_page s0 <= pg < first_page s0 + pages)) -> f_pagemap (y_f y') pg = f_pagemap (y_f y) pg;
  fr_mem : forall a, (forall x, In x (y_ph y) -> ~ in_pages c pages (first_page (f_span (y_f y) x)) a) ->
     (forall id s0, In (id, s0) (e_got e) -> ~ in_pages c pages (first_page s0) a) -> f_mem (y_f y') a = f_mem (y_f y) a;
  fr_live : forall p a, In p (y_held y) -> In p (y_held y') -> p <= a < p + size -> f_mem (y_f y') a = f_mem (y_f y) a
}.

Lemma held_range c size pages y p : class_ok c size pages -> cfacts c size pages y -> In p (y_held y) ->
  exists id, In id (y_ph y) /\ ~ In id (freeing y) /\ first_page (f_span (y_f y) id) * page_size c <= p /\
    p + size <= (first_page (f_span (y_f y) id) + pages) * page_size c.
Proof.
  intros Hc F Hp. destruct (cf_held _ _ _ _ F p Hp) as (id & k & A & B & C & D). exists id. split; [assumption|]. split; [assumption|].
  apply valid_range; [assumption|]. exists k. split; [exact C|exact D].
Qed.

Lemma cstep_frame c size pages y e y' : class_ok c size pages -> cgood c size pages y -> cstep c size pages y e y' -> got_fresh pages y e ->
  cframe c size pages y e y'.
Proof.
  intros Hc G S F. pose proof (good_facts _ _ _ _ Hc G) as Fa.
  pose proof (class_geom _ _ _ Hc) as Ge. pose proof (g_size _ _ _ Ge) as Hsz. pose proof (g_pages _ _ _ Ge) as Hpgs. pose proof (g_page _ _ _ Ge) as Hpg.
  destruct S as [y n l f H1 Hn E|y n l f H1 Hn E|y objs room a b H1 Ep|y objs room a b id s0 l m s H1 Ep E
    |y objs l id a b H1 Ep|y batch rest runs0 p H1 HP E|y p a b ids f H1 Ep E|y id s0 H1|y batch rest ids H1 HP E|y id ids a b Ep].
  - (* remove *)
    destruct G as [(_ & R)|(H2 & _)]; [|lia]. destruct (reach_inv c size pages y Hc H1 R) as (own & pub & L & I). invd I.
    change (pages * page_size c / size) with (objects c size pages) in E.
    apply (inv_remove c size pages y own pub L) in E; try assumption. destruct E as (L' & A1 & (F1 & F2 & F3 & F4 & F5) & A3 & A4 & A5 & A6 & A7).
    assert (Hpub : forall x, In x pub -> In x (y_ph y)) by (intros x Hx; rewrite Iph; apply in_or_app; left; apply Ico; assumption).
    constructor; cbn [y_f y_ph y_held y_pend e_out e_in e_got e_gave app map update_object_counts set_counts f_span f_nidx f_mem f_pagemap]; auto.
    + apply Permutation_app_comm.
    + rewrite app_nil_r. reflexivity.
    + intros id s0 [].
    + intros pg _ _. rewrite F1. reflexivity.
    + intros a _ _. rewrite A3. reflexivity.
    + intros p a _ _ _. rewrite A3. reflexivity.
  - (* remove, short *)
    destruct G as [(_ & R)|(H2 & _)]; [|lia]. destruct (reach_inv c size pages y Hc H1 R) as (own & pub & L & I). invd I.
    change (pages * page_size c / size) with (objects c size pages) in E.
    apply (inv_remove c size pages y own pub L) in E; try assumption. destruct E as (L' & A1 & (F1 & F2 & F3 & F4 & F5) & A3 & A4 & A5 & A6 & A7).
    assert (Hpub : forall x, In x pub -> In x (y_ph y)) by (intros x Hx; rewrite Iph; apply in_or_app; left; apply Ico; assumption).
    constructor; cbn [y_f y_ph y_held y_pend ev_none e_out e_in e_got e_gave app map]; auto.
    + rewrite app_nil_r. reflexivity.
    + rewrite app_nil_r. reflexivity.
    + intros id s0 [].
    + intros pg _ _. rewrite F1. reflexivity.
    + intros a _ _. rewrite A3. reflexivity.
    + intros p a _ _ _. rewrite A3. reflexivity.
  - (* out of memory *)
    constructor; cbn [y_f y_ph y_held y_pend e_out e_in e_got e_gave app map update_object_counts set_counts f_span f_nidx f_mem f_pagemap]; auto.
    + apply Permutation_app_comm.
    + rewrite app_nil_r. reflexivity.
    + intros id s0 [].
  - (* new span *)
    change (pages * page_size c / size) with (objects c size pages) in E.
    destruct G as [(_ & R)|(H2 & _)]; [|lia]. destruct (reach_inv c size pages y Hc H1 R) as (own & pub & L & I). invd I.
    assert (Hroom : 1 <= room).
    { rewrite Forall_forall in Ipend. apply (Ipend (PRemove objs room)). rewrite Ep. apply in_elt. }
    apply (build_frame c size pages) in E; [|assumption|lia]. destruct E as (_ & Hfp & _ & Hm).
    destruct (F id s0 (or_introl eq_refl)) as (N1 & N2).
    constructor; cbn [y_f y_ph y_held y_pend e_out e_in e_got e_gave app map fst set_mem_span register f_span f_nidx f_mem f_pagemap].
    + rewrite app_nil_r. reflexivity.
    + rewrite app_nil_r. reflexivity.
    + intros x Hx Hx2. split; [|reflexivity]. rewrite !upd_other; [reflexivity| |]; intros ->; apply Hx2; left; reflexivity.
    + intros x Hx. rewrite !upd_other; [reflexivity| |]; intros ->; contradiction.
    + intros i s1 [Ei|[]]. injection Ei as <- <-. rewrite upd_same. assumption.
    + intros pg _ H2. specialize (H2 id s0 (or_introl eq_refl)). replace ((_ <=? _) && (_ <? _)) with false by lia. reflexivity.
    + intros x _ H2. apply Hm. apply (H2 id s0 (or_introl eq_refl)).
    + intros p x Hp _ Hx. apply Hm. destruct (held_range _ _ _ _ _ Hc Fa Hp) as (i & J1 & _ & J2 & J3). intros Hbad.
      destruct (N2 i J1) as [Q|Q]; nia.
  - (* publish *)
    destruct G as [(_ & R)|(H2 & _)]; [|lia]. destruct (reach_inv c size pages y Hc H1 R) as (own & pub & L & I). invd I.
    assert (Hx : In (PPublish objs l id) (y_pend y)) by (rewrite Ep; apply in_elt).
    assert (Hido : In id (y_ph y)).
    { rewrite Iph. apply in_or_app. left. rewrite Iown. apply in_or_app. right. unfold private. apply in_flat_map. eexists. split; [exact Hx|]. left. reflexivity. }
    set (g := populate_locked _ _ _ _).
    assert (Hg : f_pagemap g = f_pagemap (y_f y) /\ f_mem g = f_mem (y_f y) /\ f_span g = f_span (y_f y) /\
       forall x, x <> id -> f_nidx g x = f_nidx (y_f y) x).
    { unfold g, populate_locked. destruct (negb _); cbn; (split; [reflexivity|]); (split; [reflexivity|]); (split; [reflexivity|]); intros x Hne; [apply upd_other; assumption|reflexivity]. }
    destruct Hg as (P1 & P2 & P3 & P4).
    constructor; cbn [y_f y_ph y_held y_pend e_out e_in e_got e_gave app map fst update_object_counts set_counts f_span f_nidx f_mem f_pagemap];
      rewrite ?P1, ?P2, ?P3; auto.
    + rewrite (app_assoc objs l). apply Permutation_app_comm.
    + rewrite app_nil_r. reflexivity.
    + intros x Hx1 _. split; [reflexivity|]. apply P4. intros ->. contradiction.
    + intros i s1 [].
  - (* prepare *)
    constructor; cbn [y_f y_ph y_held y_pend e_out e_in e_got e_gave app map]; auto.
    + rewrite app_nil_r. assumption.
    + rewrite app_nil_r. reflexivity.
    + intros i s1 [].
  - (* insert *)
    destruct G as [(_ & R)|(H2 & _)]; [|lia]. destruct (reach_inv c size pages y Hc H1 R) as (own & pub & L & I). invd I.
    change (pages * page_size c / size) with (objects c size pages) in E.
    unfold insert_locked in E.
    assert (Hx : In (PInsert p) (y_pend y)) by (rewrite Ep; apply in_elt).
    assert (Hpo : pend_ok c size (y_f y) pub L (PInsert p)) by (rewrite Forall_forall in Ipend; apply (Ipend _ Hx)).
    cbn in Hpo. destruct Hpo as (B1 & B2 & B3).
    pose proof (core_NoDup _ _ _ _ _ _ _ Hc Ico) as Hnd. rewrite Iout in Hnd.
    unfold out in *. rewrite Ep, flat_map_mid in Hnd. cbn [pend_objs] in Hnd.
    apply NoDup_app_elim in Hnd. destruct Hnd as (_ & Hnd & Nheld). apply NoDup_app_elim in Hnd. destruct Hnd as (Nobj & _ & _).
    destruct (insert_loop_spec c size pages (p_n p) (p_batch p) (p_idx p) (p_runs p) Hc (Z.to_nat (p_n p)) (y_f y) own pub L 0 0 (p_spans p) Ico
      ltac:(lia) ltac:(lia) ltac:(lia) B2 B3)
      as (fc & spans & f1 & own' & pub' & L' & E' & A1 & (F1 & F2 & F3 & F4 & F5) & A3 & A4 & A5 & A6 & A7 & A8 & A9 & A10 & A11 & A12 & A13 & Q1 & Q2 & Q3).
    { replace (p_n p - 0) with (p_n p) by lia. exact Nobj. }
    cbv zeta in *. replace (p_n p - 0) with (p_n p) in * by lia. fold (p_objs p) in A8.
    rewrite E' in E. cbn [obind] in E. injection E as <- <-.
    assert (Hpub : forall x, In x pub -> In x (y_ph y)) by (intros x Hx'; rewrite Iph; apply in_or_app; left; apply Ico; assumption).
    constructor; cbn [y_f y_ph y_held y_pend ev_none e_out e_in e_got e_gave app map update_object_counts record_multi_spans_deallocated set_counts f_span f_nidx f_mem f_pagemap]; auto.
    + rewrite app_nil_r. reflexivity.
    + rewrite app_nil_r. reflexivity.
    + intros i s1 [].
    + intros pg _ _. rewrite F1. reflexivity.
    + intros x Hx1 _. apply Q2. intros i Hi. apply Hx1. auto.
    + intros q x Hq _ Hr. assert (Hin : In q (cat L own)) by (rewrite Iout; apply in_or_app; auto). rewrite A8 in Hin. apply in_app_or in Hin.
      destruct Hin as [Hin|Hin]; [exfalso; apply (Nheld q Hq); apply in_or_app; left; assumption|].
      apply cat_In in Hin. destruct Hin as (i & Hi & Hqi). apply (Q3 i q); assumption.
  - (* one object: a new span *)
    destruct (F id s0 (or_introl eq_refl)) as (N1 & N2).
    constructor; cbn [y_f y_ph y_held y_pend e_out e_in e_got e_gave app map fst register f_span f_nidx f_mem f_pagemap]; auto.
    + apply Permutation_sym, Permutation_cons_append.
    + rewrite app_nil_r. reflexivity.
    + intros x Hx Hx2. split; [|reflexivity]. apply upd_other. intros ->; apply Hx2; left; reflexivity.
    + intros x Hx. rewrite upd_other; [reflexivity|]. intros ->; contradiction.
    + intros i s1 [Ei|[]]. injection Ei as <- <-. rewrite upd_same. reflexivity.
    + intros pg _ H2. specialize (H2 id s0 (or_introl eq_refl)). replace ((_ <=? _) && (_ <? _)) with false by lia. reflexivity.
  - (* one object: give back *)
    constructor; cbn [y_f y_ph y_held y_pend e_out e_in e_got e_gave app map]; auto.
    + rewrite app_nil_r. assumption.
    + rewrite app_nil_r. reflexivity.
    + intros i s1 [].
  - (* a span goes back *)
    assert (Hin : In id (y_ph y)).
    { destruct G as [(H1 & R)|(H1 & pend1 & Eq & R)].
      - destruct (reach_inv c size pages y Hc H1 R) as (own & pub & L & I). rewrite (i_ph _ _ _ _ _ _ _ I). apply in_or_app. right.
        unfold freeing. rewrite Ep, flat_map_mid. left. reflexivity.
      - destruct (cfl_one_object c size pages _ Hc H1 R) as (A1 & A2 & A3 & A4 & A5 & A6 & A7). apply A6. cbn [z_pend].
        rewrite <- freeing_map, <- Eq, Ep, flat_map_mid. left. reflexivity. }
    constructor; cbn [y_f y_ph y_held y_pend e_out e_in e_got e_gave app map unregister f_span f_nidx f_mem f_pagemap]; auto.
    + rewrite app_nil_r. reflexivity.
    + rewrite <- Permutation_cons_append. symmetry. apply rem1_perm. assumption.
    + intros i s1 [].
    + intros pg H2 _. specialize (H2 id Hin). replace ((_ <=? _) && (_ <? _)) with false by lia. reflexivity.
Qed.

(** A write into an object held. *)
Lemma cgood_write c size pages y p a v : class_ok c size pages -> cgood c size pages y -> In p (y_held y) -> p <= a < p + size ->
  exists sp, (forall x, sp x = f_span (y_f y) x) /\
  cgood c size pages (with_shared y (upd (f_mem (y_f y)) a v) sp (f_nidx (y_f y)) (f_pagemap (y_f y))).
Proof.
  intros Hc G Hp Ha. exists (upd (f_span (y_f y)) 0 (f_span (y_f y) 0)). split.
  { intros x. unfold upd. destruct (Z.eqb_spec x 0) as [->|]; reflexivity. }
  destruct G as [(H1 & R)|(H1 & pend1 & E & R)].
  - left. split; [assumption|]. apply (r_write c size pages y p a v R Hp Ha).
  - right. split; [assumption|]. exists pend1. split; [exact E|]. apply (s_write c pages _ p a v R Hp).
    pose proof (class_geom _ _ _ Hc) as Ge. pose proof (g_fit _ _ _ Ge). unfold objects in *. nia.
Qed.
