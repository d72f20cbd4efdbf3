(** C40: intrusive lists. *)
From Coq Require Import Permutation.
From Verif Require Import Base LinkedList.

(** ** LinkedList *)

(** Histories of one list.  [abs] is the sequence a LIFO list should hold; other
    parts of the program may write to any object not on the list. *)
Inductive ll_hist : heap -> llist -> list Z -> Prop :=
| ll_init h : ll_hist h ll_empty_list []
| ll_h_push h l abs p h' l' : ll_hist h l abs ->
    p <> 0 -> ~ In p abs -> Z.of_nat (length abs) + 1 < 2 ^ 32 ->
    ll_push h l p = (h', l') -> ll_hist h' l' (p :: abs)
| ll_h_pop h l abs r l' : ll_hist h l abs ->
    ll_try_pop h l = (r, l') -> ll_hist h l' (tl abs)
| ll_h_push_batch h l abs batch h' l' : ll_hist h l abs ->
    NoDup (batch ++ abs) -> ~ In 0 batch -> Z.of_nat (length (batch ++ abs)) < 2 ^ 32 ->
    ll_push_batch h l batch = Some (h', l') -> ll_hist h' l' (batch ++ abs)
| ll_h_pop_batch h l abs n b l' : ll_hist h l abs ->
    (n <= length abs)%nat -> ll_pop_batch h l n = (b, l') -> ll_hist h l' (skipn n abs)
| ll_h_write h l abs a v : ll_hist h l abs -> ~ In a abs -> ll_hist (upd h a v) l abs.

Fixpoint sll (h : heap) (p : Z) (l : list Z) : Prop :=
  match l with
  | [] => p = 0
  | x :: l => p = x /\ x <> 0 /\ sll h (h x) l
  end.

Lemma sll_frame h h' l : forall p, (forall x, In x l -> h' x = h x) -> sll h p l -> sll h' p l.
Proof.
  induction l as [|x l IH]; intros p Hf H; cbn in *; [assumption|].
  destruct H as (H1 & H2 & H3). split; [assumption|]. split; [assumption|]. rewrite Hf by auto. apply IH; auto.
Qed.

Lemma ll_chain_other batch : forall h tail a, ~ In a batch -> ll_chain h tail batch a = h a.
Proof.
  induction batch as [|p rest IH]; intros h tail a Ha; [reflexivity|].
  destruct rest as [|q rest].
  - cbn. unfold sll_set_next, upd. destruct (Z.eqb_spec a p); [|reflexivity]. exfalso. apply Ha. left. auto.
  - change (ll_chain (sll_set_next h p q) tail (q :: rest) a = h a).
    rewrite IH by (intros Hin; apply Ha; right; assumption).
    unfold sll_set_next, upd. destruct (Z.eqb_spec a p); [|reflexivity]. exfalso. apply Ha. left. auto.
Qed.

Lemma ll_chain_sll batch : forall h tail abs, batch <> [] -> NoDup (batch ++ abs) -> ~ In 0 batch ->
  sll h tail abs -> sll (ll_chain h tail batch) (hd 0 batch) (batch ++ abs).
Proof.
  induction batch as [|p rest IH]; intros h tail abs Hne Hnd H0 H; [congruence|].
  cbn [app] in Hnd. inversion Hnd as [|? ? Hp Hnd']; subst.
  destruct rest as [|q rest].
  - cbn [hd app sll ll_chain]. split; [reflexivity|]. split; [intros ->; apply H0; left; reflexivity|].
    unfold sll_set_next. rewrite upd_same. apply (sll_frame h); [|assumption].
    intros x Hx. unfold upd. destruct (Z.eqb_spec x p) as [->|]; [|reflexivity]. contradiction.
  - change (ll_chain h tail (p :: q :: rest)) with (ll_chain (sll_set_next h p q) tail (q :: rest)).
    cbn [hd app sll]. split; [reflexivity|]. split; [intros ->; apply H0; left; reflexivity|].
    rewrite ll_chain_other.
    + assert (Hq : sll_set_next h p q p = hd 0 (q :: rest)) by (unfold sll_set_next; apply upd_same). rewrite Hq.
      apply (IH (sll_set_next h p q) tail abs); [discriminate|assumption|intros Hin; apply H0; right; assumption|].
      apply (sll_frame h); [|assumption]. intros x Hx. unfold sll_set_next, upd.
      destruct (Z.eqb_spec x p) as [->|]; [|reflexivity]. exfalso. apply Hp. apply in_or_app. auto.
    + intros Hin. apply Hp. apply in_or_app. auto.
Qed.

Lemma ll_pop_loop_spec h n : forall p l, (n <= length l)%nat -> sll h p l ->
  exists q, ll_pop_loop h p n = (firstn n l, q) /\ sll h q (skipn n l).
Proof.
  induction n as [|n IH]; intros p l Hn H; cbn [ll_pop_loop firstn skipn]; [eauto|].
  destruct l as [|x l]; [cbn in Hn; lia|]. destruct H as (-> & Hx & H). cbn [length] in Hn.
  destruct (IH (h x) l ltac:(lia) H) as (q & E & Hq). unfold sll_next. rewrite E. eauto.
Qed.

Lemma ll_hist_inv h l abs : ll_hist h l abs ->
  sll h (list_ l) abs /\ NoDup abs /\ length_ l = Z.of_nat (length abs) /\ Z.of_nat (length abs) < 2 ^ 32.
Proof.
  intros H. induction H as [h|h l abs p h' l' H (I1 & I2 & I3 & I4) Hp Hin Hlen E|h l abs r l' H (I1 & I2 & I3 & I4) E|
     h l abs batch h' l' H (I1 & I2 & I3 & I4) Hnd H0 Hlen E|h l abs n b l' H (I1 & I2 & I3 & I4) Hn E|h l abs a v H (I1 & I2 & I3 & I4) Ha].
  - split; [reflexivity|]. split; [constructor|]. cbn. lia.
  - unfold ll_push in E. cbn in E. injection E as <- <-. cbn [list_ length_ sll].
    split; [|split; [constructor; assumption|split]].
    + split; [reflexivity|]. split; [assumption|]. unfold sll_set_next. rewrite upd_same.
      apply (sll_frame h); [|assumption]. intros x Hx. unfold upd. destruct (Z.eqb_spec x p) as [->|]; [contradiction|reflexivity].
    + cbn [length]. rewrite I3. unfold w32. rewrite Z.mod_small; lia.
    + cbn [length]. lia.
  - unfold ll_try_pop in E. destruct abs as [|x abs]; cbn [sll] in I1.
    + rewrite I1 in E. cbn in E. injection E as <- <-. rewrite I1. split; [reflexivity|]. split; [constructor|]. cbn in *. lia.
    + destruct I1 as (J1 & J2 & J3). rewrite J1 in E. replace (x =? 0) with false in E by lia. injection E as <- <-.
      cbn [tl list_ length_]. inversion I2; subst. cbn [length] in I3, I4.
      split; [assumption|]. split; [assumption|]. rewrite I3. unfold w32. rewrite Z.mod_small; lia.
  - unfold ll_push_batch in E. destruct batch as [|p rest]; [discriminate|]. injection E as <- <-.
    cbn [list_ length_]. split; [|split; [assumption|split; [|assumption]]].
    + apply (ll_chain_sll (p :: rest)); [discriminate|assumption|assumption|assumption].
    + rewrite I3. rewrite app_length in Hlen |- *. cbn [length] in *. unfold w32. rewrite Z.mod_small by lia. lia.
  - unfold ll_pop_batch in E. destruct (ll_pop_loop_spec h n (list_ l) abs Hn I1) as (q & Eq & Hq). rewrite Eq in E.
    injection E as <- <-. cbn [list_ length_]. split; [assumption|].
    assert (Hl : length (skipn n abs) = (length abs - n)%nat) by apply skipn_length.
    split; [|rewrite I3, Hl; unfold w32; rewrite Z.mod_small; lia].
    rewrite <- (firstn_skipn n abs) in I2. clear - I2. induction (firstn n abs) as [|y t IH]; [assumption|]. inversion I2; auto.
  - split; [|auto]. apply (sll_frame h); [|assumption]. intros x Hx. unfold upd.
    destruct (Z.eqb_spec x a) as [->|]; [contradiction|reflexivity].
Qed.

(** C40: the list is the LIFO sequence: exact length, exact emptiness, and pops
    return the most recently pushed objects, batches included. *)
Theorem linked_list_lifo : forall h l abs, ll_hist h l abs ->
  ll_length l = Z.of_nat (length abs) /\
  (ll_is_empty l = true <-> abs = []) /\
  fst (ll_try_pop h l) = hd_error abs /\
  (forall n, (n <= length abs)%nat -> fst (ll_pop_batch h l n) = firstn n abs).
Proof.
  intros h l abs H. apply ll_hist_inv in H. destruct H as (I1 & I2 & I3 & I4).
  split; [assumption|]. split; [|split].
  - unfold ll_is_empty. destruct abs as [|x abs]; cbn in I1; [rewrite I1; split; reflexivity|].
    destruct I1 as (-> & J & _). split; [lia|discriminate].
  - unfold ll_try_pop. destruct abs as [|x abs]; cbn in I1; [rewrite I1; reflexivity|].
    destruct I1 as (-> & J & _). replace (x =? 0) with false by lia. reflexivity.
  - intros n Hn. unfold ll_pop_batch. destruct (ll_pop_loop_spec h n (list_ l) abs Hn I1) as (q & -> & _). reflexivity.
Qed.
Print Assumptions linked_list_lifo.

Example linked_list_history : exists h l, ll_hist h l [48; 16; 32].
Proof.
  eexists. eexists.
  change [48; 16; 32] with (skipn 1 [64; 48; 16; 32]).
  eapply ll_h_pop_batch; [|cbn; lia|reflexivity].
  eapply (ll_h_push_batch _ _ [16; 32] [64; 48]); [| | | |reflexivity].
  - apply ll_h_write with (a := 200) (v := 7); [|cbn; lia].
    eapply ll_h_push; [|lia| | |reflexivity]; [eapply ll_h_push; [apply (ll_init (fun _ => 99))|lia|cbn; tauto|cbn; lia|reflexivity]|cbn; lia|cbn; lia].
  - cbn. repeat constructor; cbn; lia.
  - cbn. lia.
  - cbn. lia.
Qed.

(** ** TList *)

(** [f head] is the sequence the list at [head] should hold.  Lists are initialised
    one by one; elements are inserted at either end or next to another element, and
    removed. *)
Definition set_list (f : Z -> list Z) (h : Z) (l : list Z) : Z -> list Z := fun h' => if h' =? h then l else f h'.

Definition on_some_list (heads : list Z) (f : Z -> list Z) (x : Z) : Prop :=
  exists h, In h heads /\ (x = h \/ In x (f h)).

Inductive tl_hist : list Z -> links -> (Z -> list Z) -> Prop :=
| tl_start k : tl_hist [] k (fun _ => [])
| tl_h_init heads k f h : tl_hist heads k f -> ~ on_some_list heads f h ->
    tl_hist (h :: heads) (tl_init k h) (set_list f h [])
| tl_h_prepend heads k f h x : tl_hist heads k f -> In h heads -> ~ on_some_list heads f x ->
    tl_hist heads (tl_prepend k h x) (set_list f h (x :: f h))
| tl_h_append heads k f h x : tl_hist heads k f -> In h heads -> ~ on_some_list heads f x ->
    tl_hist heads (tl_append k h x) (set_list f h (f h ++ [x]))
| tl_h_prepend_other heads k f h l1 y l2 x : tl_hist heads k f -> In h heads -> ~ on_some_list heads f x ->
    f h = l1 ++ y :: l2 ->
    tl_hist heads (tl_prepend_other k y x) (set_list f h (l1 ++ x :: y :: l2))
| tl_h_append_other heads k f h l1 y l2 x : tl_hist heads k f -> In h heads -> ~ on_some_list heads f x ->
    f h = l1 ++ y :: l2 ->
    tl_hist heads (tl_append_other k y x) (set_list f h (l1 ++ y :: x :: l2))
| tl_h_remove heads k f h l1 y l2 k' r : tl_hist heads k f -> In h heads -> f h = l1 ++ y :: l2 ->
    tl_remove k y = (k', r) ->
    tl_hist heads k' (set_list f h (l1 ++ l2)).

(** Linked segment: a, then l, then b. *)
Fixpoint dseg (k : links) (a : Z) (l : list Z) (b : Z) : Prop :=
  match l with
  | [] => nx k a = b /\ pv k b = a
  | x :: l => nx k a = x /\ pv k x = a /\ dseg k x l b
  end.

Lemma dseg_frame k k' l : forall a b,
  (forall x, In x (a :: l) -> nx k' x = nx k x) -> (forall x, In x (l ++ [b]) -> pv k' x = pv k x) ->
  dseg k a l b -> dseg k' a l b.
Proof.
  induction l as [|x l IH]; intros a b H1 H2 H; cbn [dseg] in *.
  - rewrite H1, H2 by (cbn; auto). assumption.
  - destruct H as (A & B & C). rewrite H1 by (left; reflexivity). rewrite H2 by (left; reflexivity).
    split; [assumption|]. split; [assumption|]. apply IH; [|intros; apply H2; right; assumption|assumption].
    intros y Hy. apply H1. right. assumption.
Qed.

Lemma dseg_split k l1 x l2 : forall a b, dseg k a (l1 ++ x :: l2) b <-> dseg k a l1 x /\ dseg k x l2 b.
Proof.
  induction l1 as [|y l1 IH]; intros a b; cbn [app dseg]; [tauto|]. rewrite IH. tauto.
Qed.

Lemma dseg_next k a l b : dseg k a l b -> nx k a = hd b l.
Proof. destruct l; cbn; tauto. Qed.

Lemma dseg_prev k l b : forall a, dseg k a l b -> pv k b = last l a.
Proof.
  induction l as [|x l IH]; intros a H; cbn [dseg] in H; [cbn; tauto|].
  destruct H as (_ & _ & H). rewrite (IH x H). destruct l; [reflexivity|]. cbn. 
  clear. revert z. induction l; intros; cbn; auto.
Qed.

(** The structure invariant: each list is a circle through its head, and no element
    is on two lists. *)
Record tl_ok (heads : list Z) (k : links) (f : Z -> list Z) : Prop := {
  ok_seg : forall h, In h heads -> dseg k h (f h) h;
  ok_nd : forall h, In h heads -> NoDup (h :: f h);
  ok_heads : NoDup heads;
  ok_disj : forall h h' x, In h heads -> In h' heads -> h <> h' -> In x (h :: f h) -> ~ In x (h' :: f h')
}.

(** Insert [x] between neighbours [a] and [b]; remove what is between them. *)
Definition link_in (k : links) (a x b : Z) : links :=
  MkLinks (upd (upd (nx k) x b) a x) (upd (upd (pv k) x a) b x).
Definition unlink (k : links) (a b : Z) : links := MkLinks (upd (nx k) a b) (upd (pv k) b a).


Lemma seg_ins k p l b x : dseg k p l b -> NoDup (p :: l) -> ~ In b l -> ~ In x (p :: l) -> x <> b ->
  dseg (link_in k p x (hd b l)) p (x :: l) b.
Proof.
  intros H Hnd Hb Hx Hxb. assert (Hxp : x <> p) by (intros ->; apply Hx; left; reflexivity).
  inversion Hnd as [|? ? Hp Hnd']; subst. cbn [dseg]. unfold link_in at 1 2. cbn [nx pv].
  split; [apply upd_same|]. split.
  { rewrite upd_other, upd_same; [reflexivity|]. destruct l as [|y l]; cbn [hd]; [assumption|].
    intros ->. apply Hx. right. left. reflexivity. }
  destruct l as [|y l]; cbn [hd dseg] in *; unfold link_in at 1 2; cbn [nx pv].
  - rewrite upd_other, !upd_same by assumption. auto.
  - rewrite upd_other, !upd_same by assumption. split; [reflexivity|]. split; [reflexivity|].
    destruct H as (_ & _ & H). inversion Hnd' as [|? ? Hy _]; subst.
    revert H. apply dseg_frame; intros z Hz; cbn [nx pv link_in].
    + rewrite !upd_other; [reflexivity| |]; intros ->; [apply Hx; right; assumption|apply Hp; assumption].
    + apply in_app_or in Hz. rewrite !upd_other; [reflexivity| |]; intros ->.
      * destruct Hz as [Hz|[Hz|[]]]; [apply Hx; right; right; assumption|congruence].
      * destruct Hz as [Hz|[Hz|[]]]; [apply Hy; assumption|subst; apply Hb; left; reflexivity].
Qed.

Lemma seg_del k p y l b : dseg k p (y :: l) b -> NoDup (p :: y :: l) -> ~ In b (y :: l) ->
  dseg (unlink k p (hd b l)) p l b.
Proof.
  intros (_ & _ & H) Hnd Hb. inversion Hnd as [|? ? Hp Hnd']; subst.
  destruct l as [|z l]; cbn [hd dseg] in *; unfold unlink at 1 2; cbn [nx pv]; rewrite !upd_same.
  - auto.
  - split; [reflexivity|]. split; [reflexivity|]. destruct H as (_ & _ & H).
    inversion Hnd' as [|? ? Hy Hnd2]; subst. inversion Hnd2 as [|? ? Hz _]; subst.
    revert H. apply dseg_frame; intros w Hw; cbn [nx pv unlink]; apply upd_other; intros ->.
    + apply Hp. right. assumption.
    + apply in_app_or in Hw. destruct Hw as [Hw|[Hw|[]]]; [apply Hz; assumption|subst; apply Hb; right; left; reflexivity].
Qed.

Lemma snoc_cases {A} (l : list A) : l = [] \/ exists pre p, l = pre ++ [p].
Proof. destruct l as [|a l]; [auto|]. destruct (@exists_last _ (a :: l) ltac:(discriminate)) as (pre & p & E). eauto. Qed.

Lemma nodup_mid_notin {A} (l1 : list A) x l2 : NoDup (l1 ++ x :: l2) -> ~ In x l1 /\ ~ In x l2 /\ NoDup l2 /\ (forall y, In y l1 -> ~ In y l2).
Proof.
  induction l1 as [|a l1 IH]; cbn; intros H; inversion H as [|? ? Ha Hn]; subst; [tauto|].
  destruct (IH Hn) as (A1 & A2 & A3 & A4). rewrite in_app_iff in Ha. cbn in Ha.
  split; [intros [->|]; tauto|]. split; [assumption|]. split; [assumption|]. intros y [->|Hy]; [tauto|auto].
Qed.

Lemma insert_circle k h l1 l2 x : dseg k h (l1 ++ l2) h -> NoDup (h :: l1 ++ l2) -> ~ In x (h :: l1 ++ l2) ->
  dseg (link_in k (last l1 h) x (hd h l2)) h (l1 ++ x :: l2) h.
Proof.
  intros H Hnd Hx. assert (Hxh : x <> h) by (intros ->; apply Hx; left; reflexivity).
  inversion Hnd as [|? ? Hh Hnd']; subst.
  destruct (snoc_cases l1) as [->|(pre & p & ->)].
  - cbn [app last] in *. apply seg_ins; assumption.
  - rewrite last_last. rewrite <- app_assoc in *. cbn [app] in *. apply dseg_split in H. destruct H as (H1 & H2).
    destruct (nodup_mid_notin _ _ _ Hnd') as (N1 & N2 & N3 & N4).
    assert (Hh2 : ~ In h l2) by (intros Hin; apply Hh; apply in_or_app; right; right; assumption).
    apply dseg_split. split.
    + revert H1. apply dseg_frame; intros w Hw; cbn [nx pv link_in]; rewrite !upd_other; try reflexivity; intros ->.
      * apply Hx. destruct Hw as [->|Hw]; [left; reflexivity|right; apply in_or_app; auto].
      * destruct Hw as [->|Hw]; [apply Hh; apply in_or_app; right; left; reflexivity|contradiction].
      * apply Hx. right. apply in_app_or in Hw. apply in_or_app. destruct Hw as [Hw|[Hw|[]]]; [auto|right; left; assumption].
      * apply in_app_or in Hw. destruct l2 as [|y l2]; cbn [hd] in Hw.
        -- apply Hh. apply in_or_app. destruct Hw as [Hw|[Hw|[]]]; [auto|right; left; assumption].
        -- destruct Hw as [Hw|[Hw|[]]]; [apply (N4 y Hw); left; reflexivity|subst; apply N2; left; reflexivity].
    + apply seg_ins; [assumption|constructor; assumption|assumption| |assumption].
      intros [->|Hin]; apply Hx; right; apply in_or_app; right; [left; reflexivity|right; assumption].
Qed.

Lemma remove_circle k h l1 y l2 : dseg k h (l1 ++ y :: l2) h -> NoDup (h :: l1 ++ y :: l2) ->
  dseg (unlink k (last l1 h) (hd h l2)) h (l1 ++ l2) h.
Proof.
  intros H Hnd. inversion Hnd as [|? ? Hh Hnd']; subst.
  destruct (nodup_mid_notin _ _ _ Hnd') as (N1 & N2 & N3 & N4).
  assert (Hh2 : ~ In h (y :: l2)) by (intros Hin; apply Hh; apply in_or_app; right; assumption).
  destruct (snoc_cases l1) as [->|(pre & p & ->)].
  - cbn [app last] in *. apply seg_del with y; assumption.
  - rewrite last_last. rewrite <- app_assoc in *. cbn [app] in *. apply dseg_split in H. destruct H as (H1 & H2).
    destruct (nodup_mid_notin _ _ _ Hnd') as (M1 & M2 & M3 & M4).
    apply dseg_split. split.
    + revert H1. apply dseg_frame; intros w Hw; cbn [nx pv unlink]; apply upd_other; intros ->.
      * destruct Hw as [->|Hw]; [apply Hh; apply in_or_app; right; left; reflexivity|contradiction].
      * apply in_app_or in Hw. destruct l2 as [|z l2]; cbn [hd] in Hw.
        -- apply Hh. apply in_or_app. destruct Hw as [Hw|[Hw|[]]]; [auto|right; left; assumption].
        -- destruct Hw as [Hw|[Hw|[]]]; [apply (M4 z Hw); right; left; reflexivity|subst; apply M2; right; left; reflexivity].
    + apply seg_del with y; [assumption|constructor; assumption|assumption].
Qed.

Lemma tl_ok_update heads k k' f h l' : tl_ok heads k f -> In h heads ->
  dseg k' h l' h -> NoDup (h :: l') ->
  (forall x, In x l' -> In x (f h) \/ ~ on_some_list heads f x) ->
  (forall y, ~ In y (h :: l') -> ~ In y (h :: f h) -> nx k' y = nx k y /\ pv k' y = pv k y) ->
  tl_ok heads k' (set_list f h l').
Proof.
  intros [Oseg Ond Oh Od] Hh Hs Hn Hnew Hf.
  assert (Hother : forall h' x, In h' heads -> h' <> h -> In x (h' :: f h') -> ~ In x (h :: l')).
  { intros h' x Hh' Hne Hx [->|Hin].
    - apply (Od h' x x Hh' Hh Hne Hx). left. reflexivity.
    - destruct (Hnew x Hin) as [Hin'|Hno].
      + apply (Od h' h x Hh' Hh Hne Hx). right. assumption.
      + apply Hno. exists h'. split; [assumption|]. destruct Hx as [->|Hx]; auto. }
  constructor.
  - intros h' Hh'. unfold set_list. destruct (Z.eqb_spec h' h) as [->|Hne]; [assumption|].
    assert (Hfr : forall x, In x (h' :: f h') -> nx k' x = nx k x /\ pv k' x = pv k x).
    { intros x Hx. apply Hf; [apply (Hother h'); assumption|]. apply (Od h' h); assumption. }
    specialize (Oseg h' Hh'). revert Oseg. apply dseg_frame; intros x Hx; apply Hfr; [assumption|].
    apply in_app_or in Hx. destruct Hx as [Hx|[Hx|[]]]; [right; assumption|left; assumption].
  - intros h' Hh'. unfold set_list. destruct (Z.eqb_spec h' h) as [->|Hne]; [assumption|auto].
  - assumption.
  - intros h1 h2 x H1 H2 Hne Hx1 Hx2. unfold set_list in *.
    destruct (Z.eqb_spec h1 h) as [E1|E1], (Z.eqb_spec h2 h) as [E2|E2].
    + congruence.
    + subst h1. apply (Hother h2 x); auto.
    + subst h2. apply (Hother h1 x); auto.
    + apply (Od h1 h2 x); auto.
Qed.

Lemma not_on heads f x h : In h heads -> ~ on_some_list heads f x -> ~ In x (h :: f h).
Proof. intros Hh Hno [->|Hin]; apply Hno; eexists; eauto. Qed.

(** Insertion after [l1] in the list of [h]. *)
Lemma tl_ok_insert heads k f h l1 l2 x : tl_ok heads k f -> In h heads -> ~ on_some_list heads f x ->
  f h = l1 ++ l2 -> tl_ok heads (link_in k (last l1 h) x (hd h l2)) (set_list f h (l1 ++ x :: l2)).
Proof.
  intros Ok Hh Hx E. pose proof (not_on _ _ _ _ Hh Hx) as Hx'. rewrite E in Hx'.
  pose proof (ok_seg _ _ _ Ok h Hh) as Hs. pose proof (ok_nd _ _ _ Ok h Hh) as Hn. rewrite E in Hs, Hn.
  apply (tl_ok_update heads k); try assumption.
  - apply insert_circle; assumption.
  - inversion Hn as [|? ? Ha Hb]; subst. constructor.
    + intros Hin. apply in_app_or in Hin. destruct Hin as [Hin|[->|Hin]];
        [apply Ha; apply in_or_app; auto|apply Hx'; left; reflexivity|apply Ha; apply in_or_app; auto].
    + apply (Permutation_NoDup (Permutation_middle l1 l2 x)). constructor; [|assumption].
      intros Hin. apply Hx'. right. assumption.
  - intros y Hin. apply in_app_or in Hin. rewrite E. destruct Hin as [Hin|[->|Hin]];
      [left; apply in_or_app; auto|right; assumption|left; apply in_or_app; auto].
  - intros y Hy1 Hy2. rewrite E in Hy2. cbn [nx pv link_in].
    assert (y <> x) by (intros ->; apply Hy1; right; apply in_or_app; right; left; reflexivity).
    assert (y <> last l1 h).
    { intros ->. apply Hy2. destruct (snoc_cases l1) as [->|(pre & p & ->)]; [left; reflexivity|].
      rewrite last_last. right. rewrite <- app_assoc. apply in_or_app. right. left. reflexivity. }
    assert (y <> hd h l2).
    { intros ->. apply Hy2. destruct l2 as [|z l2]; [left; reflexivity|]. right. apply in_or_app. right. left. reflexivity. }
    rewrite !upd_other by assumption. auto.
Qed.

Lemma tl_ok_remove heads k f h l1 y l2 : tl_ok heads k f -> In h heads -> f h = l1 ++ y :: l2 ->
  tl_ok heads (unlink k (last l1 h) (hd h l2)) (set_list f h (l1 ++ l2)).
Proof.
  intros Ok Hh E.
  pose proof (ok_seg _ _ _ Ok h Hh) as Hs. pose proof (ok_nd _ _ _ Ok h Hh) as Hn. rewrite E in Hs, Hn.
  apply (tl_ok_update heads k); try assumption.
  - apply remove_circle with y; assumption.
  - inversion Hn as [|? ? Ha Hb]; subst. constructor.
    + intros Hin. apply Ha. apply in_app_or in Hin. apply in_or_app. cbn. tauto.
    + apply NoDup_remove_1 in Hb. assumption.
  - intros z Hin. left. rewrite E. apply in_app_or in Hin. apply in_or_app. cbn. tauto.
  - intros z Hz1 Hz2. rewrite E in Hz2. cbn [nx pv unlink].
    rewrite !upd_other; [auto| |]; intros ->; apply Hz2.
    + destruct l2 as [|w l2]; [left; reflexivity|]. right. apply in_or_app. right. right. left. reflexivity.
    + destruct (snoc_cases l1) as [->|(pre & p & ->)]; [left; reflexivity|].
      rewrite last_last. right. rewrite <- app_assoc. apply in_or_app. right. left. reflexivity.
Qed.

Lemma around k h l1 y l2 : dseg k h (l1 ++ y :: l2) h -> pv k y = last l1 h /\ nx k y = hd h l2.
Proof. intros H. apply dseg_split in H. destruct H as (H1 & H2). split; [apply (dseg_prev _ _ _ _ H1)|apply (dseg_next _ _ _ _ H2)]. Qed.

Lemma tl_hist_ok heads k f : tl_hist heads k f -> tl_ok heads k f.
Proof.
  intros H. induction H as [k|heads k f h H IH Hno|heads k f h x H IH Hh Hx|heads k f h x H IH Hh Hx|
    heads k f h l1 y l2 x H IH Hh Hx E|heads k f h l1 y l2 x H IH Hh Hx E|heads k f h l1 y l2 k' r H IH Hh E Er].
  - constructor; [intros h []|intros h []|constructor|intros h h' x []].
  - destruct IH as [Oseg Ond Oh Od].
    assert (Hne : forall h', In h' heads -> h' <> h) by (intros h' Hh' ->; apply Hno; exists h; auto).
    assert (Hnin : forall h', In h' heads -> ~ In h (h' :: f h')) by (intros; apply not_on with heads; assumption).
    constructor.
    + intros h' [<-|Hh'].
      * unfold set_list. rewrite Z.eqb_refl. cbn [dseg tl_init nx pv]. rewrite !upd_same. auto.
      * unfold set_list. destruct (Z.eqb_spec h' h) as [->|_]; [exfalso; apply (Hne h Hh'); reflexivity|].
        specialize (Oseg h' Hh'). revert Oseg. apply dseg_frame; intros x Hx; cbn [nx pv tl_init]; apply upd_other; intros ->;
          apply (Hnin h' Hh'); [assumption|]. apply in_app_or in Hx. destruct Hx as [Hx|[Hx|[]]]; [right; assumption|left; assumption].
    + intros h' [<-|Hh']; unfold set_list; [rewrite Z.eqb_refl; constructor; [intros []|constructor]|].
      destruct (Z.eqb_spec h' h) as [->|_]; [exfalso; apply (Hne h Hh'); reflexivity|auto].
    + constructor; [|assumption]. intros Hin. apply (Hne h Hin). reflexivity.
    + intros h1 h2 x H1 H2 Hn Hx1 Hx2. unfold set_list in *.
      destruct (Z.eqb_spec h1 h) as [E1|E1], (Z.eqb_spec h2 h) as [E2|E2]; [congruence| | |].
      * destruct Hx1 as [<-|[]]. destruct H2 as [<-|H2]; [congruence|]. subst h1. apply (Hnin h2 H2 Hx2).
      * destruct Hx2 as [<-|[]]. destruct H1 as [<-|H1]; [congruence|]. subst h2. apply (Hnin h1 H1 Hx1).
      * destruct H1 as [<-|H1]; [congruence|]. destruct H2 as [<-|H2]; [congruence|]. apply (Od h1 h2 x); assumption.
  - unfold tl_prepend, tl_elem_append. rewrite (dseg_next _ _ _ _ (ok_seg _ _ _ IH h Hh)).
    apply (tl_ok_insert heads k f h [] (f h) x); auto.
  - unfold tl_append, tl_elem_prepend. rewrite (dseg_prev _ _ _ _ (ok_seg _ _ _ IH h Hh)).
    apply (tl_ok_insert heads k f h (f h) [] x); auto. symmetry. apply app_nil_r.
  - pose proof (ok_seg _ _ _ IH h Hh) as Hs. rewrite E in Hs. destruct (around _ _ _ _ _ Hs) as (E1 & E2).
    unfold tl_prepend_other, tl_elem_prepend. rewrite E1. apply (tl_ok_insert heads k f h l1 (y :: l2) x); auto.
  - pose proof (ok_seg _ _ _ IH h Hh) as Hs. rewrite E in Hs. destruct (around _ _ _ _ _ Hs) as (E1 & E2).
    unfold tl_append_other, tl_elem_append. rewrite E2.
    replace (l1 ++ y :: x :: l2) with ((l1 ++ [y]) ++ x :: l2) by (rewrite <- app_assoc; reflexivity).
    rewrite <- (last_last l1 y h) at 1 2.
    pose proof (tl_ok_insert heads k f h (l1 ++ [y]) l2 x IH Hh Hx) as T. rewrite last_last in T. rewrite !last_last.
    apply T. rewrite E, <- app_assoc. reflexivity.
  - pose proof (ok_seg _ _ _ IH h Hh) as Hs. rewrite E in Hs. destruct (around _ _ _ _ _ Hs) as (E1 & E2).
    unfold tl_remove, tl_elem_remove in Er. injection Er as <- <-. rewrite E1, E2. apply tl_ok_remove with y; assumption.
Qed.

Lemma tl_length_spec k h l : forall e fuel, ~ In h l -> (length l <= fuel)%nat ->
  (e = hd h l) -> (match l with [] => True | x :: l => dseg k x l h end) ->
  tl_length_loop fuel k h e = Some (Z.of_nat (length l)).
Proof.
  induction l as [|x l IH]; intros e fuel Hn Hf He Hs; cbn [hd] in He; subst e.
  - destruct fuel; cbn [tl_length_loop]; rewrite Z.eqb_refl; reflexivity.
  - destruct fuel as [|fuel]; [cbn in Hf; lia|]. cbn [tl_length_loop].
    destruct (Z.eqb_spec x h) as [->|_]; [exfalso; apply Hn; left; reflexivity|].
    rewrite (IH (nx k x) fuel).
    + cbn [obind length]. f_equal. lia.
    + intros Hin; apply Hn; right; assumption.
    + cbn in Hf. lia.
    + apply (dseg_next _ _ _ _ Hs).
    + destruct l; [exact I|]. cbn in Hs. tauto.
Qed.

(** C40: every list holds exactly the sequence of its operations: emptiness, first,
    last and length are exact, walking next_ from the head visits the sequence in
    order and prev_ is its inverse, no element is on two lists, and removal reports
    correctly whether the list became empty. *)
Theorem tlist_exact : forall heads k f, tl_hist heads k f ->
  (forall h, In h heads ->
     (tl_empty k h = true <-> f h = []) /\
     tl_first k h = hd h (f h) /\ tl_last k h = last (f h) h /\
     (forall fuel, (length (f h) <= fuel)%nat -> tl_length fuel k h = Some (Z.of_nat (length (f h)))) /\
     (forall l1 a b l2, h :: f h ++ [h] = l1 ++ a :: b :: l2 -> nx k a = b /\ pv k b = a) /\
     (forall l1 y l2, f h = l1 ++ y :: l2 -> (snd (tl_remove k y) = true <-> l1 ++ l2 = []))) /\
  (forall h h' x, In h heads -> In h' heads -> In x (f h) -> In x (f h') -> h = h').
Proof.
  intros heads k f H. apply tl_hist_ok in H. split.
  - intros h Hh. pose proof (ok_seg _ _ _ H h Hh) as Hs. pose proof (ok_nd _ _ _ H h Hh) as Hn.
    inversion Hn as [|? ? Hhn Hnd]; subst. split; [|split; [|split; [|split; [|split]]]].
    + unfold tl_empty. rewrite (dseg_next _ _ _ _ Hs). destruct (f h) as [|x l]; cbn [hd].
      * rewrite Z.eqb_refl. split; reflexivity.
      * destruct (Z.eqb_spec x h) as [->|_]; [exfalso; apply Hhn; left; reflexivity|]. split; discriminate.
    + apply (dseg_next _ _ _ _ Hs).
    + apply (dseg_prev _ _ _ _ Hs).
    + intros fuel Hf. unfold tl_length. apply tl_length_spec; [assumption|assumption|apply (dseg_next _ _ _ _ Hs)|].
      destruct (f h); [exact I|]. cbn in Hs. tauto.
    + intros l1 a b l2 E. assert (Hgen : forall l s e l1, dseg k s l e -> s :: l ++ [e] = l1 ++ a :: b :: l2 -> nx k a = b /\ pv k b = a).
      { clear. induction l as [|x l IH]; intros s e l1 Hs E; cbn [dseg app] in *.
        - destruct l1 as [|? [|? [|]]]; cbn in E; try discriminate. injection E as <- <- <-. assumption.
        - destruct Hs as (A & B & C). destruct l1 as [|z l1]; cbn in E.
          + injection E as <- <- _. auto.
          + injection E as _ E. apply (IH x e l1); assumption. }
      apply (Hgen (f h) h h l1); assumption.
    + intros l1 y l2 E. rewrite E in Hs, Hnd, Hhn. destruct (around _ _ _ _ _ Hs) as (E1 & E2).
      unfold tl_remove, tl_elem_remove. cbn [snd]. rewrite E1, E2. rewrite Z.eqb_eq.
      destruct (nodup_mid_notin _ _ _ Hnd) as (N1 & N2 & N3 & N4). split.
      * intros Heq. destruct (snoc_cases l1) as [->|(pre & p & ->)]; destruct l2 as [|z l2]; cbn [hd last] in Heq.
        -- reflexivity.
        -- subst z. exfalso. apply Hhn. right. left. reflexivity.
        -- rewrite last_last in Heq. subst p. exfalso. apply Hhn. rewrite <- app_assoc. apply in_or_app. right. left. reflexivity.
        -- rewrite last_last in Heq. subst p. exfalso. apply (N4 z); [apply in_or_app; right; left; reflexivity|left; reflexivity].
      * intros Hnil. apply app_eq_nil in Hnil. destruct Hnil as (-> & ->). reflexivity.
  - intros h h' x Hh Hh' Hx Hx'. destruct (Z.eq_dec h h') as [|Hne]; [assumption|].
    exfalso. apply (ok_disj _ _ _ H h h' x Hh Hh' Hne); right; assumption.
Qed.
Print Assumptions tlist_exact.

Example tlist_history : exists k f, tl_hist [2; 1] k f /\ f 1 = [11; 12] /\ f 2 = [10].
Proof.
  assert (H0 : tl_hist [2; 1] (tl_init (tl_init (MkLinks (fun _ => 5) (fun _ => 6)) 1) 2) (set_list (set_list (fun _ => []) 1 []) 2 [])).
  { apply tl_h_init; [apply tl_h_init; [apply tl_start|]|].
    - intros (h & [] & _).
    - intros (h & [<-|[]] & [|[]]). lia. }
  assert (Hoff : forall x, x <> 1 -> x <> 2 -> ~ on_some_list [2; 1] (set_list (set_list (fun _ => []) 1 []) 2 []) x).
  { intros x H1 H2 (h & [<-|[<-|[]]] & [?|Hin]); try lia; destruct Hin. }
  apply (tl_h_append _ _ _ 1 12) in H0; [|cbn; auto|apply Hoff; lia].
  eapply (tl_h_prepend_other _ _ _ 1 [] 12 [] 10) in H0; [|cbn; auto| |reflexivity].
  2: { intros (h & [<-|[<-|[]]] & [?|Hin]); cbn in *; intuition lia. }
  eapply (tl_h_append_other _ _ _ 1 [] 10 [12] 11) in H0; [|cbn; auto| |reflexivity].
  2: { intros (h & [<-|[<-|[]]] & [?|Hin]); cbn in *; intuition lia. }
  eapply (tl_h_remove _ _ _ 1 [] 10 [11; 12]) in H0; [|cbn; auto|reflexivity|reflexivity].
  eapply (tl_h_prepend _ _ _ 2 10) in H0; [|cbn; auto|].
  2: { intros (h & [<-|[<-|[]]] & [?|Hin]); cbn in *; intuition lia. }
  eexists. eexists. split; [exact H0|]. split; reflexivity.
Qed.
