(** Which hugepages the filler releases from, and that it releases all it is asked for if it can. *)
From Coq Require Import Permutation.
From Verif Require SpanProofs2.
From Verif Require Import Base Bitmap BitmapProofs RangeTrackerProofs RangeTrackerProofs2 RangeTrackerProps HintedLists HintedListsProofs PageTracker PageTrackerProps Filler FillerProofs FillerProofs2 FillerProofs3 FillerProofs4.

(** ** Visiting the lists *)

Definition from_list (N : Z) (t : hlists) (i : Z) : list Z := concat (map (hl t) (zseq i (Z.to_nat (N - i)))).

Lemma from_list_split N t i j : 0 <= i <= j -> j <= N -> from_list N t i = concat (map (hl t) (zseq i (Z.to_nat (j - i)))) ++ from_list N t j.
Proof.
  intros H1 H2. unfold from_list. replace (Z.to_nat (N - i)) with (Z.to_nat (j - i) + Z.to_nat (N - j))%nat by lia.
  rewrite zseq_app, map_app, concat_app. f_equal. replace (i + Z.of_nat (Z.to_nat (j - i))) with j by lia. reflexivity.
Qed.
Lemma from_list_skip N t i j : 0 <= i <= j -> j <= N -> (forall k, i <= k < j -> hl t k = []) -> from_list N t i = from_list N t j.
Proof.
  intros H1 H2 He. rewrite (from_list_split N t i j H1 H2).
  assert (E : concat (map (hl t) (zseq i (Z.to_nat (j - i)))) = []); [|rewrite E; reflexivity].
  apply concat_nil_Forall. apply Forall_forall. intros l Hl. apply in_map_iff in Hl. destruct Hl as (k & <- & Hk). apply zseq_In in Hk. apply He. lia.
Qed.

Lemma find_set_lists N t i : hl_ok N t -> 0 <= i < N -> exists j, find_set N (hbits t) i = Some j /\ i <= j <= N /\ (forall k, i <= k < j -> hl t k = []).
Proof.
  intros [HN Hwf Hb Hs] Hi. unfold find_set. destruct (find_value_spec N true (hbits t) i Hwf Hi) as (r & -> & F1 & F2 & F3).
  exists r. split; [reflexivity|]. split; [lia|]. intros k Hk. specialize (F2 k Hk). unfold gbit in F2. destruct (hl t k) eqn:E; [reflexivity|].
  assert (bit (hbits t) k = true) by (apply Hb; [lia|rewrite E; discriminate]). destruct (bit (hbits t) k); discriminate.
Qed.

Lemma hl_iter_loop_spec N t : hl_ok N t -> forall fuel i, 0 <= i <= N -> N - i <= Z.of_nat fuel -> hl_iter_loop fuel N t i = Some (from_list N t i).
Proof.
  intros Ok. induction fuel as [|fuel IH]; intros i Hi Hf; cbn [hl_iter_loop].
  - replace i with N by lia. unfold from_list. rewrite Z.sub_diag. reflexivity.
  - destruct (Z.ltb_spec i N) as [Hlt|Hge].
    2:{ replace i with N by lia. unfold from_list. rewrite Z.sub_diag. reflexivity. }
    assert (E1 : from_list N t i = hl t i ++ from_list N t (i + 1)).
    { rewrite (from_list_split N t i (i + 1)) by lia. replace (Z.to_nat (i + 1 - i)) with 1%nat by lia. cbn [zseq map concat]. rewrite app_nil_r. reflexivity. }
    destruct (Z.ltb_spec (i + 1) N) as [Hl1|Hg1].
    + destruct (find_set_lists N t (i + 1) Ok ltac:(lia)) as (j & -> & Hj & He). cbn [obind]. rewrite IH by lia. cbn [obind].
      rewrite E1. f_equal. f_equal. symmetry. apply from_list_skip; [lia|lia|assumption].
    + cbn [obind]. rewrite E1. replace (i + 1) with N by lia. unfold from_list at 1. rewrite Z.sub_diag. reflexivity.
Qed.
Lemma hl_iter_spec N t start : hl_ok N t -> 0 <= start < N -> hl_iter N t start = Some (from_list N t start).
Proof.
  intros Ok Hs. unfold hl_iter. destruct (find_set_lists N t start Ok Hs) as (j & -> & Hj & He). cbn [obind].
  rewrite (hl_iter_loop_spec N t Ok) by lia. f_equal. symmetry. apply from_list_skip; [lia|lia|assumption].
Qed.
Lemma from_list_In N t i x : 0 <= i -> (In x (from_list N t i) <-> exists k, i <= k < N /\ In x (hl t k)).
Proof.
  intros Hi. unfold from_list. rewrite in_concat. split.
  - intros (l & Hl & Hx). apply in_map_iff in Hl. destruct Hl as (k & <- & Hk). apply zseq_In in Hk. exists k. split; [lia|assumption].
  - intros (k & Hk & Hx). exists (hl t k). split; [apply in_map; apply zseq_In; lia|assumption].
Qed.
Lemma from_list_NoDup N t i : NoDup (hl_total N t) -> 0 <= i <= N -> NoDup (from_list N t i).
Proof.
  intros H Hi. assert (E : hl_total N t = from_list N t 0) by (unfold from_list, hl_total; rewrite Z.sub_0_r; reflexivity).
  rewrite E, (from_list_split N t 0 i) in H by lia. exact (NoDup_app_r _ _ H).
Qed.

(** A tracker with a page to release. *)
Definition releasable (N : Z) (t : ptracker) : Prop := pt_rcount t < pt_free_pages N t.

Lemma iter_from_ok N sub f own k start : flists_ok N sub f own -> 0 <= start < nlists N k ->
  exists l, iter_from N f k start = Some l /\ NoDup l /\
    forall x, In x l <-> In x own /\ kind N sub (fl_tr f x) = k /\ start <= pidx N (fl_tr f x).
Proof.
  intros [Ok Nd In_ Own Rg Rl Pt] Hs. unfold iter_from. rewrite (hl_iter_spec _ _ _ (Ok k) Hs). eexists. split; [reflexivity|].
  split; [apply from_list_NoDup; [apply Nd|lia]|]. intros x. rewrite from_list_In by lia. split.
  - intros (i & Hi & Hx). apply In_ in Hx; [|lia]. destruct Hx as (H1 & H2 & H3). repeat split; auto. lia.
  - intros (H1 & H2 & H3). exists (pidx N (fl_tr f x)). pose proof (Rg x H1) as R. rewrite H2 in R. split; [lia|]. apply In_; auto.
Qed.

Lemma kind_is N sub t live : 0 < N -> tk_ok N t live ->
  match kind N sub t with
  | LDon => pt_donated t = true /\ releasable N t
  | LReg d => pt_donated t = false /\ pt_dense t = d /\ pt_rcount t = 0
  | LPart d => pt_donated t = false /\ pt_dense t = d /\ releasable N t
  | LRel d => pt_donated t = false /\ pt_dense t = d /\ ~ releasable N t
  end.
Proof.
  intros HN K. destruct (tk_bounds N t live HN K) as (_ & _ & _ & B). unfold kind, releasable. destruct (pt_donated t) eqn:Ed.
  { split; [reflexivity|]. rewrite (tk_donated _ _ _ K Ed). pose proof (tk_room _ _ _ K Ed). unfold pt_free_pages. lia. }
  destruct (pt_released t) eqn:Er; cbn [negb andb].
  - destruct (Z.leb_spec (pt_free_pages N t) (pt_rcount t)); repeat split; auto; lia.
  - unfold pt_released in Er. destruct (pt_unbroken t || negb sub); [repeat split; auto; lia|].
    destruct (Z.leb_spec (pt_free_pages N t) (pt_rcount t)); repeat split; auto; lia.
Qed.

Lemma index_has_free N t live : 0 < N -> tk_ok N t live -> pt_donated t = false -> (8 <= pidx N t <-> pt_used t < N).
Proof.
  intros HN K Hd. destruct (tk_bounds N t live HN K) as (B1 & B2 & B3 & _). pose proof (index_for_bounds t ltac:(lia)) as Bi.
  pose proof (free_page_longest N t live HN (tk_reach _ _ _ K)) as F. pose proof (full_longest N t live HN (tk_reach _ _ _ K)) as G.
  unfold pidx. rewrite Hd. unfold list_for, k_chunks. destruct (pt_dense t) eqn:E; [|lia].
  pose proof (dense_used N t live HN K E). rewrite index_for_spec, E by lia. lia.
Qed.

Lemma visited_partial_ok N sub f own lv : 1 < N -> fl_ok N sub f own lv ->
  exists l, visited_partial N f = Some l /\ NoDup l /\
    forall x, In x l <-> In x own /\ exists d, kind N sub (fl_tr f x) = LPart d.
Proof.
  intros HN Ok. pose proof (fo_lists _ _ _ _ _ Ok) as HL. pose proof (fo_tk _ _ _ _ _ Ok) as TK. unfold visited_partial.
  destruct (iter_from_ok N sub f own (LPart false) k_chunks HL) as (a & -> & Na & Ha); [cbn [nlists]; unfold k_chunks; lia|]. cbn [obind].
  destruct (iter_from_ok N sub f own (LPart true) k_chunks HL) as (b & -> & Nb & Hb); [cbn [nlists]; unfold k_chunks; lia|]. cbn [obind].
  eexists. split; [reflexivity|].
  assert (Hpi : forall x d, In x own -> kind N sub (fl_tr f x) = LPart d -> k_chunks <= pidx N (fl_tr f x)).
  { intros x d Hx Kx. pose proof (kind_is N sub _ _ ltac:(lia) (TK x Hx)) as KI. rewrite Kx in KI. destruct KI as (K1 & K2 & K3).
    apply (index_has_free N _ _ ltac:(lia) (TK x Hx) K1). unfold releasable, pt_free_pages in K3. destruct (tk_bounds N _ _ ltac:(lia) (TK x Hx)) as (_ & _ & _ & B). lia. }
  split.
  - apply SpanProofs2.NoDup_app_intro; [assumption|assumption|]. intros x Hxa Hxb. apply Ha in Hxa. apply Hb in Hxb. destruct Hxa as (_ & E1 & _). destruct Hxb as (_ & E2 & _). congruence.
  - intros x. rewrite in_app_iff, Ha, Hb. split.
    + intros [(H1 & H2 & _)|(H1 & H2 & _)]; eauto.
    + intros (H1 & d & H2). pose proof (Hpi x d H1 H2). destruct d; auto.
Qed.

Lemma visited_regular_ok N sub f own lv : 1 < N -> fl_ok N sub f own lv ->
  exists l, visited_regular N f = Some l /\ NoDup l /\
    forall x, In x l <-> In x own /\ ((exists d, kind N sub (fl_tr f x) = LReg d) \/ kind N sub (fl_tr f x) = LDon) /\ releasable N (fl_tr f x).
Proof.
  intros HN Ok. pose proof (fo_lists _ _ _ _ _ Ok) as HL. pose proof (fo_tk _ _ _ _ _ Ok) as TK. unfold visited_regular.
  destruct (iter_from_ok N sub f own (LReg false) k_chunks HL) as (a & -> & Na & Ha); [cbn [nlists]; unfold k_chunks; lia|]. cbn [obind].
  destruct (iter_from_ok N sub f own (LReg true) k_chunks HL) as (b & -> & Nb & Hb); [cbn [nlists]; unfold k_chunks; lia|]. cbn [obind].
  destruct (iter_from_ok N sub f own LDon 0 HL) as (c & -> & Nc & Hc); [cbn [nlists]; lia|]. cbn [obind].
  eexists. split; [reflexivity|].
  assert (Hpi : forall x d, In x own -> kind N sub (fl_tr f x) = LReg d -> k_chunks <= pidx N (fl_tr f x) <-> releasable N (fl_tr f x)).
  { intros x d Hx Kx. pose proof (kind_is N sub _ _ ltac:(lia) (TK x Hx)) as KI. rewrite Kx in KI. destruct KI as (K1 & K2 & K3).
    unfold k_chunks. rewrite (index_has_free N _ _ ltac:(lia) (TK x Hx) K1). unfold releasable, pt_free_pages. lia. }
  split.
  - apply SpanProofs2.NoDup_app_intro; [assumption|apply SpanProofs2.NoDup_app_intro; [assumption|assumption|]|].
    + intros x Hxa Hxb. apply Hb in Hxa. apply Hc in Hxb. destruct Hxa as (_ & E1 & _). destruct Hxb as (_ & E2 & _). congruence.
    + intros x Hxa Hxb. apply in_app_iff in Hxb. apply Ha in Hxa. destruct Hxa as (_ & E1 & _). destruct Hxb as [Hxb|Hxb]; [apply Hb in Hxb|apply Hc in Hxb]; destruct Hxb as (_ & E2 & _); congruence.
  - intros x. rewrite !in_app_iff, Ha, Hb, Hc. split.
    + intros [(H1 & H2 & H3)|[(H1 & H2 & H3)|(H1 & H2 & H3)]].
      * pose proof (proj1 (Hpi x _ H1 H2) H3). eauto.
      * pose proof (proj1 (Hpi x _ H1 H2) H3). eauto.
      * pose proof (kind_is N sub _ _ ltac:(lia) (TK x H1)) as KI. rewrite H2 in KI. destruct KI as (_ & KI). auto.
    + intros (H1 & [(d & H2)|H2] & H3).
      * pose proof (proj2 (Hpi x _ H1 H2) H3). destruct d; auto.
      * right. right. repeat split; auto. destruct HL as [? ? ? ? Rg ? ?]. pose proof (Rg x H1). lia.
Qed.

(** ** Choosing the candidates *)

Definition key (t : ptracker) : Z := 2 * pt_used t + (if pt_dense t then 1 else 0).
Lemma compare_key a b : compare_for_subrelease a b = (key a <? key b).
Proof.
  unfold compare_for_subrelease, key. destruct (Z.ltb_spec (pt_used a) (pt_used b)), (Z.ltb_spec (pt_used b) (pt_used a)), (pt_dense a), (pt_dense b); symmetry; try (apply Z.ltb_lt; lia); apply Z.ltb_ge; lia.
Qed.

Record sel_inv (K : Z) (tr : Z -> ptracker) (c d : list Z) : Prop := {
  si_len : Z.of_nat (length c) <= K;
  si_full : d <> [] -> K <= Z.of_nat (length c);
  si_best : forall a b, In a c -> In b d -> key (tr a) <= key (tr b) }.

Lemma push_ok K tr c x c' d : push_candidate K tr c x c' -> sel_inv K tr c d ->
  exists d', Permutation (c ++ d ++ [x]) (c' ++ d') /\ sel_inv K tr c' d'.
Proof.
  intros H [L F B]. inversion H as [c0 x0 Hlen|c1 w c2 x0 Hlen Hw Hx|c1 w c2 x0 Hlen Hw Hx]; subst.
  - exists d. split; [rewrite <- app_assoc; apply Permutation_app_head; apply Permutation_app_comm|].
    constructor; [rewrite app_length; cbn [length]; lia|intros Hd; specialize (F Hd); lia|]. intros a b Ha Hb. apply in_app_iff in Ha. destruct Ha as [Ha|[<-|[]]]; [auto|].
    destruct d; [destruct Hb|]. specialize (F ltac:(discriminate)). lia.
  - exists (d ++ [x]). split; [reflexivity|]. constructor; [assumption|intros _; assumption|]. intros a b Ha Hb. apply in_app_iff in Hb. destruct Hb as [Hb|[<-|[]]]; [auto|].
    specialize (Hw a Ha). rewrite compare_key in Hw, Hx. apply Z.ltb_ge in Hw. apply Z.ltb_lt in Hx. lia.
  - exists (d ++ [w]). rewrite app_length in L, F, Hlen. cbn [length] in L, F, Hlen. rewrite compare_key in Hx. apply Z.ltb_ge in Hx. split.
    + rewrite <- !app_assoc. apply Permutation_app_head. cbn [app].
      transitivity (w :: x :: c2 ++ d).
      * apply perm_skip. rewrite (Permutation_app_comm d). apply Permutation_sym. apply Permutation_cons_app. reflexivity.
      * rewrite perm_swap. apply perm_skip. rewrite app_assoc. apply Permutation_cons_append.
    + constructor; [rewrite app_length; cbn [length]; lia|intros _; rewrite app_length; cbn [length]; lia|].
      assert (HK : forall a, In a (c1 ++ x :: c2) -> key (tr a) <= key (tr w)).
      { intros a Ha. apply in_app_iff in Ha. cbn [In] in Ha. destruct Ha as [Ha|[<-|Ha]]; [|assumption|];
          (assert (Hin : In a (c1 ++ w :: c2)) by (apply in_app_iff; cbn [In]; auto); specialize (Hw a Hin); rewrite compare_key in Hw; apply Z.ltb_ge in Hw; exact Hw). }
      intros a b Ha Hb. specialize (HK a Ha). apply in_app_iff in Hb. destruct Hb as [Hb|[<-|[]]]; [|assumption].
      specialize (B w b ltac:(apply in_app_iff; cbn [In]; auto) Hb). lia.
Qed.

Lemma select_ok K f c l c' : select_candidates K f c l c' -> forall d, sel_inv K (fl_tr f) c d ->
  exists d', Permutation (c ++ d ++ filter (fun x => negb (fl_collapsing f x)) l) (c' ++ d') /\ sel_inv K (fl_tr f) c' d'.
Proof.
  induction 1 as [c|c x l c' Hc Hs IH|c x l c1 c' Hc Hp Hs IH]; intros d Hd; cbn [filter].
  - exists d. rewrite app_nil_r. split; [reflexivity|assumption].
  - rewrite Hc. cbn [negb]. apply IH. assumption.
  - rewrite Hc. cbn [negb]. destruct (push_ok K (fl_tr f) c x c1 d Hp Hd) as (d1 & P1 & I1). destruct (IH d1 I1) as (d' & P & I).
    exists d'. split; [|assumption]. rewrite <- P, app_assoc. rewrite app_assoc, <- P1. rewrite <- !app_assoc. reflexivity.
Qed.

Lemma select_all K f l c : 0 <= K -> NoDup l -> select_candidates K f [] l c ->
  exists d, NoDup c /\ (forall x, In x c \/ In x d <-> In x l /\ fl_collapsing f x = false) /\ (forall x, In x c -> ~ In x d) /\
    (d <> [] -> K <= Z.of_nat (length c)) /\ (forall a b, In a c -> In b d -> key (fl_tr f a) <= key (fl_tr f b)).
Proof.
  intros HK Nl H. destruct (select_ok K f [] l c H []) as (d & P & [I1 I2 I3]).
  { constructor; [cbn [length]; lia|congruence|intros a b []]. }
  cbn [app] in P. exists d. assert (Nd : NoDup (c ++ d)) by (rewrite <- P; apply NoDup_filter; assumption).
  split; [exact (NoDup_app_l _ _ Nd)|]. split; [|split; [|split; assumption]].
  - intros x. rewrite <- in_app_iff. split.
    + intros Hx. apply (Permutation_in _ (Permutation_sym P)) in Hx. apply filter_In in Hx. rewrite Bool.negb_true_iff in Hx. exact Hx.
    + intros Hx. apply (Permutation_in _ P). apply filter_In. rewrite Bool.negb_true_iff. exact Hx.
  - clear - Nd. induction c as [|y c IH]; [intros x []|]. cbn [app] in Nd. inversion Nd as [|? ? N1 N2]; subst. intros x [<-|Hx] Hd; [apply N1; apply in_app_iff; auto|exact (IH N2 x Hx Hd)].
Qed.

(** ** Releasing from the candidates *)

Lemma release_candidates_pre N sub own lv os : 0 < N -> forall c f target f' r, fl_ok N sub f own lv -> (forall x, In x c -> In x own) ->
  release_candidates N sub f c target os = Some (f', r) ->
  exists p q, c = p ++ q /\ (forall y, ~ In y p -> fl_tr f' y = fl_tr f y) /\ (q <> [] -> target <= r) /\
    (forall y, In y p -> pt_donated (fl_tr f' y) = false) /\
    (forall y, In y p -> (forall i n, os y i n = true) -> ~ releasable N (fl_tr f' y)) /\
    (forall y, In y p -> (forall i n, os y i n = true) -> releasable N (fl_tr f y) -> 0 < r).
Proof.
  intros HN. induction c as [|x c IH]; intros f target f' r Ok Hc E; cbn [release_candidates] in E.
  { injection E as <- <-. exists [], []. split; [reflexivity|]. repeat match goal with |- _ /\ _ => split end; try reflexivity; try congruence; intros y []. }
  destruct (Z.ltb_spec 0 target) as [Ht|Ht].
  2:{ injection E as <- <-. exists [], (x :: c). split; [reflexivity|]. repeat match goal with |- _ /\ _ => split end; try reflexivity; try (intros; lia); intros y []. }
  destruct (release_tracker_ok N sub f own lv x (os x) HN Ok (Hc x (or_introl eq_refl))) as (f1 & r1 & t & E1 & Ok1 & S1 & (calls & Ep) & Et & Hr & Er1 & Eu & Ea).
  rewrite E1 in E. cbn [obind] in E.
  set (f2 := if pt_was_released (fl_tr f1 x) && pt_released (fl_tr f1 x) then clear_was_released f1 x (fl_tr f1 x) else f1) in E.
  assert (Ok2 : fl_ok N sub f2 own lv).
  { unfold f2. destruct (pt_was_released (fl_tr f1 x)) eqn:Ew; [|assumption]. destruct (pt_released (fl_tr f1 x)); [|assumption].
    apply clear_was_ok; [assumption|apply Hc; left; reflexivity|assumption]. }
  assert (T2 : (forall y, y <> x -> fl_tr f2 y = fl_tr f y) /\ pt_donated (fl_tr f2 x) = false /\ pt_free (fl_tr f2 x) = pt_free t /\ pt_rcount (fl_tr f2 x) = pt_rcount t).
  { assert (Q : fl_tr f1 x = pt_set_donated t false) by (rewrite Et; apply upd_same). split.
    - intros y Hy. transitivity (fl_tr f1 y); [|rewrite Et; apply upd_other; assumption]. unfold f2. destruct (_ && _); [|reflexivity]. cbn. apply upd_other. assumption.
    - unfold f2. destruct (_ && _); [cbn; rewrite upd_same|]; rewrite Q; auto. }
  destruct T2 as (T2 & D2 & F2 & R2).
  destruct (release_candidates N sub f2 c (target - r1) os) as [[f3 r3]|] eqn:E3; [|discriminate]. cbn [obind] in E. injection E as <- <-.
  destruct (release_candidates_ok N sub own lv os HN c f2 (target - r1) Ok2 (fun y Hy => Hc y (or_intror Hy))) as (f3' & r3' & E3' & Ok3 & S3 & Hr3 & _).
  rewrite E3 in E3'. injection E3' as <- <-.
  destruct (IH f2 (target - r1) f3 r3 Ok2 (fun y Hy => Hc y (or_intror Hy)) E3) as (p & q & -> & G1 & G2 & G3 & G4 & G5).
  assert (Hfin : (forall i n, os x i n = true) -> pt_rcount t = pt_free_pages N t /\ r1 = pt_free_pages N (fl_tr f x) - pt_rcount (fl_tr f x)).
  { intros Ho. destruct (release_free_all N (fl_tr f x) (lv x) (os x) t r1 calls HN (tk_reach _ _ _ (fo_tk _ _ _ _ _ Ok x (Hc x (or_introl eq_refl)))) Ho Ep) as (_ & A & B). auto. }
  exists (x :: p), q. split; [reflexivity|]. repeat match goal with |- _ /\ _ => split end.
  - intros y Hy. cbn [In] in Hy. rewrite G1 by tauto. apply T2. intros ->. tauto.
  - intros Hq. specialize (G2 Hq). lia.
  - intros y Hy. destruct (in_dec Z.eq_dec y p) as [Hp|Hp]; [auto|]. destruct Hy as [<-|Hy]; [|contradiction]. rewrite G1 by assumption. assumption.
  - intros y Hy Ho. destruct (in_dec Z.eq_dec y p) as [Hp|Hp]; [auto|]. destruct Hy as [<-|Hy]; [|contradiction]. rewrite G1 by assumption.
    destruct (Hfin Ho) as (A & _). unfold releasable, pt_free_pages, pt_used in *. rewrite F2, R2. lia.
  - intros y Hy Ho Hrel. destruct (Z.eq_dec y x) as [->|Nyx].
    + destruct (Hfin Ho) as (_ & B). unfold releasable in Hrel. lia.
    + destruct Hy as [->|Hy]; [congruence|]. rewrite <- (T2 y Nyx) in Hrel. specialize (G5 y Hy Ho Hrel). lia.
Qed.
