(** C33: the hugepages from which small page runs are served. *)
From Coq Require Import Permutation.
From Verif Require Import Base Bitmap BitmapProofs RangeTrackerProofs RangeTrackerProofs2 RangeTrackerProps HintedLists HintedListsProofs PageTracker PageTrackerProps Filler FillerProofs FillerProofs2 FillerProofs3 FillerProofs4 FillerProofs5 FillerProofs6.

(** ** Specification

    A history of the filler.  [own]: the hugepages that hold a run; [lv x]: the runs held in the
    hugepage [x], each with its first page in the hugepage, its length and its objects.  The callers
    ask for less than a hugepage, and for single pages for spans with many objects; they free only what they
    hold, and contribute hugepages that the filler does not have. *)
Inductive fl_reach (N : Z) (sub : bool) : filler -> list Z -> (Z -> list (Z * Z * Z)) -> Prop :=
| fr_init t0 : fl_reach N sub (filler_init t0) [] (fun _ => [])
| fr_get f own lv n d o f' x i b : fl_reach N sub f own lv -> 0 < n < N -> (d = true -> n = 1) ->
    try_get N sub f n d o = Some (f', Some (x, i, b)) -> fl_reach N sub f' own (upd lv x (((i, n), o) :: lv x))
| fr_put f own lv x l1 i n o l2 os f' r : fl_reach N sub f own lv -> In x own -> lv x = l1 ++ ((i, n), o) :: l2 ->
    fl_put N sub f x i n o os = Some (f', r) ->
    fl_reach N sub f' (match l1 ++ l2 with [] => rem1 x own | _ => own end) (upd lv x (l1 ++ l2))
| fr_contribute f own lv x donated dense n o t i u : fl_reach N sub f own lv -> ~ In x own -> ~ In x (fl_freed f) ->
    0 < n -> pt_get N (pt_new N donated) n o = Some (t, i, u) ->
    (donated = true -> dense = false /\ n < N) -> (dense = true -> n = 1) ->
    fl_reach N sub (fl_contribute N sub f x t donated dense) (x :: own) (upd lv x [((i, n), o)])
| fr_fetch f own lv r f' : fl_reach N sub f own lv -> fl_fetch f = (r, f') -> fl_reach N sub f' own lv
| fr_flags f own lv k c : fl_reach N sub f own lv -> fl_reach N sub (set_collapsing (set_keep f k) c) own lv
| fr_release f own lv ans desired from_partial skip f' r : fl_reach N sub f own lv ->
    release_pages N sub ans f desired from_partial skip f' r -> fl_reach N sub f' own lv
| fr_release_free f own lv x os f' r : fl_reach N sub f own lv -> In x own -> handle_release_free N sub f x os = Some (f', r) -> fl_reach N sub f' own lv
| fr_unbacked f own lv x ub f' r : fl_reach N sub f own lv -> In x own -> wf N ub -> handle_unbacked N sub f x ub = (f', r) -> fl_reach N sub f' own lv
| fr_collapse f own lv x : fl_reach N sub f own lv -> In x own -> fl_reach N sub (on_collapse_success N sub f x) own lv.

(** Pages of a hugepage: held, and released to the OS. *)
Definition held (lv : Z -> list (Z * Z * Z)) (x : Z) : Z := zsum (map (fun r => snd (fst r)) (lv x)).
Definition released (N : Z) (f : filler) (x : Z) : Z := pages_with (released_page (fl_tr f x)) 0 N.
(** The longest free run of a hugepage is [L] pages long. *)
Definition longest_free (N : Z) (runs : list (Z * Z * Z)) (L : Z) : Prop :=
  0 <= L /\ (0 < L -> exists i, run_free N (map fst runs) i L) /\ forall i n, 0 < n -> run_free N (map fst runs) i n -> n <= L.

(** The array of lists a hugepage belongs on: donated; intact (no page released, and not known to be broken);
    all free pages released; or only some. *)
Definition spec_kind (N : Z) (sub : bool) (f : filler) (lv : Z -> list (Z * Z * Z)) (x : Z) : lk :=
  if pt_donated (fl_tr f x) then LDon
  else if (released N f x =? 0) && (pt_unbroken (fl_tr f x) || negb sub) then LReg (pt_dense (fl_tr f x))
  else if released N f x =? N - held lv x then LRel (pt_dense (fl_tr f x))
  else LPart (pt_dense (fl_tr f x)).
(** The list in the array: by the longest free run [L], then the fewest runs last; hugepages for spans with many
    objects by the number of runs. *)
Definition spec_index (N : Z) (f : filler) (lv : Z -> list (Z * Z * Z)) (L x : Z) : Z :=
  if pt_donated (fl_tr f x) then L
  else if pt_dense (fl_tr f x) then 8 * (N - Z.of_nat (length (lv x)))
  else 8 * L + (7 - Z.min 7 (Z.log2_up (Z.of_nat (length (lv x))))).

(** [x] is on the list [i] of the array [k]. *)
Definition on_list (N : Z) (f : filler) (k : lk) (i x : Z) : Prop := 0 <= i < nlists N k /\ In x (hl (fl_lists f k) i).

(** ** The history keeps the invariant *)

Lemma init_ok N sub t0 : 0 < N -> fl_ok N sub (filler_init t0) [] (fun _ => []).
Proof.
  intros HN. constructor; try (intros; reflexivity); try (cbn; lia); try (intros x []); [|constructor].
  constructor; cbn; try (intros; reflexivity).
  - intros k. apply hl_empty_ok. destruct k; cbn [nlists]; unfold k_chunks; lia.
  - intros k. assert (E : hl_total (nlists N k) hl_empty = []).
    { unfold hl_total. apply concat_nil_Forall. apply Forall_forall. intros l Hl. apply in_map_iff in Hl. destruct Hl as (j & <- & _). reflexivity. }
    rewrite E. constructor.
  - intros k i x Hi. split; [intros []|tauto].
  - constructor.
  - intros x [].
Qed.

Lemma fl_reach_ok N sub f own lv : 1 < N -> fl_reach N sub f own lv -> fl_ok N sub f own lv.
Proof.
  intros HN. assert (HN0 : 0 < N) by lia. induction 1 as [t0|f own lv n d o f' x i b H IH Hn Hd E|f own lv x l1 i n o l2 os f' r H IH Hx Hl E|f own lv x donated dense n o t i u H IH Nx Nf Hn E Hd Hde|f own lv r f' H IH E|f own lv k c H IH|f own lv ans desired fp skip f' r H IH E|f own lv x os f' r H IH Hx E|f own lv x ub f' r H IH Hx W E|f own lv x H IH Hx].
  - apply init_ok. assumption.
  - destruct (try_get_ok N sub f own lv n d o HN0 IH Hn Hd) as (f1 & r & E1 & Hr). rewrite E in E1. injection E1 as <- <-. tauto.
  - destruct (put_ok N sub f own lv x l1 i n o l2 os HN0 IH Hx Hl) as (f1 & r1 & E1 & Ok1 & _). rewrite E in E1. injection E1 as <- <-. exact Ok1.
  - pose proof (pr_get N _ _ n o t i u (pr_new N donated) Hn E) as R. pose proof (pt_get_flags N _ n o t i u E) as (F1 & F2 & F3 & F4).
    assert (R0 : pt_rcount t = 0) by (unfold pt_get in E; destruct (find_and_mark _ _ _) as [[fr ix]|]; [|discriminate]; cbn in E; injection E as <- <- <-; reflexivity).
    assert (Hu : pt_used t = n) by (rewrite (used_live N t _ HN0 R); cbn; clear; lia).
    destruct (contribute_ok N sub f own lv x t [((i, n), o)] donated dense HN0 IH Nx Nf R ltac:(discriminate) R0 F2 F1) as (Ok1 & _); [|..].
    + intros Hdo. destruct (Hd Hdo) as (Hd1 & Hd2). split; [assumption|]. rewrite Hu. assumption.
    + intros Hde' r [<-|[]]. cbn. auto.
    + exact Ok1.
  - unfold fl_fetch in E. destruct (fl_freed f) as [|y l] eqn:Ef; injection E as <- <-; [assumption|].
    destruct IH as [A1 A2 A3 A4 A5 A6 A7 A8 A9]. rewrite Ef in A8, A9. constructor; auto; cbn [fl_freed set_freed].
    + inversion A8; assumption.
    + intros z Hz. apply A9. right. assumption.
  - destruct IH as [A1 A2 A3 A4 A5 A6 A7 A8 A9]. constructor; auto.
  - exact (proj1 (release_pages_ok N sub ans f own lv desired fp skip f' r HN IH E)).
  - destruct (handle_release_free_ok N sub f own lv x os HN0 IH Hx) as (f1 & r1 & E1 & Ok1 & _). rewrite E in E1. injection E1 as <- <-. exact Ok1.
  - destruct (handle_unbacked_ok N sub f own lv x ub HN0 IH Hx W) as (f1 & r1 & E1 & Ok1 & _). rewrite E in E1. injection E1 as <- <-. exact Ok1.
  - exact (proj1 (collapse_ok N sub f own lv x HN0 IH Hx)).
Qed.

Lemma released_count N sub f own lv x : 0 < N -> fl_ok N sub f own lv -> In x own -> released N f x = pt_rcount (fl_tr f x).
Proof.
  intros HN Ok Hx. destruct (released_pages_exact N _ _ HN (tk_reach _ _ _ (fo_tk _ _ _ _ _ Ok x Hx))) as (_ & E & _). unfold released. symmetry. exact E.
Qed.
Lemma held_used N sub f own lv x : 0 < N -> fl_ok N sub f own lv -> In x own -> held lv x = pt_used (fl_tr f x).
Proof. intros HN Ok Hx. unfold held. symmetry. apply (used_live N). - assumption. - exact (tk_reach _ _ _ (fo_tk _ _ _ _ _ Ok x Hx)). Qed.
Lemma kind_spec N sub f own lv x : 0 < N -> fl_ok N sub f own lv -> In x own -> kind N sub (fl_tr f x) = spec_kind N sub f lv x.
Proof.
  intros HN Ok Hx. destruct (tk_bounds N _ _ HN (fo_tk _ _ _ _ _ Ok x Hx)) as (_ & _ & _ & B). unfold kind, spec_kind.
  rewrite (released_count N sub f own lv x HN Ok Hx), (held_used N sub f own lv x HN Ok Hx). destruct (pt_donated (fl_tr f x)); [reflexivity|]. unfold pt_free_pages in *.
  replace (negb (pt_released (fl_tr f x))) with (pt_rcount (fl_tr f x) =? 0).
  2:{ unfold pt_released. destruct (Z.ltb_spec 0 (pt_rcount (fl_tr f x))), (Z.eqb_spec (pt_rcount (fl_tr f x)) 0); reflexivity || lia. }
  destruct (_ && _); [reflexivity|]. destruct (Z.leb_spec (N - pt_used (fl_tr f x)) (pt_rcount (fl_tr f x))), (Z.eqb_spec (pt_rcount (fl_tr f x)) (N - pt_used (fl_tr f x))); reflexivity || lia.
Qed.
Lemma longest_spec N sub f own lv x : 0 < N -> fl_ok N sub f own lv -> In x own -> longest_free N (lv x) (pt_longest (fl_tr f x)).
Proof.
  intros HN Ok Hx. pose proof (fo_tk _ _ _ _ _ Ok x Hx) as K. destruct (hugepage_runs N _ _ HN (tk_reach _ _ _ K)) as (_ & _ & _ & _ & _ & _ & A & B & _).
  split; [|split; assumption]. destruct (tk_bounds N _ _ HN K). lia.
Qed.
Lemma longest_unique N runs L L' : longest_free N runs L -> longest_free N runs L' -> L = L'.
Proof.
  intros (A1 & A2 & A3) (B1 & B2 & B3). destruct (Z.lt_trichotomy L L') as [H|[H|H]]; [|assumption|].
  - destruct (B2 ltac:(lia)) as (i & Hi). specialize (A3 i L' ltac:(lia) Hi). lia.
  - destruct (A2 ltac:(lia)) as (i & Hi). specialize (B3 i L ltac:(lia) Hi). lia.
Qed.
Lemma pidx_spec N sub f own lv x L : 0 < N -> fl_ok N sub f own lv -> In x own -> longest_free N (lv x) L -> pidx N (fl_tr f x) = spec_index N f lv L x.
Proof.
  intros HN Ok Hx HL. rewrite (longest_unique N (lv x) L _ HL (longest_spec N sub f own lv x HN Ok Hx)). pose proof (fo_tk _ _ _ _ _ Ok x Hx) as K.
  destruct (tk_bounds N _ _ HN K) as (_ & B & _). destruct (hugepage_runs N _ _ HN (tk_reach _ _ _ K)) as (_ & _ & _ & _ & A & _).
  unfold pidx, spec_index. destruct (pt_donated _); [reflexivity|]. unfold list_for, k_chunks. rewrite index_for_spec by lia. rewrite <- A. destruct (pt_dense _); lia.
Qed.

(** ** The theorems *)

(** C33: a hugepage that holds a run is on exactly one list, the one for its present state, once; nothing else is on a list. *)
Theorem filler_lists : forall N sub f own lv, 1 < N -> fl_reach N sub f own lv ->
  NoDup own /\ (forall x, In x own <-> exists k i, on_list N f k i x) /\
  (forall x, In x own -> exists L, longest_free N (lv x) L /\
     forall k i, on_list N f k i x <-> k = spec_kind N sub f lv x /\ i = spec_index N f lv L x) /\
  (forall k i, 0 <= i < nlists N k -> NoDup (hl (fl_lists f k) i)).
Proof.
  intros N sub f own lv HN H. pose proof (fl_reach_ok N sub f own lv HN H) as Ok. assert (HN0 : 0 < N) by lia.
  pose proof (fo_lists _ _ _ _ _ Ok) as HL. destruct HL as [Lok Lnd Lin Lown Lrg Lrel Lpart].
  assert (Hon : forall x, In x own -> exists L, longest_free N (lv x) L /\ forall k i, on_list N f k i x <-> k = spec_kind N sub f lv x /\ i = spec_index N f lv L x).
  { intros x Hx. exists (pt_longest (fl_tr f x)). pose proof (longest_spec N sub f own lv x HN0 Ok Hx) as HLx. split; [assumption|]. intros k i.
    rewrite <- (kind_spec N sub f own lv x HN0 Ok Hx), <- (pidx_spec N sub f own lv x _ HN0 Ok Hx HLx). unfold on_list. split.
    - intros (Hi & Hin). apply Lin in Hin; [|assumption]. destruct Hin as (_ & E1 & E2). auto.
    - intros (-> & ->). pose proof (Lrg x Hx) as Hr. split; [assumption|]. apply Lin; auto. }
  split; [assumption|]. split; [|split; [assumption|]].
  - intros x. split.
    + intros Hx. destruct (Hon x Hx) as (L & _ & Hk). eexists _, _. apply Hk. split; reflexivity.
    + intros (k & i & Hi & Hin). apply Lin in Hin; tauto.
  - intros k i Hi. exact (nodup_hl _ _ _ (Lnd k) Hi).
Qed.
Print Assumptions filler_lists.

(** ** Totals *)
Definition sum_over (own : list Z) (g : Z -> Z) : Z := zsum (map g own).
Definition sum_if (P : Z -> bool) (own : list Z) (g : Z -> Z) : Z := sum_over own (fun x => if P x then g x else 0).
Definition is_dense (f : filler) (d : bool) (x : Z) : bool := Bool.eqb (pt_dense (fl_tr f x)) d.
Definition of_kind (N : Z) (sub : bool) (f : filler) (lv : Z -> list (Z * Z * Z)) (k : lk) (x : Z) : bool := lk_eqb (spec_kind N sub f lv x) k.
Definition subreleased (N : Z) (sub : bool) (f : filler) (lv : Z -> list (Z * Z * Z)) (x : Z) : bool :=
  match spec_kind N sub f lv x with LPart _ | LRel _ => true | _ => false end.

Lemma sum_ext own g h : (forall x, In x own -> g x = h x) -> sum_over own g = sum_over own h.
Proof. intros H. unfold sum_over. f_equal. apply map_ext_in. assumption. Qed.
Lemma sum_lin own (g h : Z -> Z) : sum_over own (fun x => g x + h x) = sum_over own g + sum_over own h.
Proof. unfold sum_over. induction own as [|x own IH]; [reflexivity|]. cbn [map]. rewrite !zsum_cons, IH. lia. Qed.
Lemma sum_sub own (g h : Z -> Z) : sum_over own (fun x => g x - h x) = sum_over own g - sum_over own h.
Proof. unfold sum_over. induction own as [|x own IH]; [reflexivity|]. cbn [map]. rewrite !zsum_cons, IH. lia. Qed.
Lemma sum_filter (P : Z -> bool) own c : sum_over own (fun x => if P x then c else 0) = c * Z.of_nat (length (filter P own)).
Proof. unfold sum_over. induction own as [|x own IH]; [cbn; lia|]. cbn [map filter]. rewrite zsum_cons, IH. destruct (P x); cbn [length]; lia. Qed.
Lemma sum_const own c : sum_over own (fun _ => c) = c * Z.of_nat (length own).
Proof. unfold sum_over. induction own as [|x own IH]; [cbn; lia|]. cbn [map length]. rewrite zsum_cons, IH. lia. Qed.

Lemma list_size N sub f own lv k : 0 < N -> fl_ok N sub f own lv -> hsize (fl_lists f k) = Z.of_nat (length (filter (of_kind N sub f lv k) own)).
Proof.
  intros HN Ok. destruct (fo_lists _ _ _ _ _ Ok) as [Lok Lnd Lin Lown Lrg Lrel Lpart]. destruct (Lok k) as [_ _ _ Hs]. rewrite Hs. f_equal. apply Permutation_length.
  apply NoDup_Permutation; [apply Lnd|apply NoDup_filter; assumption|]. intros x. rewrite hl_total_In. rewrite filter_In. unfold of_kind. split.
  - intros (i & Hi & Hin). apply Lin in Hin; [|assumption]. destruct Hin as (A & B & _). split; [assumption|]. rewrite <- (kind_spec N sub f own lv x HN Ok A), B. destruct (lk_eqb_spec k k); congruence.
  - intros (A & B). destruct (lk_eqb_spec (spec_kind N sub f lv x) k) as [E|]; [|discriminate]. pose proof (Lrg x A) as R. rewrite (kind_spec N sub f own lv x HN Ok A), E in R.
    exists (pidx N (fl_tr f x)). split; [assumption|]. apply Lin; [assumption|]. rewrite (kind_spec N sub f own lv x HN Ok A). auto.
Qed.

(** C33: the totals the filler keeps are those of its hugepages. *)
Theorem filler_totals : forall N sub f own lv, 1 < N -> fl_reach N sub f own lv ->
  fl_size f = Z.of_nat (length own) /\
  (forall d, fl_alloc f d = sum_if (is_dense f d) own (held lv)) /\ fl_used_pages f = sum_over own (held lv) /\
  fl_unmapped f = sum_over own (released N f) /\
  fl_free_pages N f = sum_over own (fun x => N - held lv x - released N f x) /\
  (forall d, fl_used_rel f d = sum_if (of_kind N sub f lv (LRel d)) own (held lv)) /\
  (forall d, fl_used_part f d = sum_if (of_kind N sub f lv (LPart d)) own (held lv)) /\
  (forall d, fl_was_rel f d = sum_if (fun x => pt_was_released (fl_tr f x) && is_dense f d x) own (fun _ => 1)) /\
  free_in_partial N f = sum_if (subreleased N sub f lv) own (fun x => N - held lv x - released N f x) /\
  (forall x, In x own -> 0 < held lv x /\ 0 <= released N f x /\ held lv x + released N f x <= N).
Proof.
  intros N sub f own lv HN H. pose proof (fl_reach_ok N sub f own lv HN H) as Ok. assert (HN0 : 0 < N) by lia.
  destruct (fo_lists _ _ _ _ _ Ok) as [Lok Lnd Lin Lown Lrg Lrel Lpart].
  assert (Hh : forall x, In x own -> held lv x = pt_used (fl_tr f x)) by (intros x Hx; exact (held_used N sub f own lv x HN0 Ok Hx)).
  assert (Hr : forall x, In x own -> released N f x = pt_rcount (fl_tr f x)) by (intros x Hx; exact (released_count N sub f own lv x HN0 Ok Hx)).
  assert (Hk : forall x, In x own -> kind N sub (fl_tr f x) = spec_kind N sub f lv x) by (intros x Hx; exact (kind_spec N sub f own lv x HN0 Ok Hx)).
  assert (TA : forall d, fl_alloc f d = sum_if (is_dense f d) own (held lv)).
  { intros d. rewrite (fo_alloc _ _ _ _ _ Ok d). unfold tsum, sum_if. apply sum_ext. intros x Hx. unfold g_alloc, is_dense. rewrite Hh by assumption. reflexivity. }
  assert (TU : fl_used_pages f = sum_over own (held lv)).
  { unfold fl_used_pages. rewrite !TA. unfold sum_if. rewrite <- sum_lin. apply sum_ext. intros x _. unfold is_dense. destruct (pt_dense (fl_tr f x)); cbn [Bool.eqb]; lia. }
  assert (TM : fl_unmapped f = sum_over own (released N f)).
  { rewrite (fo_unmapped _ _ _ _ _ Ok). unfold tsum. apply sum_ext. intros x Hx. rewrite Hr by assumption. reflexivity. }
  assert (TR : forall d, fl_used_rel f d = sum_if (of_kind N sub f lv (LRel d)) own (held lv)).
  { intros d. rewrite (Lrel d). unfold tsum, sum_if. apply sum_ext. intros x Hx. unfold g_rel, of_kind. rewrite Hk, Hh by assumption. reflexivity. }
  assert (TP : forall d, fl_used_part f d = sum_if (of_kind N sub f lv (LPart d)) own (held lv)).
  { intros d. rewrite (Lpart d). unfold tsum, sum_if. apply sum_ext. intros x Hx. unfold g_part, of_kind. rewrite Hk, Hh by assumption. reflexivity. }
  split; [exact (fo_size _ _ _ _ _ Ok)|]. split; [exact TA|]. split; [exact TU|]. split; [exact TM|]. split.
  { unfold fl_free_pages. rewrite TU, TM, (fo_size _ _ _ _ _ Ok), !sum_sub, sum_const. lia. }
  split; [exact TR|]. split; [exact TP|]. split; [|split].
  - intros d. rewrite (fo_was _ _ _ _ _ Ok d). reflexivity.
  - unfold free_in_partial. rewrite !(list_size N sub f own lv _ HN0 Ok), !TR, !TP, TM. unfold sum_if.
    assert (forall P, N * Z.of_nat (length (filter P own)) = sum_over own (fun x => if P x then N else 0)) as F by (intros P; rewrite sum_filter; reflexivity).
    rewrite <- !Z.add_assoc, !Z.mul_add_distr_r, !(Z.mul_comm _ N), !F, <- !sum_lin, <- !sum_sub. apply sum_ext. intros x Hx.
    pose proof (kind_is N sub _ _ HN0 (fo_tk _ _ _ _ _ Ok x Hx)) as KI. rewrite (Hk x Hx) in KI. unfold of_kind, subreleased.
    destruct (spec_kind N sub f lv x) as [d| |d|d] eqn:Ek; cbn [lk_eqb]; try (destruct d; cbn [Bool.eqb]; lia).
    + rewrite (Hr x Hx), (tk_donated _ _ _ (fo_tk _ _ _ _ _ Ok x Hx) (proj1 KI)). lia.
  - intros x Hx. rewrite Hh, Hr by assumption. destruct (tk_bounds N _ _ HN0 (fo_tk _ _ _ _ _ Ok x Hx)) as (_ & _ & B1 & B2). unfold pt_free_pages in B2. lia.
Qed.
Print Assumptions filler_totals.

(** ** Getting and freeing *)

(** The runs held, by page number. *)
Definition abs_runs (N : Z) (own : list Z) (lv : Z -> list (Z * Z * Z)) : list (Z * Z) :=
  flat_map (fun x => map (fun r => (x * N + fst (fst r), snd (fst r))) (lv x)) own.

Lemma fop_app {A} (R : A -> A -> Prop) l l' : ForallOrdPairs R l -> ForallOrdPairs R l' -> (forall a b, In a l -> In b l' -> R a b) -> ForallOrdPairs R (l ++ l').
Proof.
  induction 1 as [|a l Ha Hl IH]; intros H' H; cbn [app]; [assumption|]. constructor; [|apply IH; [assumption|intros; apply H; [right|]; assumption]].
  apply Forall_app. split; [assumption|]. apply Forall_forall. intros b Hb. apply H; [left; reflexivity|assumption].
Qed.

(** C33: the runs held never overlap, and lie in the hugepages the filler was given. *)
Theorem filler_runs_disjoint : forall N sub f own lv, 1 < N -> fl_reach N sub f own lv ->
  ForallOrdPairs disj (abs_runs N own lv) /\
  forall x r, In x own -> In r (lv x) -> 0 <= fst (fst r) /\ 0 < snd (fst r) /\ fst (fst r) + snd (fst r) <= N.
Proof.
  intros N sub f own lv HN H. pose proof (fl_reach_ok N sub f own lv HN H) as Ok. assert (HN0 : 0 < N) by lia.
  pose proof (fo_own _ _ _ _ _ Ok) as ND.
  assert (Hin : forall x r, In x own -> In r (lv x) -> 0 <= fst (fst r) /\ 0 < snd (fst r) /\ fst (fst r) + snd (fst r) <= N).
  { intros x r Hx Hr. exact (proj1 (proj2 (hugepage_runs N _ _ HN0 (tk_reach _ _ _ (fo_tk _ _ _ _ _ Ok x Hx)))) r Hr). }
  assert (Hd : forall x, In x own -> ForallOrdPairs disj (map fst (lv x))).
  { intros x Hx. exact (proj1 (hugepage_runs N _ _ HN0 (tk_reach _ _ _ (fo_tk _ _ _ _ _ Ok x Hx)))). }
  split; [|assumption]. clear Ok H. unfold abs_runs. induction own as [|x own IH]; cbn [flat_map]; [constructor|].
  inversion ND as [|? ? N1 N2]; subst. apply fop_app.
  - specialize (Hd x (or_introl eq_refl)). remember (lv x) as l eqn:El. clear - Hd. induction l as [|r l IHl]; cbn [map]; [constructor|]. cbn [map] in Hd. inversion Hd as [|? ? A B]; subst.
    constructor; [|exact (IHl B)]. apply Forall_forall. intros b Hb. apply in_map_iff in Hb. destruct Hb as (q & <- & Hq). rewrite Forall_forall in A.
    specialize (A (fst q) (in_map fst _ _ Hq)). unfold disj in *. cbn [fst snd]. lia.
  - apply IH; [assumption|intros y r Hy Hr; exact (Hin y r (or_intror Hy) Hr)|intros y Hy; exact (Hd y (or_intror Hy))].
  - intros a b Ha Hb. apply in_map_iff in Ha. destruct Ha as (r & <- & Hr). apply in_flat_map in Hb. destruct Hb as (y & Hy & Hb). apply in_map_iff in Hb. destruct Hb as (q & <- & Hq).
    destruct (Hin x r (or_introl eq_refl) Hr) as (? & ? & ?). destruct (Hin y q (or_intror Hy) Hq) as (? & ? & ?). assert (x <> y) by (intros ->; contradiction).
    unfold disj. cbn [fst snd]. assert (x + 1 <= y \/ y + 1 <= x) as [?|?] by lia; [left|right]; nia.
Qed.
Print Assumptions filler_runs_disjoint.

(** The order in which hugepages are used: intact ones, donated ones, partly released ones, released ones. *)
Definition preference (k : lk) : Z := match k with LReg _ => 0 | LDon => 1 | LPart _ => 2 | LRel _ => 3 end.

(** C33: a request fails only if no hugepage for its kind of span has a free run long enough; otherwise it gets a
    free run, in a hugepage that comes first in the order of preference and, among those, has the shortest longest
    free run (then the most runs); the pages of the run count as backed again; nothing else changes. *)
Theorem filler_get : forall N sub f own lv n d o, 1 < N -> fl_reach N sub f own lv -> 0 < n < N -> (d = true -> n = 1) ->
  exists f' r, try_get N sub f n d o = Some (f', r) /\
  (r = None <-> forall x, In x own -> pt_dense (fl_tr f x) = d -> forall i, ~ run_free N (map fst (lv x)) i n) /\
  match r with
  | None => f' = f
  | Some (x, i, b) =>
      In x own /\ pt_dense (fl_tr f x) = d /\ run_free N (map fst (lv x)) i n /\
      (b = true <-> subreleased N sub f lv x = true) /\
      fl_unmapped f' = fl_unmapped f - pages_with (released_page (fl_tr f x)) i n /\
      (forall y, y <> x -> fl_tr f' y = fl_tr f y) /\ fl_freed f' = fl_freed f /\ fl_unaccounted f' = fl_unaccounted f /\ fl_size f' = fl_size f /\
      (forall y j, In y own -> pt_dense (fl_tr f y) = d -> run_free N (map fst (lv y)) j n ->
        preference (spec_kind N sub f lv x) <= preference (spec_kind N sub f lv y) /\
        (preference (spec_kind N sub f lv x) = preference (spec_kind N sub f lv y) ->
         forall L L', longest_free N (lv x) L -> longest_free N (lv y) L' -> spec_index N f lv L x <= spec_index N f lv L' y))
  end.
Proof.
  intros N sub f own lv n d o HN H Hn Hd. pose proof (fl_reach_ok N sub f own lv HN H) as Ok. assert (HN0 : 0 < N) by lia.
  destruct (try_get_ok N sub f own lv n d o HN0 Ok Hn Hd) as (f' & r & E & Hr). exists f', r. split; [assumption|].
  assert (Hfit : forall y, In y own -> (exists j, run_free N (map fst (lv y)) j n) <-> n <= pt_longest (fl_tr f y)).
  { intros y Hy. destruct (longest_spec N sub f own lv y HN0 Ok Hy) as (A & B & C). split.
    - intros (j & Hj). exact (C j n ltac:(lia) Hj).
    - intros Hl. destruct (B ltac:(lia)) as (j & J1 & J2 & J3). exists j. split; [lia|]. split; [lia|]. intros q Hq. specialize (J3 q Hq).
      destruct (filler_runs_disjoint N sub f own lv HN H) as (_ & Hin). apply in_map_iff in Hq. destruct Hq as (q' & <- & Hq'). specialize (Hin y q' Hy Hq').
      unfold disj in *. cbn [fst snd] in *. lia. }
  destruct r as [[[x i] b]|].
  - destruct Hr as (Hx & Ok' & OS & Ua & D & Ln & Rf & Hb & Um & Best). split.
    + split; [discriminate|]. intros Hno. destruct (Hno x Hx D i Rf).
    + split; [assumption|]. split; [assumption|]. split; [assumption|]. split.
      { rewrite Hb, (kind_spec N sub f own lv x HN0 Ok Hx). unfold subreleased, rank. destruct (spec_kind N sub f lv x); split; intros; try lia; congruence. }
      split; [assumption|]. destruct OS as [S1 S2 S3 S4 S5]. split; [assumption|]. split; [assumption|]. split; [assumption|]. split; [assumption|].
      intros y j Hy Dy Hj. destruct (Best y Hy Dy (proj1 (Hfit y Hy) (ex_intro _ j Hj))) as (B1 & B2).
      rewrite (kind_spec N sub f own lv x HN0 Ok Hx), (kind_spec N sub f own lv y HN0 Ok Hy) in B1, B2. split; [exact B1|].
      intros He L L' HLx HLy. rewrite <- (pidx_spec N sub f own lv x L HN0 Ok Hx HLx), <- (pidx_spec N sub f own lv y L' HN0 Ok Hy HLy). apply B2. exact He.
  - destruct Hr as (Ef & Hno). split; [|assumption]. split; [|reflexivity]. intros _ x Hx Dx i Hi. specialize (Hno x Hx Dx). pose proof (proj1 (Hfit x Hx) (ex_intro _ i Hi)). lia.
Qed.
Print Assumptions filler_get.

(** C33: a run that is held can be freed.  The hugepage leaves the filler when its last run is freed: it is handed
    back to the caller, or, while it is pinned, kept aside to be fetched later.  Pages of it that were
    backed but are unbacked then are reported by the next release. *)
Theorem filler_put : forall N sub f own lv x l1 i n o l2 os, 1 < N -> fl_reach N sub f own lv -> In x own -> lv x = l1 ++ ((i, n), o) :: l2 ->
  exists f' r, fl_put N sub f x i n o os = Some (f', r) /\
    r = (if (match l1 ++ l2 with [] => true | _ => false end) && (fl_keep f x =? 0) then Some x else None) /\
    fl_freed f' = (if (match l1 ++ l2 with [] => true | _ => false end) && negb (fl_keep f x =? 0) then x :: fl_freed f else fl_freed f) /\
    fl_unmapped f' = fl_unmapped f - (match l1 ++ l2 with [] => released N f x | _ => 0 end) /\
    fl_unaccounted f' = fl_unaccounted f + (match l1 ++ l2 with
      [] => if negb (released N f x =? 0) && os then N - released N f x else 0 | _ => 0 end) /\
    (forall y, y <> x -> fl_tr f' y = fl_tr f y).
Proof.
  intros N sub f own lv x l1 i n o l2 os HN H Hx Hl. pose proof (fl_reach_ok N sub f own lv HN H) as Ok. assert (HN0 : 0 < N) by lia.
  destruct (put_ok N sub f own lv x l1 i n o l2 os HN0 Ok Hx Hl) as (f' & r & E & _ & Er & Ef & Et & _ & _ & Eu & Ea).
  pose proof (released_count N sub f own lv x HN0 Ok Hx) as Rc. exists f', r. split; [assumption|].
  destruct (l1 ++ l2); cbn [andb]; rewrite ?Rc.
  - split; [assumption|]. split; [destruct (fl_keep f x =? 0); assumption|]. split; [assumption|]. split; [|assumption]. rewrite Ea. f_equal.
    replace (negb (pt_rcount (fl_tr f x) =? 0)) with (pt_released (fl_tr f x)); [reflexivity|].
    pose proof (tk_bounds N _ _ HN0 (fo_tk _ _ _ _ _ Ok x Hx)). unfold pt_released. destruct (Z.ltb_spec 0 (pt_rcount (fl_tr f x))), (Z.eqb_spec (pt_rcount (fl_tr f x)) 0); reflexivity || lia.
  - auto 8.
Qed.
Print Assumptions filler_put.

(** C33: the hugepages kept aside hold no run. *)
Theorem filler_freed : forall N sub f own lv, 1 < N -> fl_reach N sub f own lv ->
  NoDup (fl_freed f) /\ forall x, In x (fl_freed f) -> ~ In x own /\ pt_used (fl_tr f x) = 0.
Proof.
  intros N sub f own lv HN H. pose proof (fl_reach_ok N sub f own lv HN H) as Ok. split; [exact (fo_nodup _ _ _ _ _ Ok)|].
  intros x Hx. destruct (fo_freed _ _ _ _ _ Ok x Hx) as (A & B). split; [assumption|]. rewrite (used_live N _ [] ltac:(lia) B). reflexivity.
Qed.
Print Assumptions filler_freed.

(** ** Releasing *)

(** A hugepage with a free page that is not released. *)
Definition can_release (N : Z) (f : filler) (lv : Z -> list (Z * Z * Z)) (x : Z) : Prop := held lv x + released N f x < N.
(** Emptier hugepages come first; of two equal ones the one for spans with few objects. *)
Definition comes_before (f : filler) (lv : Z -> list (Z * Z * Z)) (x y : Z) : Prop :=
  held lv x < held lv y \/ held lv x = held lv y /\ (pt_dense (fl_tr f x) = true -> pt_dense (fl_tr f y) = true).
Definition is_partial (N : Z) (sub : bool) (f : filler) (lv : Z -> list (Z * Z * Z)) (x : Z) : bool :=
  match spec_kind N sub f lv x with LPart _ => true | _ => false end.

(** C33: whatever the OS answers, a release can be completed. *)
Theorem filler_release_total : forall N sub f own lv (ans : (Z -> Z -> Z -> bool) -> Prop) os desired from_partial skip, 1 < N -> fl_reach N sub f own lv -> ans os ->
  exists f' r, release_pages N sub ans f desired from_partial skip f' r.
Proof. intros N sub f own lv ans os desired fp skip HN H Ha. exact (release_pages_exist N sub ans f own lv desired fp skip os HN (fl_reach_ok N sub f own lv HN H) Ha). Qed.
Print Assumptions filler_release_total.

Lemma releasable_spec N sub f own lv x : 0 < N -> fl_ok N sub f own lv -> In x own -> releasable N (fl_tr f x) <-> can_release N f lv x.
Proof. intros HN Ok Hx. unfold releasable, can_release, pt_free_pages. rewrite (held_used N sub f own lv x HN Ok Hx), (released_count N sub f own lv x HN Ok Hx). lia. Qed.

(** C33: a release reports exactly the pages it released and those released without a report before; the pages held
    do not change; it takes at most a hugepage more than it aims at; it releases from partly released hugepages
    and from intact ones, emptiest first; it skips hugepages that are being collapsed; and if the OS refuses nothing,
    then partly released hugepages come first, and a release that gets less than it
    aims at leaves nothing to release. *)
Theorem filler_release : forall N sub f own lv ans desired from_partial skip f' r, 1 < N -> fl_reach N sub f own lv ->
  release_pages N sub ans f desired from_partial skip f' r ->
  r = fl_unaccounted f + (sum_over own (released N f') - sum_over own (released N f)) /\ fl_unaccounted f' = 0 /\
  (forall x, In x own -> released N f x <= released N f' x) /\ fl_alloc f' = fl_alloc f /\ fl_size f' = fl_size f /\ fl_freed f' = fl_freed f /\
  (r = fl_unaccounted f \/ r < release_target N f desired from_partial skip + N) /\
  (exists Q, (forall x, ~ In x Q -> fl_tr f' x = fl_tr f x) /\
     (forall x, In x Q -> In x own /\ fl_collapsing f x = false /\ can_release N f lv x) /\
     (forall x y, In x Q -> In y own -> ~ In y Q -> fl_collapsing f y = false -> can_release N f lv y ->
        is_partial N sub f lv x = is_partial N sub f lv y -> comes_before f lv x y) /\
     ((forall os, ans os -> forall y i n, os y i n = true) -> forall x y, In x Q -> is_partial N sub f lv x = false ->
        In y own -> fl_collapsing f y = false -> is_partial N sub f lv y = true -> In y Q)) /\
  ((forall os, ans os -> forall y i n, os y i n = true) -> r < release_target N f desired from_partial skip ->
     forall y, In y own -> fl_collapsing f y = false -> ~ can_release N f' lv y).
Proof.
  intros N sub f own lv ans desired fp skip f' r HN H E. pose proof (fl_reach_ok N sub f own lv HN H) as Ok. assert (HN0 : 0 < N) by lia.
  pose proof (fr_release N sub f own lv ans desired fp skip f' r H E) as H'.
  destruct (release_pages_ok N sub ans f own lv desired fp skip f' r HN Ok E) as (Ok' & SP & U & Er & Bd & (Q & Q1 & Q2 & Q3 & Q4 & Q5) & Fin).
  destruct (filler_totals N sub f own lv HN H) as (_ & _ & _ & M & _). destruct (filler_totals N sub f' own lv HN H') as (_ & _ & _ & M' & _).
  split; [rewrite <- M, <- M'; exact Er|]. split; [assumption|]. split; [|split; [exact (sp_alloc _ _ SP)|split; [exact (sp_size _ _ SP)|split; [exact (sp_freed _ _ SP)|split; [exact Bd|]]]]].
  { intros x Hx. rewrite (released_count N sub f own lv x HN0 Ok Hx), (released_count N sub f' own lv x HN0 Ok' Hx). exact (sp_more _ _ SP x). }
  assert (Hkey : forall x y, In x own -> In y own -> key (fl_tr f x) <= key (fl_tr f y) -> comes_before f lv x y).
  { intros x y Hx Hy. unfold key, comes_before. rewrite (held_used N sub f own lv x HN0 Ok Hx), (held_used N sub f own lv y HN0 Ok Hy). destruct (pt_dense (fl_tr f x)), (pt_dense (fl_tr f y)); intros; try (destruct (Z.eq_dec (pt_used (fl_tr f x)) (pt_used (fl_tr f y))); [right; split; [assumption|]; congruence || reflexivity|left; lia]).
    left. lia. }
  assert (Hpart : forall x, In x own -> is_part N sub (fl_tr f x) <-> is_partial N sub f lv x = true).
  { intros x Hx. unfold is_part, is_partial. rewrite (kind_spec N sub f own lv x HN0 Ok Hx). destruct (spec_kind N sub f lv x) as [d| |d|d]; split; try discriminate; try (intros (d' & A); discriminate); eauto. }
  assert (Hreg : forall x, In x own -> releasable N (fl_tr f x) -> is_partial N sub f lv x = false -> is_reg N sub (fl_tr f x)).
  { intros x Hx Hrl. unfold is_reg, is_partial. pose proof (kind_is N sub _ _ HN0 (fo_tk _ _ _ _ _ Ok x Hx)) as KI. rewrite (kind_spec N sub f own lv x HN0 Ok Hx) in KI |- *.
    destruct (spec_kind N sub f lv x) as [d| |d|d]; intros; try discriminate; split; auto; [left; eauto|]. tauto. }
  split.
  - exists Q. split; [assumption|]. split; [|split].
    + intros x Hx. destruct (Q2 x Hx) as (A & B & C). split; [assumption|]. split; [assumption|]. apply (releasable_spec N sub f own lv x HN0 Ok A). assumption.
    + intros x y Hx Hy Ny Cy Ry Epq. destruct (Q2 x Hx) as (A & _ & C). apply Hkey; [assumption|assumption|].
      apply (releasable_spec N sub f own lv y HN0 Ok Hy) in Ry. destruct (is_partial N sub f lv x) eqn:Ex.
      * apply Q3; auto; apply Hpart; auto.
      * apply Q4; auto.
    + intros Ho x y Hx Ex Hy Cy Ey. destruct (Q2 x Hx) as (A & _ & C). apply (Q5 Ho x y); auto. apply Hpart; assumption.
  - intros Ho Hr y Hy Cy Hc. apply (Fin Ho Hr y Hy Cy). apply (releasable_spec N sub f' own lv y HN0 Ok' Hy). assumption.
Qed.
Print Assumptions filler_release.

(** C33: what the treatment of a hugepage releases is counted, and is reported by the next release. *)
Theorem filler_treatment : forall N sub f own lv x, 1 < N -> fl_reach N sub f own lv -> In x own ->
  (forall os, exists f' r, handle_release_free N sub f x os = Some (f', r) /\
     r = released N f' x - released N f x /\ fl_unaccounted f' = fl_unaccounted f + r /\ fl_unmapped f' = fl_unmapped f + r /\
     (forall y, y <> x -> fl_tr f' y = fl_tr f y) /\ ((forall i n, os i n = true) -> ~ can_release N f' lv x)) /\
  (forall ub f' r, wf N ub -> handle_unbacked N sub f x ub = (f', r) ->
     r = released N f' x - released N f x /\ fl_unaccounted f' = fl_unaccounted f + r /\ fl_unmapped f' = fl_unmapped f + r /\
     (forall y, y <> x -> fl_tr f' y = fl_tr f y) /\
     forall j, 0 <= j < N -> released_page (fl_tr f' x) j = true <-> released_page (fl_tr f x) j = true \/ bit ub j = true /\ ~ is_live (lv x) j).
Proof.
  intros N sub f own lv x HN H Hx. pose proof (fl_reach_ok N sub f own lv HN H) as Ok. assert (HN0 : 0 < N) by lia. pose proof (tk_reach _ _ _ (fo_tk _ _ _ _ _ Ok x Hx)) as R. split.
  - intros os. destruct (handle_release_free_ok N sub f own lv x os HN0 Ok Hx) as (f' & r & E & Ok' & _ & Et & (t & calls & Ep & Etx) & _ & Eu & Ea).
    exists f', r. split; [assumption|]. destruct (release_free_exact N _ _ os HN0 R) as (t1 & c1 & l1 & E1 & R1 & B). rewrite Ep in E1. injection E1 as <- <- <-.
    assert (Er : r = released N f' x - released N f x).
    { rewrite (released_count N sub f own lv x HN0 Ok Hx), (released_count N sub f' own lv x HN0 Ok' Hx), Etx. change (pt_rcount (pt_set_donated t false)) with (pt_rcount t).
      destruct (pt_release_ok N _ _ os HN0 (pt_reach_ok N _ _ HN0 R)) as (t2 & c2 & l2 & E2 & _ & _ & _ & _ & _ & _ & _ & Q). rewrite Ep in E2. injection E2 as <- <- <-. lia. }
    split; [assumption|]. split; [assumption|]. split; [assumption|]. split; [assumption|]. intros Ho Hc.
    destruct (release_free_all N _ _ os t r calls HN0 R Ho Ep) as (_ & A & _). apply (releasable_spec N sub f' own lv x HN0 Ok' Hx) in Hc. unfold releasable in Hc. rewrite Etx in Hc.
    unfold pt_free_pages, pt_used in *. cbn in Hc. lia.
  - intros ub f' r W E. destruct (handle_unbacked_ok N sub f own lv x ub HN0 Ok Hx W) as (f1 & r1 & E1 & Ok' & _ & Et & (t & Ep & Etx) & _ & Eu & Ea). rewrite E in E1. injection E1 as <- <-.
    destruct (mark_subreleased_exact N _ _ ub t r HN0 R W Ep) as (B & _ & Q & _).
    split.
    + rewrite (released_count N sub f own lv x HN0 Ok Hx), (released_count N sub f' own lv x HN0 Ok' Hx), Etx. change (pt_rcount (pt_set_donated t false)) with (pt_rcount t). lia.
    + split; [assumption|]. split; [assumption|]. split; [assumption|]. rewrite Etx. change (released_page (pt_set_donated t false)) with (released_page t). intros j Hj. rewrite (B j Hj). tauto.
Qed.
Print Assumptions filler_treatment.

(** ** A concrete history: two hugepages of 256 pages, one donated *)
Definition ex_new (donated : bool) (n : Z) : ptracker := match pt_get 256 (pt_new 256 donated) n 1 with Some (t, _, _) => t | None => pt_new 256 donated end.
Definition ex1 : filler := fl_contribute 256 true (filler_init (fun _ => pt_new 256 false)) 7 (ex_new false 3) false false.
Definition ex2 : filler := fl_contribute 256 true ex1 9 (ex_new true 200) true false.
Definition ex3 : filler := match try_get 256 true ex2 10 false 4 with Some (f, _) => f | None => ex2 end.
Definition ex4 : filler := match handle_release_free 256 true ex3 9 (fun _ _ => true) with Some (f, _) => f | None => ex3 end.
Definition ex5 : filler := match try_get 256 true ex4 250 false 1 with Some (f, _) => f | None => ex4 end.

Lemma ex_new_get d n : 0 < n <= 256 -> exists i u, pt_get 256 (pt_new 256 d) n 1 = Some (ex_new d n, i, u).
Proof.
  intros Hn. destruct (proj2 (proj1 (hugepage_get 256 (pt_new 256 d) [] n 1 ltac:(lia) (pr_new 256 d) ltac:(lia)))) as (t & i & u & E).
  { exists 0. split; [lia|]. split; [lia|]. intros r []. }
  unfold ex_new. rewrite E. eauto.
Qed.

Example ex_history : exists lv i2 i7, fl_reach 256 true ex4 [9; 7] lv /\ lv 9 = [((i2, 200), 1)] /\ lv 7 = [((3, 10), 4); ((i7, 3), 1)] /\
  spec_kind 256 true ex4 lv 9 = LRel false /\ spec_kind 256 true ex4 lv 7 = LReg false /\
  fl_unmapped ex4 = 56 /\ fl_unaccounted ex4 = 56 /\ fl_free_pages 256 ex4 = 243.
Proof.
  destruct (ex_new_get false 3 ltac:(lia)) as (i7 & u7 & E7). destruct (ex_new_get true 200 ltac:(lia)) as (i9 & u9 & E9).
  assert (R1 : fl_reach 256 true ex1 [7] (upd (fun _ => []) 7 [((i7, 3), 1)])).
  { unfold ex1. apply (fr_contribute 256 true _ _ _ 7 false false 3 1 _ i7 u7 (fr_init 256 true _)); [intros []|intros []|lia|exact E7|discriminate|discriminate]. }
  assert (F1 : fl_freed ex1 = []) by (vm_compute; reflexivity).
  set (lv2 := upd (upd (fun _ => []) 7 [((i7, 3), 1)]) 9 [((i9, 200), 1)]).
  assert (R2 : fl_reach 256 true ex2 [9; 7] lv2).
  { unfold ex2, lv2. apply (fr_contribute 256 true _ _ _ 9 true false 200 1 _ i9 u9 R1); [intros [?|[]]; discriminate|rewrite F1; intros []|lia|exact E9|split; [reflexivity|lia]|discriminate]. }
  assert (E3 : match try_get 256 true ex2 10 false 4 with Some (_, r) => r | None => None end = Some (7, 3, false)) by (vm_compute; reflexivity).
  assert (R3 : fl_reach 256 true ex3 [9; 7] (upd lv2 7 (((3, 10), 4) :: lv2 7))).
  { unfold ex3. destruct (try_get 256 true ex2 10 false 4) as [[f r]|] eqn:E; [|discriminate]. subst r. exact (fr_get 256 true _ _ _ 10 false 4 f 7 3 false R2 ltac:(lia) ltac:(discriminate) E). }
  assert (E4 : match handle_release_free 256 true ex3 9 (fun _ _ => true) with Some (_, r) => r | None => 0 end = 56) by (vm_compute; reflexivity).
  assert (R4 : fl_reach 256 true ex4 [9; 7] (upd lv2 7 (((3, 10), 4) :: lv2 7))).
  { unfold ex4. destruct (handle_release_free 256 true ex3 9 (fun _ _ => true)) as [[f r]|] eqn:E; [|discriminate]. exact (fr_release_free 256 true _ _ _ 9 _ f r R3 ltac:(left; reflexivity) E). }
  assert (D : pt_donated (fl_tr ex4 9) = false /\ pt_donated (fl_tr ex4 7) = false /\ released 256 ex4 9 = 56 /\ released 256 ex4 7 = 0 /\ pt_unbroken (fl_tr ex4 7) = true /\
    pt_dense (fl_tr ex4 9) = false /\ pt_dense (fl_tr ex4 7) = false) by (vm_compute; repeat split; reflexivity).
  destruct D as (D1 & D2 & D3 & D4 & D5 & D6 & D7).
  exists (upd lv2 7 (((3, 10), 4) :: lv2 7)), i9, i7. split; [exact R4|]. split; [reflexivity|]. split; [reflexivity|].
  unfold spec_kind. rewrite D1, D2, D3, D4, D5, D6, D7. split; [reflexivity|]. split; [reflexivity|]. vm_compute. auto.
Qed.

(** In that state a request for 250 pages is refused, because neither hugepage has so long a free run, ... *)
Example ex_refused : match try_get 256 true ex4 250 false 1 with Some (_, r) => r | None => Some (0, 0, false) end = None.
Proof. vm_compute. reflexivity. Qed.
(** ... and releasing 1000 pages gives the 243 that are free and the 56 not reported before, if the OS refuses none. *)
Example ex_release : exists f' r, release_pages 256 true (fun os => forall x i n, os x i n = true) ex4 1000 0 None f' r /\ r = 299 /\ fl_free_pages 256 f' = 0.
Proof.
  destruct ex_history as (lv & i2 & i7 & R & L9 & L7 & _ & _ & M & U & F).
  destruct (filler_release_total 256 true ex4 _ lv (fun os => forall x i n, os x i n = true) (fun _ _ _ => true) 1000 0 None ltac:(lia) R (fun _ _ _ => eq_refl)) as (f' & r & E).
  exists f', r. split; [assumption|]. pose proof (fr_release _ _ _ _ _ _ _ _ _ _ _ R E) as R'.
  destruct (filler_release 256 true ex4 _ lv _ _ _ _ f' r ltac:(lia) R E) as (Er & _ & _ & _ & _ & _ & _ & (Q & HQ1 & HQ2 & _) & Fin).
  destruct (filler_totals 256 true ex4 _ lv ltac:(lia) R) as (_ & _ & _ & T1 & _). destruct (filler_totals 256 true f' _ lv ltac:(lia) R') as (_ & _ & _ & T1' & T2' & _ & _ & _ & _ & B').
  assert (C : forall x, fl_collapsing ex4 x = false) by (intros x; reflexivity).
  assert (H9 : held lv 9 = 200) by (unfold held; rewrite L9; reflexivity). assert (H7 : held lv 7 = 13) by (unfold held; rewrite L7; reflexivity).
  unfold sum_over in *. cbn [map] in *. rewrite !zsum_cons in *. change (zsum []) with 0 in *.
  destruct (B' 9 ltac:(left; reflexivity)) as (_ & _ & B9). destruct (B' 7 ltac:(right; left; reflexivity)) as (_ & _ & B7).
  assert (Hr : r < 1000) by lia.
  pose proof (Fin (fun os H => H) Hr 9 ltac:(left; reflexivity) (C 9)) as G9. pose proof (Fin (fun os H => H) Hr 7 ltac:(right; left; reflexivity) (C 7)) as G7.
  unfold can_release in G9, G7. split; lia.
Qed.
