(** C54, C55: hugepages are looked at, collapsed and broken up in the background while the other threads go on. *)
From Coq Require Import Permutation.
From Verif Require Import Base Ranges Bitmap BitmapProofs BitmapProofs2 RangeTrackerProofs2 HintedLists HintedListsProofs PageTracker PageTrackerProps Filler FillerProofs FillerProofs2 FillerProofs3 FillerProofs4 FillerProps Treatment TreatmentProofs TreatmentProofs2 TreatmentProofs3 TreatmentProofs4 TreatmentSpec.

(** A hugepage is [N] TCMalloc pages and [M] kernel pages. *)
Definition sizes_ok (N M : Z) : Prop := 1 < N /\ 0 < M /\ (M mod N = 0 \/ N mod M = 0).
(** The hugepages a pass in progress still refers to. *)
Definition under_treatment (s : tsys) (x : Z) : Prop :=
  match y_phase s with
  | PPass g => In x (g_sampled g) \/ In x (map e_x (g_done g)) \/ In x (g_todo g) \/ exists o, g_busy g = Some (x, o)
  | _ => False
  end.
(** All the free pages of a hugepage are with the OS. *)
Definition all_released (N : Z) (c : tconf) (s : tsys) (x : Z) : Prop := exists d, spec_kind N (tc_sub c) (y_f s) (y_lv s) x = LRel d.
(** When a hugepage is looked at again: not if it was found to be backed; otherwise once enough time has passed. *)
Definition due (c : tconf) (now : Z) (i : tinfo) : Prop :=
  ti_backed i = false /\ (ti_valid i = false \/ tc_interval c < Z.max (now - ti_time i) 0).
Definition due_sample (c : tconf) (now : Z) (i : tinfo) : Prop := ti_sampled i = true /\ tc_interval c < Z.max (now - ti_tagged i) 0.
(** [y] is at least as worth treating as [x]: more objects, or as many and dense. *)
Definition as_worthy (f : filler) (x y : Z) : Prop :=
  pt_objects (fl_tr f x) < pt_objects (fl_tr f y) \/
  pt_objects (fl_tr f x) = pt_objects (fl_tr f y) /\ (pt_dense (fl_tr f x) = true -> pt_dense (fl_tr f y) = true).

Lemma treated_iff s x : under_treatment s x <-> In x (ph_sampled (y_phase s)) \/ In x (ph_selected (y_phase s)).
Proof.
  unfold under_treatment, ph_sampled, ph_selected. destruct (y_phase s) as [|g|]; cbn [In]; try tauto. rewrite !in_app_iff.
  assert (Hb : In x (busy_list (g_busy g)) <-> exists o, g_busy g = Some (x, o)).
  { destruct (g_busy g) as [[y o]|]; cbn [busy_list In]; [|split; [intros []|intros (o & H); discriminate]].
    split; [intros [->|[]]; eauto|]. intros (o' & E). injection E as -> ->. auto. }
  rewrite Hb. tauto.
Qed.

(** ** C54 *)

(** No check fails; a hugepage that a pass refers to has not been given back to the caller: if it is emptied meanwhile it is kept aside. *)
Theorem treatment_lifetime : forall N M c s, sizes_ok N M -> treat_reach N M c s ->
  y_phase s <> PCrash /\ NoDup (y_given s) /\
  Permutation (y_given s) (y_own s ++ fl_freed (y_f s)) /\
  (forall x, under_treatment s x -> In x (y_given s)) /\
  (forall x, In x (fl_freed (y_f s)) -> under_treatment s x /\ pt_fully_freed N (fl_tr (y_f s) x) = true) /\
  (y_phase s = PIdle -> fl_freed (y_f s) = [] /\ Permutation (y_given s) (y_own s)).
Proof.
  intros N M c s (HN & HM & Hd) H. destruct (treat_tinv N M c s HN HM Hd H) as (A & [R P V1 V2 V3 V4 V5 V6 V7 V8]). pose proof (fl_reach_ok N _ _ _ _ HN R) as Ok.
  split; [assumption|]. split; [exact (given_NoDup N _ _ _ _ _ Ok P)|]. split; [assumption|]. split; [intros x Hx; apply V3, treated_iff; assumption|]. split.
  - intros x Hx. split; [apply treated_iff, V8; assumption|exact (freed_full N _ _ _ _ x HN Ok Hx)].
  - intros Hp. rewrite Hp in V8. cbn in V8. assert (E : fl_freed (y_f s) = []) by (destruct (fl_freed (y_f s)) as [|x l]; [reflexivity|destruct (V8 x (or_introl eq_refl)) as [[]|[]]]).
    split; [assumption|]. rewrite E, app_nil_r in P. assumption.
Qed.
Print Assumptions treatment_lifetime.

(** While the kernel is collapsing a hugepage, without the lock, none of its pages is released. *)
Theorem treatment_collapse_safe : forall N M c s g x o, sizes_ok N M -> treat_reach N M c s -> y_phase s = PPass g -> g_busy g = Some (x, o) ->
  released N (y_f s) x = 0 /\ forall j, 0 <= j < N -> released_page (fl_tr (y_f s) x) j = false.
Proof.
  intros N M c s g x o (HN & HM & Hd) H Hp Hb. destruct (treat_tinv N M c s HN HM Hd H) as (A & [R P V1 V2 V3 V4 V5 V6 V7 V8]). pose proof (fl_reach_ok N _ _ _ _ HN R) as Ok.
  rewrite Hp in *. cbn [ph_sampled ph_selected ph_busy] in *. rewrite Hb in *. cbn [busy_list] in *. assert (Hx : In x [x]) by (left; reflexivity).
  pose proof (V7 x Hx) as E. pose proof (V3 x (or_intror (V6 x Hx))) as Hg. apply (Permutation_in x P) in Hg. apply in_app_iff in Hg.
  assert (Rt : exists l, pt_reach N (fl_tr (y_f s) x) l).
  { destruct Hg as [Hg|Hg]; [exists (y_lv s x); exact (tk_reach _ _ _ (fo_tk _ _ _ _ _ Ok x Hg))|exists []; exact (proj2 (fo_freed _ _ _ _ _ Ok x Hg))]. }
  destruct Rt as (l & Rt). destruct (released_pages_exact N _ l ltac:(lia) Rt) as (_ & B & _ & D). split; [unfold released; rewrite <- B; assumption|].
  intros j Hj. destruct (released_page (fl_tr (y_f s) x) j) eqn:Er; [|reflexivity]. assert (T : pt_released (fl_tr (y_f s) x) = true) by (apply D; eauto).
  unfold pt_released in T. rewrite E in T. discriminate.
Qed.
Print Assumptions treatment_collapse_safe.

(** A pass chooses at most 64 hugepages of each sort, among those that are due, and no better one is left out; and only then is anything
    excluded.  Choosing changes no page. *)
Theorem treatment_selection : forall N M c s s', sizes_ok N M -> treat_reach N M c s -> y_phase s = PIdle -> pass_step N M c s s' ->
  exists g now, y_phase s' = PPass g /\ g_done g = [] /\ g_busy g = None /\
    NoDup (g_todo g) /\ Z.of_nat (length (g_todo g)) <= 64 /\
    (forall x, In x (g_todo g) -> In x (y_own s) /\ due c now (y_info s x) /\ (tc_sub c = true \/ ~ all_released N c s x)) /\
    (forall x, In x (y_own s) -> due c now (y_info s x) -> (tc_sub c = true \/ ~ all_released N c s x) -> ~ In x (g_todo g) ->
       Z.of_nat (length (g_todo g)) = 64 /\ forall y, In y (g_todo g) -> as_worthy (y_f s) x y) /\
    NoDup (g_sampled g) /\ Z.of_nat (length (g_sampled g)) <= 64 /\
    (forall x, In x (g_sampled g) -> In x (y_own s) /\ pt_donated (fl_tr (y_f s) x) = false /\ due_sample c now (y_info s x) /\ ti_tagged (y_info s' x) = now) /\
    (forall x, In x (y_own s) -> pt_donated (fl_tr (y_f s) x) = false -> due_sample c now (y_info s x) -> In x (g_sampled g) \/ Z.of_nat (length (g_sampled g)) = 64) /\
    (forall x, ~ In x (g_sampled g) -> ti_tagged (y_info s' x) = ti_tagged (y_info s x)) /\
    fl_tr (y_f s') = fl_tr (y_f s) /\ y_own s' = y_own s /\ y_lv s' = y_lv s /\ y_given s' = y_given s.
Proof.
  intros N M c s s' (HN & HM & Hd) H Hp Hs. destruct (treat_tinv N M c s HN HM Hd H) as (A & [R P V1 V2 V3 V4 V5 V6 V7 V8]). pose proof (fl_reach_ok N _ _ _ _ HN R) as Ok.
  destruct Hs as [s asked now ls lu k1 info sampled k2 sel Hp' Es Eu Hs Ht|s g x l o out t Hp'|s g x l o t elapsed Hp'|s g x l o Hp'|s g x o t ok errno elapsed Hp'|s g os Hp']; try congruence.
  destruct (visited_sampled_ok N _ _ _ _ HN Ok) as (l1 & E1 & N1 & H1). rewrite Es in E1. injection E1 as <-.
  destruct (visited_unbacked_ok N _ (tc_sub c) _ _ _ HN Ok) as (l2 & E2 & N2 & H2). rewrite Eu in E2. injection E2 as <-.
  assert (Hk : Z.of_nat (length (@nil Z)) <= k_scan) by (cbn; unfold k_scan; lia).
  destruct (select_sampled_ok c now ls _ (y_info s) [] k1 info sampled Hs N1 Hk) as (A1 & A2 & A3 & A4 & A5 & _ & _ & A8).
  assert (T0 : tsel_inv (fl_tr (y_f s)) [] []) by (constructor; [assumption|congruence|intros ? ? []]).
  destruct (select_trackers_ok c now (fl_tr (y_f s)) (y_info s) k1 [] lu k2 sel Ht [] T0) as (d & Pd & [T1 T2 T3]). cbn [app] in Pd.
  assert (Hall : forall x, In x (y_own s) -> (forall d0, kind N (tc_sub c) (fl_tr (y_f s) x) <> LRel d0) <-> ~ all_released N c s x).
  { intros x Hx. unfold all_released. rewrite (kind_spec N _ _ _ _ x ltac:(lia) Ok Hx). split; [intros Q (d0 & E); exact (Q d0 E)|intros Q d0 E; apply Q; eauto]. }
  assert (Hdue : forall i, tr_eligible c now i = true <-> due c now i).
  { intros i. unfold tr_eligible, due. destruct (ti_backed i); [split; [discriminate|intros (Q & _); discriminate]|]. destruct (ti_valid i); cbn [negb]; [|split; auto].
    rewrite Z.ltb_lt. split; [auto|intros (_ & [Q|Q]); [discriminate|assumption]]. }
  assert (Nd : NoDup (sel ++ d)) by (apply (Permutation_NoDup Pd); apply NoDup_filter; assumption).
  unfold pass_start. destruct (if asked then should_backoff (y_max s) (y_cur s) else (false, y_cur s)) as [back cur]. eexists _, now. split; [reflexivity|].
  cbn [g_done g_busy g_todo g_sampled y_info y_f y_own y_lv y_given]. unfold k_scan in *.
  split; [reflexivity|]. split; [reflexivity|]. split; [exact (NoDup_app_l _ _ Nd)|]. split; [assumption|]. split; [|split; [|split; [assumption|split; [assumption|split; [|split; [|split]]]]]].
  - intros x Hx. assert (Hi : In x (filter (fun x => tr_eligible c now (y_info s x)) lu)) by (apply (Permutation_in x (Permutation_sym Pd)); apply in_app_iff; auto).
    apply filter_In in Hi. destruct Hi as (Hi & He). apply H2 in Hi. destruct Hi as (Ho & Hi). split; [assumption|]. split; [apply Hdue; assumption|]. rewrite <- Hall by assumption. assumption.
  - intros x Hx Hdx Hv Nx. assert (Hi : In x (sel ++ d)).
    { apply (Permutation_in x Pd). apply filter_In. split; [apply H2; split; [assumption|rewrite Hall; assumption]|apply Hdue; assumption]. }
    apply in_app_iff in Hi. destruct Hi as [Hi|Hi]; [contradiction|]. split.
    + assert (64 <= Z.of_nat (length sel)); [|lia]. apply T2. intros ->. destruct Hi.
    + intros y Hy. pose proof (T3 y x Hy Hi) as Q. unfold as_worthy, tkey in *. destruct (pt_dense (fl_tr (y_f s) x)), (pt_dense (fl_tr (y_f s) y)); lia.
  - intros x Hx. apply A3 in Hx. destruct Hx as [[]|(Hl & Hx)]. destruct (A4 x Hl Hx) as (B1 & B2). apply H1 in Hl. split; [tauto|]. split; [tauto|]. split; [split; assumption|].
    destruct (A8 x) as (_ & _ & _ & _ & ->). rewrite (proj2 (inb_In x sampled) Hx). reflexivity.
  - intros x Hx Hdn (B1 & B2). apply A5; auto. apply H1. auto.
  - intros x Hx. destruct (A8 x) as (_ & _ & _ & _ & ->). rewrite (proj2 (inb_false x sampled) Hx). reflexivity.
  - auto.
Qed.
Print Assumptions treatment_selection.

(** What was found about a hugepage while the lock was not held is acted upon when it is taken again. *)
Definition broken (M : Z) (c : tconf) (e : entry) : Prop :=
  some_marked M (o_swapped (e_obs e)) \/ tc_stale c = true /\ some_marked M (o_stale (e_obs e)).
Definition gone (N M : Z) (c : tconf) (e : entry) (j : Z) : Prop :=
  tc_sub c = true /\ forall i, 0 <= i < M -> overlap N M i j -> bit (o_unbacked (e_obs e)) i = true.
(** A look that found the hugepage not backed, and left it so. *)
Definition found_unbacked (e : entry) : Prop := o_huge (e_obs e) = Some false /\ worked e = false.
Definition pages_out (N : Z) (s : tsys) : Z := zsum (map (released N (y_f s)) (y_own s)).

Lemma pages_out_unmapped N c s : 1 < N -> fl_reach N (tc_sub c) (y_f s) (y_own s) (y_lv s) -> pages_out N s = fl_unmapped (y_f s).
Proof.
  intros HN R. pose proof (fl_reach_ok N _ _ _ _ HN R) as Ok. rewrite (fo_unmapped _ _ _ _ _ Ok). unfold pages_out, tsum. f_equal. apply map_ext_in.
  intros x Hx. apply (released_count N (tc_sub c) (y_f s) (y_own s) (y_lv s)); [lia|assumption|assumption].
Qed.

Lemma entry_unbacked M c enabled l e : log_ok M c enabled l -> In e l -> e_backed e = false <-> found_unbacked e.
Proof.
  intros L He. apply in_split in He. destruct He as (l1 & l2 & E). pose proof (L l1 e l2 E) as Q. unfold e_backed, found_unbacked, worked, tried in *. destruct (e_out e) as [| | |ok er el].
  - destruct (o_huge (e_obs e)) as [[|]|]; split; try discriminate; auto; intros (A & _); discriminate.
  - destruct (o_huge (e_obs e)) as [[|]|]; split; try discriminate; auto; intros (A & _); discriminate.
  - destruct (o_huge (e_obs e)) as [[|]|]; split; try discriminate; auto; intros (A & _); discriminate.
  - destruct (proj1 Q eq_refl) as (_ & A & _). tauto.
Qed.

Theorem treatment_recording : forall N M c s g os, sizes_ok N M -> 0 <= tc_slow c -> treat_reach N M c s -> y_phase s = PPass g -> g_todo g = [] -> g_busy g = None ->
  exists s', pass_step N M c s s' /\ s' = pass_finish N M c s g os /\ y_phase s' = PIdle /\
  (* those emptied meanwhile are given back, each once; the others stay *)
  y_own s' = y_own s /\ y_lv s' = y_lv s /\ Permutation (y_given s) (y_given s' ++ fl_freed (y_f s)) /\
  (* the pages released by this are all counted, and once *)
  let st := y_stats s' in
  pages_out N s' - pages_out N s = st_subreleased st + st_stale st + st_unbacked st /\
  fl_unaccounted (y_f s') - fl_unaccounted (y_f s) = pages_out N s' - pages_out N s /\
  0 <= st_subreleased st /\ 0 <= st_stale st /\ 0 <= st_unbacked st /\
  (0 < st_subreleased st -> exists e, In e (g_done g) /\ found_unbacked e /\ some_marked M (o_swapped (e_obs e))) /\
  (0 < st_stale st -> tc_stale c = true /\ exists e, In e (g_done g) /\ found_unbacked e /\ ~ some_marked M (o_swapped (e_obs e)) /\ some_marked M (o_stale (e_obs e))) /\
  (0 < st_unbacked st -> tc_sub c = true) /\
  (* hugepages that were not looked at, or are gone, are left alone *)
  (forall x, ~ In x (map e_x (g_done g)) \/ ~ In x (y_own s) -> fl_tr (y_f s') x = fl_tr (y_f s) x) /\
  (* of the others, exactly these pages are released *)
  (forall e, In e (g_done g) -> In (e_x e) (y_own s) ->
    y_info s' (e_x e) = TInfo (e_backed e) true (e_time e) (ti_sampled (y_info s (e_x e))) (ti_tagged (y_info s (e_x e))) /\
    (e_backed e = false <-> found_unbacked e) /\
    (tc_sub c = true -> e_backed e = true -> pt_unbroken (fl_tr (y_f s') (e_x e)) = true) /\
    forall j, 0 <= j < N ->
      (released_page (fl_tr (y_f s) (e_x e)) j = true -> released_page (fl_tr (y_f s') (e_x e)) j = true) /\
      (released_page (fl_tr (y_f s') (e_x e)) j = true ->
         released_page (fl_tr (y_f s) (e_x e)) j = true \/ found_unbacked e /\ ~ is_live (y_lv s (e_x e)) j /\ (broken M c e \/ gone N M c e j)) /\
      (found_unbacked e -> ~ is_live (y_lv s (e_x e)) j -> gone N M c e j -> released_page (fl_tr (y_f s') (e_x e)) j = true) /\
      (found_unbacked e -> ~ is_live (y_lv s (e_x e)) j -> broken M c e -> (forall i n, os (e_x e) i n = true) -> released_page (fl_tr (y_f s') (e_x e)) j = true)).
Proof.
  intros N M c s g os (HN & HM & Hd) Hsl H Hp Ht Hb. pose proof (treat_tinv N M c s HN HM Hd H) as T. pose proof (treat_hinv N M c s HN HM Hd Hsl H) as I.
  destruct (finish_ok N M c s g os HN HM Hd T Hp Ht Hb) as (mine & F). exists (pass_finish N M c s g os). split; [apply ps_restore; assumption|]. split; [reflexivity|].
  set (s' := pass_finish N M c s g os) in *. clearbody s'. destruct F as [F1 F2 F3 F4 F5 F6 F7 F8 F9 F10 F11 F12 F13 F14 F15 _ _ _].
  destruct (hi_pass _ _ _ I g Hp) as (a & p & _ & [_ _ Lg _ _ (Z1 & Z2 & Z3) _]). rewrite Z1, Z2, Z3 in *.
  assert (U : pages_out N s = fl_unmapped (y_f s)) by (apply (pages_out_unmapped N c); [assumption|apply T]).
  assert (U' : pages_out N s' = fl_unmapped (y_f s')) by (apply (pages_out_unmapped N c); [assumption|apply F1]).
  assert (Hfu : forall e, In e (g_done g) -> e_backed e = false <-> found_unbacked e) by (intros e; apply (entry_unbacked M c (g_enabled g)); assumption).
  assert (Hsw : forall e, found_unbacked e -> any_swapped N M e = true <-> some_marked M (o_swapped (e_obs e))) by (intros e (A & _); apply any_bits; assumption).
  assert (Hst : forall e, found_unbacked e -> any_stale N M e = true <-> some_marked M (o_stale (e_obs e))) by (intros e (A & _); apply any_bits; assumption).
  assert (Hbr : forall e, found_unbacked e -> trigger N M c e = true <-> broken M c e).
  { intros e He. unfold trigger, broken. rewrite Bool.orb_true_iff, Bool.andb_true_iff, (Hsw e He), (Hst e He). tauto. }
  assert (Hgo : forall e j, found_unbacked e -> 0 <= j < N -> (tc_sub c = true /\ bit (e_bits N M e (o_unbacked (e_obs e)) true) j = true) <-> gone N M c e j).
  { intros e j (A & _) Hj. unfold gone, e_bits, e_looked. rewrite A. cbn. destruct (scale_overlap M N (o_unbacked (e_obs e)) j HN HM Hd Hj) as (Q & _). rewrite Q. tauto. }
  split; [assumption|]. split; [assumption|]. split; [assumption|]. split; [assumption|]. cbv zeta. rewrite F15. cbn [stats_update st_subreleased st_stale st_unbacked]. rewrite U, U'.
  split; [lia|]. split; [lia|]. split; [lia|]. split; [lia|]. split; [lia|]. split; [|split; [|split; [|split]]].
  - intros Hpos. destruct (proj2 F12 ltac:(lia)) as (e & He & A & B). exists e. split; [assumption|]. apply (Hfu e He) in A. split; [assumption|]. apply Hsw; assumption.
  - intros Hpos. destruct (proj2 F13 ltac:(lia)) as (A0 & e & He & A & B & D). split; [assumption|]. exists e. split; [assumption|]. apply (Hfu e He) in A. split; [assumption|].
    split; [rewrite <- Hsw by assumption; congruence|apply Hst; assumption].
  - intros Hpos. apply F14. lia.
  - intros x [Hx|Hx]; [exact (proj1 (F7 x Hx))|]. destruct (in_dec Z.eq_dec x (map e_x (g_done g))) as [Hi|Hi]; [|exact (proj1 (F7 x Hi))].
    apply in_map_iff in Hi. destruct Hi as (e & <- & He). exact (ed_gone _ _ _ _ _ _ _ _ _ _ _ (F8 e He) Hx).
  - intros e He Ho. destruct (F8 e He) as [D1 D2 D3 D4 D5 D6 D7]. split; [auto|]. split; [auto|]. split; [intros Hs' Eb; exact (proj2 (D3 Ho Eb) Hs')|]. intros j Hj. split; [auto|]. split; [|split].
    + intros Hr. destruct (e_backed e) eqn:Eb; [left; rewrite <- (proj1 (D3 Ho eq_refl)); assumption|]. pose proof (proj1 (Hfu e He) Eb) as Fu.
      destruct (D4 Ho eq_refl j Hj Hr) as [Q|(Q1 & [Q2|Q2])]; [auto| |]; right; (split; [assumption|]); (split; [assumption|]); [left; apply Hbr; assumption|right; apply Hgo; assumption].
    + intros Fu Nl G. apply (Hgo e j Fu Hj) in G. destruct G as (G1 & G2). apply D6; auto. apply (Hfu e He). assumption.
    + intros Fu Nl B Ho'. apply D7; auto; [apply (Hfu e He)|apply Hbr]; assumption.
Qed.
Print Assumptions treatment_recording.

(** ** C55 *)

(** Every pass tries to collapse exactly the hugepages it should; passes that are skipped try none. *)
Theorem treatment_tries : forall N M c s, sizes_ok N M -> 0 <= tc_slow c -> treat_reach N M c s ->
  (forall a, In a (over s) -> log_ok M c (a_asked a && negb (a_skipped a)) (a_done a)) /\
  (forall g, y_phase s = PPass g -> exists a l, y_past s = a :: l /\ log_ok M c (a_asked a && negb (a_skipped a)) (g_done g) /\
     forall x o, g_busy g = Some (x, o) -> may_try M c (a_asked a && negb (a_skipped a)) (g_done g) o).
Proof.
  intros N M c s (HN & HM & Hd) Hsl H. pose proof (treat_hinv N M c s HN HM Hd Hsl H) as I. split.
  - intros a Ha. exact (proj1 (hi_log _ _ _ I a Ha)).
  - intros g Hp. destruct (hi_pass _ _ _ I g Hp) as (a & l & E & [P1 _ P3 _ _ _ P7]). exists a, l. fold (allowed a). rewrite <- P1. auto.
Qed.
Print Assumptions treatment_tries.

(** The reported statistics are those of the passes that are over. *)
Theorem treatment_statistics : forall N M c s, sizes_ok N M -> 0 <= tc_slow c -> treat_reach N M c s ->
  let all := flat_map a_done (over s) in let st := y_stats s in
  st_attempted st = count tried all /\ st_succeeded st = count worked all /\ (forall k, st_errors st k = count (failed k) all) /\
  st_attempted st = st_succeeded st + (st_errors st 0 + st_errors st 1 + st_errors st 2 + st_errors st 3 + st_errors st 4 + st_errors st 5) /\
  st_attempted st <= st_eligible st /\
  st_eligible st = zsum (map (fun a => if a_asked a && negb (a_skipped a) then Z.of_nat (length (a_done a)) else 0) (over s)) /\
  st_time st = zsum (map took all) /\ st_max st = longest all /\
  st_skipped st = count a_skipped (y_past s) /\
  st_total_unbacked st = zsum (map a_unb (over s)) /\
  match over s with
  | [] => st_subreleased st = 0 /\ st_unbacked st = 0 /\ st_stale st = 0
  | a :: _ => st_subreleased st = a_sub a /\ st_unbacked st = a_unb a /\ st_stale st = a_stale a
  end.
Proof.
  intros N M c s (HN & HM & Hd) Hsl H all st. destruct (treat_hinv N M c s HN HM Hd Hsl H) as [_ _ _ _ Hlog _ (C1 & C2 & C3 & C4 & C5) He Hto Hsk Hla].
  fold all in C1, C2, C3, C4, C5. fold st in C1, C2, C3, C4, C5, He, Hto, Hsk, Hla.
  split; [assumption|]. split; [assumption|]. split; [assumption|]. split; [|split; [|split; [|split; [assumption|split; [assumption|split; [assumption|split; [assumption|]]]]]]].
  - rewrite C1, C2, !C3. clear. induction all as [|e l IH]; [reflexivity|]. rewrite !count_cons, IH. clear IH.
    generalize (count tried l) (count worked l) (count (failed 0) l) (count (failed 1) l) (count (failed 2) l) (count (failed 3) l) (count (failed 4) l) (count (failed 5) l). intros.
    unfold tried, worked, failed. destruct (e_out e) as [| | |[|] er el]; try lia. rewrite <- !error_index_kind. assert (Hr : 0 <= error_index er <= 5).
    { unfold error_index. repeat match goal with |- context [if ?b then _ else _] => destruct b end; lia. }
    assert (Hc : error_index er = 0 \/ error_index er = 1 \/ error_index er = 2 \/ error_index er = 3 \/ error_index er = 4 \/ error_index er = 5) by lia.
    destruct Hc as [-> |[-> |[-> |[-> |[-> | ->]]]]]; cbn; lia.
  - rewrite C1, He. subst all. clear - Hlog. induction (over s) as [|a l IH]; [cbv; discriminate|]. cbn [flat_map map zsum]. rewrite count_app. destruct (Hlog a (or_introl eq_refl)) as (L & ->).
    assert (IH' : count tried (flat_map a_done l) <= zsum (map a_eligible l)) by (apply IH; intros b Hb; apply Hlog; right; assumption).
    assert (Hc : count tried (a_done a) <= if allowed a then Z.of_nat (length (a_done a)) else 0); [|lia]. destruct (allowed a).
    + unfold count. assert (Q : (length (filter tried (a_done a)) <= length (a_done a))%nat); [|lia]. generalize (a_done a). intros q. induction q as [|y q IHq]; cbn; [lia|destruct (tried y); cbn; lia].
    + unfold count. destruct (filter tried (a_done a)) as [|e q] eqn:Ef; [cbn; lia|]. exfalso. assert (Hi : In e (filter tried (a_done a))) by (rewrite Ef; left; reflexivity).
      apply filter_In in Hi. destruct Hi as (Hi & Te). apply in_split in Hi. destruct Hi as (l1 & l2 & El). apply (L l1 e l2 El) in Te. exact (may_try_false _ _ _ _ Te).
  - rewrite He. f_equal. apply map_ext_in. intros a Ha. exact (proj2 (Hlog a Ha)).
  - destruct (over s); tauto.
Qed.
Print Assumptions treatment_statistics.

(** Which passes that were asked to collapse are skipped: the wait after a pass, counted in passes, depends on how long its collapses
    took, and never are 128 in a row skipped. *)
Theorem treatment_waits : forall N M c s, sizes_ok N M -> 0 <= tc_slow c -> treat_reach N M c s ->
  (forall later a before, y_past s = later ++ a :: before -> a_skipped a = a_asked a && (skipped_last before + 1 <? wait_after c before)) /\
  1 <= wait_after c (over s) <= 128 /\ skipped_last (y_past s) < wait_after c (over s).
Proof.
  intros N M c s (HN & HM & Hd) Hsl H. destruct (treat_hinv N M c s HN HM Hd Hsl H) as [I1 I2 I3 I4 _ _ _ _ _ _ _]. split; [assumption|]. rewrite <- I2, <- I3. split; lia.
Qed.
Print Assumptions treatment_waits.

(** ** A concrete history: hugepages 7 and 9; 9 has swapped pages and is not collapsed, 7 is emptied by another thread while it is being collapsed *)
Definition xt_c : tconf := TConf true false true 300 2000 100.
Definition xt_add (s : tsys) (x n : Z) (sampled : bool) : tsys :=
  with_info (with_fill s (let f := fl_contribute 256 true (y_f s) x (ex_new false n) false false in
                          set_collapsing (set_keep f (upd (fl_keep f) x 0)) (upd (fl_collapsing f) x false))
               (x :: y_own s) (upd (y_lv s) x [((0, n), 1)]) (x :: y_given s))
    (upd (y_info s) x (TInfo false false 0 sampled 0)).
Definition xt_swapped : words := fun i => if i <? 3 then 2 ^ 64 - 1 else 0.
Definition xt_o9 : obs := Obs (Some false) clear_all xt_swapped clear_all.
Definition xt_o7 : obs := Obs (Some false) clear_all clear_all clear_all.
Definition xt2 : tsys := xt_add (xt_add (sys_init (fun _ => pt_new 256 false) (fun _ => TInfo false false 0 false 0)) 7 3 true) 9 200 false.
Definition xt_sel : (Z -> Z) * (Z -> tinfo) * list Z := select_sampled xt_c 1000 (fl_keep (y_f xt2)) (y_info xt2) [] [9; 7].
Definition xt3 : tsys := pass_start xt2 true (keep_set (keep_set (fst (fst xt_sel)) 9 k_collapse) 7 k_collapse) (snd (fst xt_sel)) (snd xt_sel) [9; 7].
Definition xt_g3 : pass := match y_phase xt3 with PPass g => g | _ => Pass [] [] None [] stats_zero false end.
Definition xt_e9 : entry := Entry 9 xt_o9 TSkipped 1001.
Definition xt_g4 : pass := Pass (g_sampled xt_g3) [7] None [xt_e9] (g_stats xt_g3) (g_enabled xt_g3).
Definition xt4 : tsys := with_phase xt3 (y_f xt3) (PPass xt_g4).
Definition xt_g5 : pass := Pass (g_sampled xt_g4) [] (Some (7, xt_o7)) (g_done xt_g4) (g_stats xt_g4) (g_enabled xt_g4).
Definition xt5 : tsys := with_phase xt4 (set_collapsing (y_f xt4) (upd (fl_collapsing (y_f xt4)) 7 true)) (PPass xt_g5).
Definition xt_f6 : filler := match fl_put 256 true (y_f xt5) 7 0 3 1 true with Some (f, _) => f | None => y_f xt5 end.
Definition xt6 : tsys := with_fill xt5 xt_f6 [9] (upd (y_lv xt5) 7 []) (y_given xt5).
Definition xt_e7 : entry := Entry 7 xt_o7 (TTried true 0 150) 1002.
Definition xt_g7 : pass := Pass (g_sampled xt_g5) [] None [xt_e9; xt_e7] (count_collapse (g_stats xt_g5) true 0 150) (g_enabled xt_g5).
Definition xt7 : tsys := with_phase xt6 (set_collapsing (y_f xt6) (upd (fl_collapsing (y_f xt6)) 7 false)) (PPass xt_g7).
Definition xt8 : tsys := pass_finish 256 512 xt_c xt7 xt_g7 (fun _ _ _ => true).

Lemma xt_add_reach s x n sampled : treat_reach 256 512 xt_c s -> y_phase s <> PCrash -> ~ In x (y_given s) -> 0 < n <= 256 ->
  match pt_get 256 (pt_new 256 false) n 1 with Some (_, i, _) => i | None => -1 end = 0 -> treat_reach 256 512 xt_c (xt_add s x n sampled).
Proof.
  intros R Hp Hx Hn E. apply (tr_other _ _ _ s); [assumption|assumption|]. destruct (ex_new_get false n Hn) as (i & u & Eg). rewrite Eg in E. subst i.
  apply (ot_contribute 256 (tc_sub xt_c) s x false false n 1 (ex_new false n) 0 u sampled 0); [assumption|lia|assumption|discriminate|discriminate].
Qed.

Example ex_treatment :
  treat_reach 256 512 xt_c xt6 /\ y_phase xt6 = PPass xt_g5 /\ g_busy xt_g5 = Some (7, xt_o7) /\ fl_freed (y_f xt6) = [7] /\ y_given xt6 = [9; 7] /\
  treat_reach 256 512 xt_c xt7 /\ y_phase xt7 = PPass xt_g7 /\ g_todo xt_g7 = [] /\ g_busy xt_g7 = None /\
  treat_reach 256 512 xt_c xt8 /\ y_phase xt8 = PIdle /\ y_given xt8 = [9] /\ y_own xt8 = [9] /\
  pages_out 256 xt7 = 0 /\ pages_out 256 xt8 = 56 /\ st_subreleased (y_stats xt8) = 56 /\ st_eligible (y_stats xt8) = 2 /\ st_attempted (y_stats xt8) = 1 /\
  st_succeeded (y_stats xt8) = 1 /\ st_max (y_stats xt8) = 150 /\ st_skipped (y_stats xt8) = 0 /\ snd xt_sel = [7].
Proof.
  assert (R2 : treat_reach 256 512 xt_c xt2).
  { unfold xt2. apply xt_add_reach; [|discriminate|intros [E|[]]; discriminate|lia|vm_compute; reflexivity].
    apply xt_add_reach; [apply tr_init|discriminate|intros []|lia|vm_compute; reflexivity]. }
  assert (R3 : treat_reach 256 512 xt_c xt3).
  { apply (tr_pass _ _ _ xt2); [assumption|]. apply (ps_start 256 512 xt_c xt2 true 1000 [9; 7] [9; 7] (fst (fst xt_sel)) (snd (fst xt_sel)) (snd xt_sel)); [reflexivity|vm_compute; reflexivity|vm_compute; reflexivity| |].
    - unfold xt_sel. destruct (select_sampled _ _ _ _ _ _) as [[a b] d]. reflexivity.
    - eapply se_push; [vm_compute; reflexivity|apply pu_room; vm_compute; reflexivity|]. eapply se_push; [vm_compute; reflexivity|apply pu_room; vm_compute; reflexivity|]. apply se_nil. }
  assert (P3 : y_phase xt3 = PPass xt_g3) by reflexivity.
  assert (R4 : treat_reach 256 512 xt_c xt4).
  { apply (tr_pass _ _ _ xt3); [assumption|]. exact (ps_look 256 512 xt_c xt3 xt_g3 9 [7] xt_o9 TSkipped 1001 P3 eq_refl eq_refl ltac:(vm_compute; reflexivity)). }
  assert (R5 : treat_reach 256 512 xt_c xt5).
  { apply (tr_pass _ _ _ xt4); [assumption|]. assert (C : fl_collapsing (y_f xt4) 7 = false) by (vm_compute; reflexivity).
    pose proof (ps_begin 256 512 xt_c xt4 xt_g4 7 [] xt_o7 eq_refl eq_refl eq_refl ltac:(vm_compute; reflexivity) ltac:(vm_compute; reflexivity)) as S. rewrite C in S. exact S. }
  assert (R6 : treat_reach 256 512 xt_c xt6).
  { apply (tr_other _ _ _ xt5); [assumption|discriminate|].
    assert (E : match fl_put 256 true (y_f xt5) 7 0 3 1 true with Some (_, r) => r | None => Some 0 end = None) by (vm_compute; reflexivity).
    assert (E' : fl_put 256 true (y_f xt5) 7 0 3 1 true = Some (xt_f6, None)) by (unfold xt_f6; destruct (fl_put 256 true (y_f xt5) 7 0 3 1 true) as [[f r]|]; [subst r; reflexivity|discriminate]).
    exact (ot_put 256 true xt5 7 [] 0 3 1 [] true xt_f6 None (or_intror (or_introl eq_refl)) eq_refl E'). }
  assert (R7 : treat_reach 256 512 xt_c xt7).
  { apply (tr_pass _ _ _ xt6); [assumption|]. assert (C : pt_released (fl_tr (y_f xt6) 7) = false) by (vm_compute; reflexivity).
    pose proof (ps_end 256 512 xt_c xt6 xt_g5 7 xt_o7 1002 true 0 150 eq_refl eq_refl) as S. rewrite C in S. exact S. }
  assert (R8 : treat_reach 256 512 xt_c xt8).
  { apply (tr_pass _ _ _ xt7); [assumption|]. apply (ps_restore 256 512 xt_c xt7 xt_g7); reflexivity. }
  split; [assumption|]. split; [reflexivity|]. split; [reflexivity|]. split; [vm_compute; reflexivity|]. split; [reflexivity|]. split; [assumption|]. split; [reflexivity|]. split; [reflexivity|]. split; [reflexivity|]. split; [assumption|].
  split; [vm_compute; reflexivity|]. split; [vm_compute; reflexivity|]. repeat split; vm_compute; reflexivity.
Qed.

(** ** C56 *)

(** "A page that is counted as released was given to the OS, or found to be without memory, after the application last had it" is false:
    what was found about the hugepage may be out of date when it is recorded.  Here the application has page [j] after the look, and
    the OS takes no page afterwards, yet [j] is counted as released. *)
Definition xr_o : obs := Obs (Some false) (fun i => if i <? 6 then 0 else 2 ^ 64 - 1) clear_all clear_all.
Definition xr1 : tsys := xt_add (sys_init (fun _ => pt_new 256 false) (fun _ => TInfo false false 0 false 0)) 9 200 false.
Definition xr2 : tsys := pass_start xr1 false (keep_set (fl_keep (y_f xr1)) 9 k_collapse) (y_info xr1) [] [9].
Definition xr_g2 : pass := match y_phase xr2 with PPass g => g | _ => Pass [] [] None [] stats_zero false end.
Definition xr_e : entry := Entry 9 xr_o TLeft 1001.
Definition xr_g3 : pass := Pass (g_sampled xr_g2) [] None [xr_e] (g_stats xr_g2) (g_enabled xr_g2).
Definition xr3 : tsys := with_phase xr2 (y_f xr2) (PPass xr_g3).
Definition xr_f4 : filler := match try_get 256 true (y_f xr3) 10 false 1 with Some (f, _) => f | None => y_f xr3 end.
Definition xr4 : tsys := with_fill xr3 xr_f4 [9] (upd (y_lv xr3) 9 (((200, 10), 1) :: y_lv xr3 9)) [9].
Definition xr_f5 : filler := match fl_put 256 true (y_f xr4) 9 200 10 1 true with Some (f, _) => f | None => y_f xr4 end.
Definition xr5 : tsys := with_fill xr4 xr_f5 [9] (upd (y_lv xr4) 9 (y_lv xr3 9)) [9].

Theorem treatment_released_is_unbacked_refuted : ~ (forall N M c s1 s2 s3 g e j, sizes_ok N M -> 0 <= tc_slow c ->
  treat_reach N M c s1 -> y_phase s1 = PPass g -> g_todo g = [] -> g_busy g = None -> In e (g_done g) ->
  released_page (fl_tr (y_f s1) (e_x e)) j = false ->
  other_step N (tc_sub c) s1 s2 -> is_live (y_lv s2 (e_x e)) j -> other_step N (tc_sub c) s2 s3 ->
  (* recording, with every call that would give pages to the OS failing *)
  released_page (fl_tr (y_f (pass_finish N M c s3 g (fun _ _ _ => false))) (e_x e)) j = false).
Proof.
  intros H.
  assert (R1 : treat_reach 256 512 xt_c xr1).
  { unfold xr1. apply xt_add_reach; [apply tr_init|discriminate|intros []|lia|vm_compute; reflexivity]. }
  assert (R2 : treat_reach 256 512 xt_c xr2).
  { apply (tr_pass _ _ _ xr1); [assumption|]. apply (ps_start 256 512 xt_c xr1 false 1000 [9] [9] (fl_keep (y_f xr1)) (y_info xr1) []); [reflexivity|vm_compute; reflexivity|vm_compute; reflexivity|reflexivity|].
    eapply se_push; [vm_compute; reflexivity|apply pu_room; vm_compute; reflexivity|]. apply se_nil. }
  assert (R3 : treat_reach 256 512 xt_c xr3).
  { apply (tr_pass _ _ _ xr2); [assumption|]. exact (ps_look 256 512 xt_c xr2 xr_g2 9 [] xr_o TLeft 1001 eq_refl eq_refl eq_refl ltac:(vm_compute; reflexivity)). }
  assert (S4 : other_step 256 true xr3 xr4).
  { assert (E : match try_get 256 true (y_f xr3) 10 false 1 with Some (_, r) => r | None => None end = Some (9, 200, false)) by (vm_compute; reflexivity).
    assert (E' : try_get 256 true (y_f xr3) 10 false 1 = Some (xr_f4, Some (9, 200, false))) by (unfold xr_f4; destruct (try_get 256 true (y_f xr3) 10 false 1) as [[f r]|]; [subst r; reflexivity|discriminate]).
    exact (ot_get 256 true xr3 10 false 1 xr_f4 9 200 false ltac:(lia) ltac:(discriminate) E'). }
  assert (S5 : other_step 256 true xr4 xr5).
  { assert (E : match fl_put 256 true (y_f xr4) 9 200 10 1 true with Some (_, r) => r | None => Some 0 end = None) by (vm_compute; reflexivity).
    assert (E' : fl_put 256 true (y_f xr4) 9 200 10 1 true = Some (xr_f5, None)) by (unfold xr_f5; destruct (fl_put 256 true (y_f xr4) 9 200 10 1 true) as [[f r]|]; [subst r; reflexivity|discriminate]).
    exact (ot_put 256 true xr4 9 [] 200 10 1 (y_lv xr3 9) true xr_f5 None (or_introl eq_refl) eq_refl E'). }
  assert (Hl : is_live (y_lv xr4 9) 205).
  { exists ((200, 10), 1). split; [left; reflexivity|]. clear. unfold in_rng. cbn [fst snd]. split; [discriminate|reflexivity]. }
  specialize (H 256 512 xt_c xr3 xr4 xr5 xr_g3 xr_e 205 ltac:(unfold sizes_ok; repeat split; try lia; right; reflexivity) ltac:(cbn; lia) R3 eq_refl eq_refl eq_refl (or_introl eq_refl) ltac:(vm_compute; reflexivity) S4 Hl S5).
  assert (T : released_page (fl_tr (y_f (pass_finish 256 512 xt_c xr5 xr_g3 (fun _ _ _ => false))) 9) 205 = true) by (vm_compute; reflexivity). cbn [xr_e e_x] in H. congruence.
Qed.
Print Assumptions treatment_released_is_unbacked_refuted.
