(** The invariant of the page allocator (Hpaa.v), and how each of its parts preserves it. *)
From Coq Require Import Permutation.
From Verif Require Import Base Bitmap RangeTrackerProofs2 RangeTrackerProps PageTracker PageTrackerProps HugeRegion HugeRegionProps HugeRegionSetProps HintedLists HintedListsProofs Filler FillerProofs2 FillerProofs3 FillerProofs4 FillerProps.
From Verif Require Import HugeAddressMap HugeAddressMapProps HugeAllocator HugeAllocatorProps HugeCache HugeCacheProps Hpaa.

(** A live range: its first page, its length, the objects per span it was asked for with, and whether the rest of its
    last hugepage was donated to the filler. *)
Record span := Span { sp_page : Z; sp_len : Z; sp_obj : Z; sp_don : bool }.
Definition span_dec (x y : span) : {x = y} + {x <> y}.
Proof. decide equality; (apply Z.eq_dec || apply Bool.bool_dec). Defined.
Definition run : Type := Z * (Z * Z * Z).
Definition run_dec (x y : run) : {x = y} + {x <> y}.
Proof. repeat decide equality. Defined.

(** Permutations by counting. *)
Ltac pcnt ty dec :=
  let z := fresh "z" in
  apply (Permutation_count_occ dec); intro z;
  repeat match goal with H : @Permutation ty _ _ |- _ => apply (proj1 (Permutation_count_occ dec _ _)) with (x := z) in H end;
  repeat rewrite ?map_app, ?flat_map_app, ?count_occ_app in *; cbn [map flat_map app count_occ] in *; repeat rewrite ?count_occ_app in *;
  repeat match goal with |- context[if dec ?u ?v then _ else _] => destruct (dec u v) | H : context[if dec ?u ?v then _ else _] |- _ => destruct (dec u v) end; lia.
Ltac pz := pcnt Z Z.eq_dec.
Ltac ps := pcnt span span_dec.
Ltac pr := pcnt run run_dec.

(** The runs the filler has handed out, with their hugepages. *)
Definition abs (own : list Z) (lv : Z -> list (Z * Z * Z)) : list run := flat_map (fun x => map (pair x) (lv x)) own.
Lemma abs_upd_out own lv x l : ~ In x own -> abs own (upd lv x l) = abs own lv.
Proof.
  intros H. unfold abs. induction own as [|y own IH]; cbn [flat_map]; [reflexivity|]. rewrite upd_other by (intros ->; apply H; left; reflexivity).
  rewrite IH; [reflexivity|]. intros Hi. apply H. right. assumption.
Qed.
Lemma abs_perm own own' lv : Permutation own own' -> Permutation (abs own lv) (abs own' lv).
Proof. intros H. unfold abs. apply Permutation_flat_map. assumption. Qed.
Lemma abs_take own lv x : In x own -> Permutation (abs own lv) (map (pair x) (lv x) ++ abs (rem1 x own) lv).
Proof. intros H. rewrite (abs_perm _ _ lv (rem1_perm x own H)). reflexivity. Qed.
Lemma abs_change own lv x l : NoDup own -> In x own -> Permutation (abs own (upd lv x l)) (map (pair x) l ++ abs (rem1 x own) lv).
Proof.
  intros ND H. rewrite (abs_take own _ x H), upd_same, abs_upd_out; [reflexivity|]. apply (rem1_NoDup x own ND).
Qed.
Lemma abs_In own lv x r : In (x, r) (abs own lv) <-> In x own /\ In r (lv x).
Proof.
  unfold abs. rewrite in_flat_map. split.
  - intros (y & Hy & H). apply in_map_iff in H. destruct H as (q & [= <- <-] & Hq). auto.
  - intros (A & B). exists x. split; [assumption|]. apply in_map. assumption.
Qed.

(** A span in one hugepage as a run of the filler; the part of a span of whole hugepages that the filler holds; the
    whole hugepages of it; the hugepage its last page is on. *)
Definition key (P : Z) (s : span) : run := (sp_page s / P, ((sp_page s mod P, sp_len s), sp_obj s)).
Definition tail (P : Z) (s : span) : list run :=
  if sp_len s mod P =? 0 then [] else [(sp_page s / P + sp_len s / P, ((0, sp_len s mod P), sp_obj s))].
Definition whole (P : Z) (s : span) : list Z := pages_of (sp_page s / P, sp_len s / P).
Definition last_hp (P : Z) (s : span) : Z := (sp_page s + sp_len s - 1) / P.
Definition rng (s : span) : Z * Z := (sp_page s, sp_len s).
Definition region_pages (K : Z) (ls : list Z) : list Z := flat_map (fun l => pages_of (l, K)) ls.
Definition count_if (b : Z -> bool) (g : Z -> Z) (l : list Z) : Z := zsum (map (fun x => if b x then g x else 0) l).

(** [L]: the live ranges.  [T]: hugepages whose tracker is in the pagemap, though the filler has let go of it.
    [X]: hugepages in nobody's hands.  [Q]: runs of the filler that belong to no range.  These three are empty between
    operations, but for hugepages held while the lock is dropped.  [FL], [G]: as in HugeCacheProps.v.  The spans are
    in the filler ([F]), in regions ([R]) and on hugepages of their own ([W]). *)
Record hcore (P K : Z) (sub : bool) (a : hpaa) (L : list span) (T X : list Z) (Q : list run) (FL G : list hrange)
    (own : list Z) (lv : Z -> list (Z * Z * Z)) (U D : list Z) (rl : list (Z * Z)) (un : Z -> bool) (lo : Z) (F R W : list span) : Prop := {
  v_fl : fl_reach P sub (hp_filler a) own lv;
  v_hc : reach_hc (hp_cache a) U D FL G;
  v_rs : rs_reach P K (hp_regions a) rl un lo;
  v_dir : Permutation D (region_pages K (locs (hp_regions a)));
  v_use : Permutation U (own ++ fl_freed (hp_filler a) ++ T ++ X ++ flat_map (whole P) W);
  v_live : Permutation L (F ++ R ++ W);
  v_runs : Permutation (abs own lv) (map (key P) F ++ flat_map (tail P) W ++ Q);
  v_reg : Permutation rl (map rng R);
  v_raw : forall s, In s W -> sp_page s mod P = 0 /\ P <= sp_len s /\ sp_don s = negb (sp_len s mod P =? 0);
  v_rdon : forall s, In s R -> sp_don s = false;
  v_tr : forall x, hp_tracker a x = true <-> In x (own ++ fl_freed (hp_filler a) ++ T);
  v_don : hp_donated a = count_if (hp_was_donated a) (fun _ => 1) (own ++ fl_freed (hp_filler a) ++ T);
  v_abp : hp_ab_pages a = count_if (hp_abandoned a) (hp_ab_count a) (own ++ fl_freed (hp_filler a) ++ T);
  v_ab : forall x, In x (own ++ fl_freed (hp_filler a) ++ T) -> hp_abandoned a x = true -> hp_was_donated a x = true;
  v_last : forall s, In s L -> sp_don s = true -> hp_was_donated a (last_hp P s) = true /\ hp_abandoned a (last_hp P s) = false;
  v_nd : NoDup (map (last_hp P) (filter sp_don L)) }.
Definition hinv (P K : Z) (sub : bool) (a : hpaa) (L : list span) (T X : list Z) (Q : list run) (FL G : list hrange) : Prop :=
  exists own lv U D rl un lo F R W, hcore P K sub a L T X Q FL G own lv U D rl un lo F R W.

Ltac hred := cbn [hp_filler hp_cache hp_regions hp_tracker hp_was_donated hp_ab_count hp_abandoned hp_donated hp_ab_pages hp_small hp_slack
  hp_set_filler hp_set_cache hp_set_regions hp_set_tracker hp_set_was_donated hp_set_ab_count hp_set_abandoned hp_set_donated hp_set_ab_pages hp_set_info].

Lemma count_if_app b g l l' : count_if b g (l ++ l') = count_if b g l + count_if b g l'.
Proof. unfold count_if. rewrite map_app. apply zsum_app. Qed.
Lemma count_if_cons b g x l : count_if b g (x :: l) = (if b x then g x else 0) + count_if b g l.
Proof. reflexivity. Qed.
Lemma zsum_perm l l' : Permutation l l' -> zsum l = zsum l'.
Proof. induction 1; rewrite ?zsum_cons; lia. Qed.
Lemma count_if_perm b g l l' : Permutation l l' -> count_if b g l = count_if b g l'.
Proof. intros H. unfold count_if. apply zsum_perm. apply Permutation_map. assumption. Qed.
Lemma count_if_ext b b' g g' l : (forall x, In x l -> b x = b' x /\ (b x = true -> g x = g' x)) -> count_if b g l = count_if b' g' l.
Proof.
  intros H. unfold count_if. f_equal. apply map_ext_in. intros x Hx. destruct (H x Hx) as (E & Eg). rewrite <- E. destruct (b x); [apply Eg|]; reflexivity.
Qed.
Lemma zseq_one x : pages_of (x, 1) = [x].
Proof. reflexivity. Qed.

(** ** What the invariant says about hugepages *)
Lemma core_nodup P K sub a L T X Q FL G own lv U D rl un lo F R W : hcore P K sub a L T X Q FL G own lv U D rl un lo F R W ->
  NoDup (own ++ fl_freed (hp_filler a) ++ T ++ X ++ flat_map (whole P) W ++ D) /\
  forall x, In x (own ++ fl_freed (hp_filler a) ++ T ++ X ++ flat_map (whole P) W ++ D) -> 1 <= x /\ In x (hps G).
Proof.
  intros C. destruct (huge_cache_conserves _ _ _ _ _ (v_hc _ _ _ _ _ _ _ _ _ _ _ _ _ _ _ _ _ _ _ _ C)) as (ND & Pm & _).
  pose proof (i_pos _ _ _ _ _ (reach_hc_inv _ _ _ _ _ (v_hc _ _ _ _ _ _ _ _ _ _ _ _ _ _ _ _ _ _ _ _ C))) as Hp.
  pose proof (v_use _ _ _ _ _ _ _ _ _ _ _ _ _ _ _ _ _ _ _ _ C) as Pu.
  set (A := own ++ fl_freed (hp_filler a) ++ T ++ X ++ flat_map (whole P) W ++ D).
  assert (Pa : Permutation (hps G) (A ++ cached (hp_cache a) ++ unbacked (hp_cache a) ++ hps FL)).
  { rewrite Pm, Pu. unfold A. rewrite <- !app_assoc. reflexivity. }
  rewrite Pa in ND. apply NoDup_app_iff in ND. split; [apply ND|]. intros x Hx.
  assert (Hg : In x (hps G)) by (rewrite Pa; apply in_or_app; auto). split; [apply Hp|]; assumption.
Qed.

Lemma hinv_perm P K sub a L L' T T' X X' Q Q' FL G : Permutation L L' -> Permutation T T' -> Permutation X X' -> Permutation Q Q' ->
  hinv P K sub a L T X Q FL G -> hinv P K sub a L' T' X' Q' FL G.
Proof.
  intros PL PT PX PQ (own & lv & U & D & rl & un & lo & F & R & W & C). destruct C. exists own, lv, U, D, rl, un, lo, F, R, W. constructor; try assumption.
  - rewrite v_use0, PT, PX. reflexivity.
  - rewrite <- PL. assumption.
  - rewrite v_runs0, PQ. reflexivity.
  - intros x. rewrite v_tr0. split; intros H; [rewrite <- PT|rewrite PT]; assumption.
  - rewrite v_don0. apply count_if_perm. rewrite PT. reflexivity.
  - rewrite v_abp0. apply count_if_perm. rewrite PT. reflexivity.
  - intros x Hx. apply v_ab0. rewrite PT. assumption.
  - intros s Hs. apply v_last0. rewrite PL. assumption.
  - assert (Pf : Permutation (map (last_hp P) (filter sp_don L)) (map (last_hp P) (filter sp_don L'))).
    { apply Permutation_map. clear - PL. induction PL; cbn [filter]; [constructor| | |etransitivity; eassumption].
      - destruct (sp_don x); [constructor|]; assumption.
      - destruct (sp_don x), (sp_don y); try constructor; reflexivity. }
    rewrite <- Pf. assumption.
Qed.

Ltac cdest H := destruct H as (own & lv & U & D & rl & un & lo & F & R & W & C).
Ltac cex own lv U D rl un lo F R W := exists own, lv, U, D, rl, un, lo, F, R, W.

(** What stays the same when only the parts change. *)
Definition same_info (a a' : hpaa) : Prop := hp_small a' = hp_small a /\ hp_slack a' = hp_slack a.
Lemma hinv_record P K sub sign a n L T X Q FL G : hinv P K sub a L T X Q FL G -> hinv P K sub (record P sign a n) L T X Q FL G.
Proof. intros H. cdest H. cex own lv U D rl un lo F R W. unfold record. destruct (n <=? P / 2); destruct C; constructor; hred; assumption. Qed.

Lemma last_one P p n : 0 < P -> 0 < n -> p mod P + n <= P -> (p + n - 1) / P = p / P.
Proof.
  intros HP Hn H. pose proof (Z.mod_pos_bound p P HP). symmetry. apply (Z.div_unique _ _ _ (p mod P + n - 1)); [lia|]. pose proof (Z.div_mod p P). lia.
Qed.
Lemma last_raw P p n : 0 < P -> p mod P = 0 -> n mod P <> 0 -> (p + n - 1) / P = p / P + n / P.
Proof.
  intros HP Hp Hn. pose proof (Z.mod_pos_bound n P HP). symmetry. apply (Z.div_unique _ _ _ (n mod P - 1)); [lia|]. pose proof (Z.div_mod p P). pose proof (Z.div_mod n P). lia.
Qed.

Lemma core_F P K sub a L T X Q FL G own lv U D rl un lo F R W s : 1 < P -> hcore P K sub a L T X Q FL G own lv U D rl un lo F R W -> In s F ->
  In (sp_page s / P) own /\ 0 < sp_len s /\ sp_page s mod P + sp_len s <= P.
Proof.
  intros HP C Hs. assert (Hk : In (key P s) (abs own lv)) by (rewrite (v_runs _ _ _ _ _ _ _ _ _ _ _ _ _ _ _ _ _ _ _ _ C); apply in_or_app; left; apply in_map; assumption).
  apply abs_In in Hk. destruct Hk as (A & B). split; [assumption|].
  destruct (filler_runs_disjoint P sub _ _ _ HP (v_fl _ _ _ _ _ _ _ _ _ _ _ _ _ _ _ _ _ _ _ _ C)) as (_ & H). specialize (H _ _ A B). cbn [fst snd] in H. lia.
Qed.
Lemma core_tail P K sub a L T X Q FL G own lv U D rl un lo F R W s : hcore P K sub a L T X Q FL G own lv U D rl un lo F R W -> In s W ->
  sp_len s mod P <> 0 -> In (sp_page s / P + sp_len s / P) own.
Proof.
  intros C Hs Hm. assert (Hk : In (sp_page s / P + sp_len s / P, ((0, sp_len s mod P), sp_obj s)) (abs own lv)).
  { rewrite (v_runs _ _ _ _ _ _ _ _ _ _ _ _ _ _ _ _ _ _ _ _ C). apply in_or_app. right. apply in_or_app. left. apply in_flat_map. exists s. split; [assumption|].
    unfold tail. destruct (Z.eqb_spec (sp_len s mod P) 0); [contradiction|]. left. reflexivity. }
  apply abs_In in Hk. apply Hk.
Qed.
Lemma don_own P K sub a L T X Q FL G own lv U D rl un lo F R W s : 1 < P -> hcore P K sub a L T X Q FL G own lv U D rl un lo F R W -> In s L ->
  sp_don s = true -> In (last_hp P s) own.
Proof.
  intros HP C Hs Hd. rewrite (v_live _ _ _ _ _ _ _ _ _ _ _ _ _ _ _ _ _ _ _ _ C), !in_app_iff in Hs. destruct Hs as [Hs|[Hs|Hs]].
  - destruct (core_F _ _ _ _ _ _ _ _ _ _ _ _ _ _ _ _ _ _ _ _ s HP C Hs) as (A & B & E). unfold last_hp. rewrite last_one by lia. assumption.
  - rewrite (v_rdon _ _ _ _ _ _ _ _ _ _ _ _ _ _ _ _ _ _ _ _ C s Hs) in Hd. discriminate.
  - destruct (v_raw _ _ _ _ _ _ _ _ _ _ _ _ _ _ _ _ _ _ _ _ C s Hs) as (A & _ & B). rewrite Hd in B. symmetry in B. apply negb_true_iff, Z.eqb_neq in B.
    unfold last_hp. rewrite last_raw by lia. exact (core_tail _ _ _ _ _ _ _ _ _ _ _ _ _ _ _ _ _ _ _ _ s C Hs B).
Qed.

(** ** Taking hugepages *)
Lemma hget_ok P K sub a L T X Q FL G n e : hinv P K sub a L T X Q FL G -> 1 <= n -> os_ok G n (e_os e) ->
  exists res c g, hp_get a n e = Some (res, hp_set_cache a c, g) /\
  match res with
  | Some (r, _) => snd r = n /\ hinv P K sub (hp_set_cache a c) L T (pages_of r ++ X) Q FL (g ++ G)
  | None => g = [] /\ (e_os e = None \/ 2 ^ 43 <= n) /\ c = hp_cache a /\ hinv P K sub (hp_set_cache a c) L T X Q FL G
  end.
Proof.
  intros H Hn Ho. cdest H. destruct C. destruct (huge_cache_get _ _ _ _ _ n (e_os e) (e_p1 e) (e_p2 e) (e_shrink e) (e_umin e) v_hc0 Hn Ho) as (res & fr & asked & c & E & _ & _ & M).
  unfold hp_get. rewrite E. cbn [obind]. destruct res as [r|].
  - destruct M as (M1 & _). exists (Some (r, fr)), c, (granted asked (e_os e)). split; [reflexivity|]. split; [assumption|].
    cex own lv (pages_of r ++ U) D rl un lo F R W. constructor; hred; try assumption.
    + exact (rc_get _ _ _ _ _ n _ _ _ _ _ r fr asked c v_hc0 Hn Ho E).
    + rewrite v_use0. clear. pz.
  - destruct M as (M1 & M2 & M3). exists None, c, []. split; [reflexivity|]. split; [reflexivity|]. split; [assumption|]. split; [assumption|]. subst c.
    cex own lv U D rl un lo F R W. constructor; hred; assumption.
Qed.

Lemma fresh_get P n o b : 1 < P -> 0 < n <= P -> exists t u, pt_get P (pt_new P b) n o = Some (t, 0, u).
Proof.
  intros HP Hn. destruct (hugepage_get P (pt_new P b) [] n o ltac:(lia) ltac:(constructor) ltac:(lia)) as (A & B).
  destruct (proj2 A) as (t & i & u & E). { exists 0. split; [lia|]. split; [lia|]. intros r []. }
  exists t, u. rewrite E. destruct (B _ _ _ E) as (_ & (B1 & B2 & _) & len & B3 & ((B4 & B5 & _) & B6 & _) & _). assert (i = 0); [|subst; reflexivity].
  destruct (Z.eq_dec i 0) as [|Hne]; [assumption|]. exfalso. apply B6. split; [lia|]. split; [lia|]. intros r [].
Qed.

Lemma contribute_fields N sub f own lv x donated dense n o t i u : 1 < N -> fl_reach N sub f own lv -> ~ In x own -> ~ In x (fl_freed f) ->
  0 < n -> pt_get N (pt_new N donated) n o = Some (t, i, u) -> (donated = true -> dense = false /\ n < N) -> (dense = true -> n = 1) ->
  let f' := fl_contribute N sub f x t donated dense in
  fl_freed f' = fl_freed f /\ fl_unaccounted f' = fl_unaccounted f /\ fl_unmapped f' = fl_unmapped f /\ (forall y, y <> x -> fl_tr f' y = fl_tr f y).
Proof.
  intros HN H Nx Nf Hn E Hd Hde. assert (HN0 : 0 < N) by lia. pose proof (fl_reach_ok N sub f own lv HN H) as IH.
  pose proof (pr_get N _ _ n o t i u (pr_new N donated) Hn E) as R. pose proof (pt_get_flags N _ n o t i u E) as (F1 & F2 & F3 & F4).
  assert (R0 : pt_rcount t = 0) by (unfold pt_get in E; destruct (find_and_mark _ _ _) as [[fr ix]|]; [|discriminate]; cbn in E; injection E as <- <- <-; reflexivity).
  assert (Hu : pt_used t = n) by (rewrite (used_live N t _ HN0 R); cbn; clear; lia).
  destruct (contribute_ok N sub f own lv x t [((i, n), o)] donated dense HN0 IH Nx Nf R ltac:(discriminate) R0 F2 F1) as (_ & E1 & _ & _ & E2 & _ & _ & E3 & E4); [|..].
  - intros Hdo. destruct (Hd Hdo) as (Hd1 & Hd2). split; [assumption|]. rewrite Hu. assumption.
  - intros Hde' r [<-|[]]. cbn. auto.
  - cbv zeta. auto.
Qed.

Lemma hcontribute_ok P K sub a a1 L T x X Q FL G n d o b : 1 < P -> hinv P K sub a L T (x :: X) Q FL G -> 0 < n <= P ->
  (b = true -> d = false /\ n < P) -> (d = true -> n = 1) -> a1 = hp_set_donated a (hp_donated a + if b then 1 else 0) ->
  exists a', alloc_and_contribute P sub a1 x n d o b = Some (a', x * P) /\ same_info a a' /\
    hp_was_donated a' x = b /\ hp_abandoned a' x = false /\ (forall s, In s L -> sp_don s = true -> last_hp P s <> x) /\
    hinv P K sub a' L T X ((x, ((0, n), o)) :: Q) FL G.
Proof.
  intros HP H Hn Hb Hd ->. cdest H. pose proof (core_nodup _ _ _ _ _ _ _ _ _ _ _ _ _ _ _ _ _ _ _ _ C) as (ND & Hpos).
  assert (Hx : In x (own ++ fl_freed (hp_filler a) ++ T ++ (x :: X) ++ flat_map (whole P) W ++ D)) by (rewrite !in_app_iff; cbn [In]; tauto).
  assert (N1 : ~ In x (own ++ fl_freed (hp_filler a) ++ T)).
  { rewrite !app_assoc in ND. rewrite <- app_assoc, <- app_assoc in ND. apply NoDup_app_iff in ND. destruct ND as (_ & _ & ND). intros Hi.
    apply (ND x); [rewrite <- app_assoc; assumption|left; reflexivity]. }
  assert (Hl : forall s, In s L -> sp_don s = true -> last_hp P s <> x).
  { intros s Hs Hds E. apply N1. pose proof (don_own _ _ _ _ _ _ _ _ _ _ _ _ _ _ _ _ _ _ _ _ s HP C Hs Hds) as Ho. rewrite E in Ho. rewrite in_app_iff. auto. }
  destruct (Hpos x Hx) as (Hx1 & _). clear Hpos ND Hx.
  destruct (fresh_get P n o b HP Hn) as (t & u & E). unfold alloc_and_contribute. destruct (Z.eqb_spec x 0) as [|_]; [lia|]. rewrite E. cbn [obind].
  eexists. split; [rewrite Z.add_0_r; reflexivity|]. split; [split; reflexivity|]. hred. rewrite !upd_same. split; [reflexivity|]. split; [reflexivity|]. split; [assumption|].
  destruct C. assert (N2 : ~ In x own) by (intros Hi; apply N1; rewrite in_app_iff; auto).
  assert (N3 : ~ In x (fl_freed (hp_filler a))) by (intros Hi; apply N1; rewrite !in_app_iff; auto).
  pose proof (fr_contribute P sub _ _ _ x b d n o t 0 u v_fl0 N2 N3 ltac:(lia) E Hb Hd) as Hf.
  destruct (contribute_fields P sub _ _ _ x b d n o t 0 u HP v_fl0 N2 N3 ltac:(lia) E Hb Hd) as (Ef & _).
  cex (x :: own) (upd lv x [((0, n), o)]) U D rl un lo F R W. constructor; hred; rewrite ?Ef; try assumption.
  - rewrite v_use0. clear. pz.
  - change (abs (x :: own) (upd lv x [((0, n), o)])) with (map (pair x) (upd lv x [((0, n), o)] x) ++ abs own (upd lv x [((0, n), o)])).
    rewrite upd_same, abs_upd_out by assumption. cbn [map app]. rewrite v_runs0. clear. pr.
  - intros y. cbn [app In]. unfold upd. destruct (Z.eqb_spec y x) as [->|Hne]; [tauto|]. rewrite v_tr0. split; [auto|]. intros [->|?]; [congruence|assumption].
  - cbn [app]. rewrite count_if_cons, upd_same, v_don0. rewrite (count_if_ext (upd (hp_was_donated a) x b) (hp_was_donated a) (fun _ => 1) (fun _ => 1)); [lia|].
    intros y Hy. split; [|reflexivity]. apply upd_other. intros ->. contradiction.
  - cbn [app]. rewrite count_if_cons, upd_same, v_abp0. rewrite Z.add_0_l. apply count_if_ext.
    intros y Hy. rewrite !upd_other by (intros ->; contradiction). auto.
  - intros y Hy. cbn [app In] in Hy. unfold upd. destruct (Z.eqb_spec y x) as [->|Hne]; [discriminate|]. destruct Hy as [->|Hy]; [congruence|]. apply v_ab0. assumption.
  - intros s Hs Hds. rewrite !upd_other by (apply Hl; assumption). apply v_last0; assumption.
Qed.

Lemma htry_get_ok P K sub a L T X Q FL G n d o : 1 < P -> hinv P K sub a L T X Q FL G -> 0 < n < P -> (d = true -> n = 1) ->
  exists f r, try_get P sub (hp_filler a) n d o = Some (f, r) /\
  match r with
  | None => f = hp_filler a
  | Some (x, i, b) => 0 <= i /\ i + n <= P /\ hinv P K sub (hp_set_filler a f) L T X ((x, ((i, n), o)) :: Q) FL G
  end.
Proof.
  intros HP H Hn Hd. cdest H. destruct C. destruct (filler_get P sub _ _ _ n d o HP v_fl0 Hn Hd) as (f & r & E & _ & M). exists f, r. split; [assumption|].
  destruct r as [((x, i), b)|]; [|assumption]. destruct M as (Hx & _ & (A & B & _) & _ & _ & _ & Ef & _). split; [assumption|]. split; [assumption|].
  pose proof (fr_get P sub _ _ _ n d o f x i b v_fl0 Hn Hd E) as Hf. destruct (filler_lists P sub _ _ _ HP v_fl0) as (ND & _).
  cex own (upd lv x (((i, n), o) :: lv x)) U D rl un lo F R W. constructor; hred; rewrite ?Ef; try assumption.
  rewrite (abs_change own lv x _ ND Hx). pose proof (abs_take own lv x Hx) as Pa. cbn [map]. clear - v_runs0 Pa. pr.
Qed.

(** ** Returning hugepages *)
Lemma Q_tracker P K sub a L T X Q FL G x r : hinv P K sub a L T X ((x, r) :: Q) FL G -> hp_tracker a x = true.
Proof.
  intros H. cdest H. apply (v_tr _ _ _ _ _ _ _ _ _ _ _ _ _ _ _ _ _ _ _ _ C). assert (Hk : In (x, r) (abs own lv)).
  { rewrite (v_runs _ _ _ _ _ _ _ _ _ _ _ _ _ _ _ _ _ _ _ _ C), !in_app_iff. right. right. left. reflexivity. }
  apply abs_In in Hk. rewrite in_app_iff. left. apply Hk.
Qed.

Lemma hput_ok P K sub a L T X Q FL G x i n o os : 1 < P -> hinv P K sub a L T X ((x, ((i, n), o)) :: Q) FL G ->
  exists f r, fl_put P sub (hp_filler a) x i n o os = Some (f, r) /\
  match r with
  | None => hinv P K sub (hp_set_filler a f) L T X Q FL G
  | Some _ => hinv P K sub (hp_set_filler a f) L (x :: T) X Q FL G
  end.
Proof.
  intros HP H. cdest H. destruct C. assert (Hk : In (x, ((i, n), o)) (abs own lv)) by (rewrite v_runs0, !in_app_iff; right; right; left; reflexivity).
  apply abs_In in Hk. destruct Hk as (Hx & Hr). apply in_split in Hr. destruct Hr as (l1 & l2 & Hr).
  destruct (filler_put P sub _ _ _ x l1 i n o l2 os HP v_fl0 Hx Hr) as (f & r & E & Er & Ef & _). exists f, r. split; [assumption|].
  pose proof (fr_put P sub _ _ _ x l1 i n o l2 os f r v_fl0 Hx Hr E) as Hf. destruct (filler_lists P sub _ _ _ HP v_fl0) as (ND & _).
  set (own' := match l1 ++ l2 with [] => rem1 x own | _ => own end) in *.
  assert (Ha : Permutation (abs own' (upd lv x (l1 ++ l2))) (map (key P) F ++ flat_map (tail P) W ++ Q)).
  { assert (Pa : Permutation (abs own lv) ((x, ((i, n), o)) :: map (pair x) (l1 ++ l2) ++ abs (rem1 x own) lv)).
    { rewrite (abs_take own lv x Hx), Hr, !map_app. cbn [map]. rewrite <- !app_assoc. symmetry. apply Permutation_middle. }
    assert (Pb : Permutation (abs own' (upd lv x (l1 ++ l2))) (map (pair x) (l1 ++ l2) ++ abs (rem1 x own) lv)).
    { unfold own'. destruct (l1 ++ l2) as [|y l] eqn:El; [|apply abs_change; assumption]. cbn [map app]. rewrite abs_upd_out; [reflexivity|]. apply (rem1_NoDup x own ND). }
    clear - v_runs0 Pa Pb. pr. }
  assert (Pt : Permutation (own ++ fl_freed (hp_filler a) ++ T) (own' ++ fl_freed f ++ (match r with Some _ => x :: T | None => T end))).
  { pose proof (rem1_perm x own Hx) as Pr. rewrite Er, Ef. unfold own'. destruct (l1 ++ l2); cbn [andb]; [|reflexivity]. destruct (fl_keep (hp_filler a) x =? 0); cbn [negb]; clear - Pr; pz. }
  assert (Pu : Permutation U (own' ++ fl_freed f ++ (match r with Some _ => x :: T | None => T end) ++ X ++ flat_map (whole P) W)).
  { rewrite v_use0. clear - Pt. pz. }
  assert (G0 : hinv P K sub (hp_set_filler a f) L (match r with Some _ => x :: T | None => T end) X Q FL G).
  { cex own' (upd lv x (l1 ++ l2)) U D rl un lo F R W. constructor; hred; try assumption.
    - intros y. rewrite v_tr0. split; intros Hy; [rewrite <- Pt|rewrite Pt]; assumption.
    - rewrite v_don0. apply count_if_perm. assumption.
    - rewrite v_abp0. apply count_if_perm. assumption.
    - intros y Hy. apply v_ab0. rewrite Pt. assumption. }
  destruct r; exact G0.
Qed.

Lemma habandon_ok P K sub a L T X Q FL G x : hinv P K sub a L T X Q FL G -> hp_tracker a x = true -> hp_was_donated a x = true -> hp_abandoned a x = false ->
  (forall s, In s L -> sp_don s = true -> last_hp P s <> x) -> hinv P K sub (abandon a x) L T X Q FL G.
Proof.
  intros H Ht Hw Ha Hl. cdest H. pose proof (core_nodup _ _ _ _ _ _ _ _ _ _ _ _ _ _ _ _ _ _ _ _ C) as (ND & _). destruct C. apply v_tr0 in Ht.
  assert (ND' : NoDup (own ++ fl_freed (hp_filler a) ++ T)).
  { rewrite !app_assoc in ND. rewrite <- app_assoc, <- app_assoc in ND. apply NoDup_app_iff in ND. rewrite app_assoc. apply ND. }
  cex own lv U D rl un lo F R W. unfold abandon. constructor; hred; try assumption.
  - rewrite v_abp0. rewrite !(count_if_perm _ _ _ _ (rem1_perm x _ Ht)), !count_if_cons, upd_same, Ha.
    rewrite (count_if_ext (upd (hp_abandoned a) x true) (hp_abandoned a) (hp_ab_count a) (hp_ab_count a)); [lia|].
    intros y Hy. split; [|reflexivity]. apply upd_other. intros ->. apply (rem1_NoDup x _ ND'). assumption.
  - intros y Hy. unfold upd. destruct (Z.eqb_spec y x) as [->|]; [auto|]. apply v_ab0. assumption.
  - intros s Hs Hd. rewrite upd_other by (apply Hl; assumption). apply v_last0; assumption.
Qed.

Lemma hrelease_insert_ok P K sub a L T X Q FL G r p : hinv P K sub a L T (pages_of r ++ X) Q FL G -> 1 <= snd r ->
  exists c, hc_release_insert (hp_cache a) r p = Some c /\ hinv P K sub (hp_set_cache a c) L T X Q FL G.
Proof.
  intros H Hr. cdest H. destruct C. set (U' := own ++ fl_freed (hp_filler a) ++ T ++ X ++ flat_map (whole P) W).
  assert (Pu : Permutation U (pages_of r ++ U')) by (unfold U'; rewrite v_use0; clear; pz).
  destruct (huge_cache_release _ _ U' _ _ _ r p v_hc0 Hr Pu) as ((c & E & _) & _). exists c. split; [assumption|].
  cex own lv U' D rl un lo F R W. constructor; hred; try assumption; [|reflexivity]. exact (rc_release _ _ U' _ _ _ r p c v_hc0 Hr Pu E).
Qed.
Lemma hrelease_unbacked_ok P K sub a L T X Q FL G r p : hinv P K sub a L T (pages_of r ++ X) Q FL G -> 1 <= snd r ->
  exists c, hc_release_unbacked (hp_cache a) r p = Some c /\ hinv P K sub (hp_set_cache a c) L T X Q FL G.
Proof.
  intros H Hr. cdest H. destruct C. set (U' := own ++ fl_freed (hp_filler a) ++ T ++ X ++ flat_map (whole P) W).
  assert (Pu : Permutation U (pages_of r ++ U')) by (unfold U'; rewrite v_use0; clear; pz).
  destruct (huge_cache_release _ _ U' _ _ _ r p v_hc0 Hr Pu) as (_ & c & E & _). exists c. split; [assumption|].
  cex own lv U' D rl un lo F R W. constructor; hred; try assumption; [|reflexivity]. exact (rc_unbacked _ _ U' _ _ _ r p c v_hc0 Hr Pu E).
Qed.

(** A tracker that has left the filler is deleted. *)
Lemma hforget_ok P K sub a L T X Q FL G x : 1 < P -> hinv P K sub a L (x :: T) X Q FL G ->
  hinv P K sub (hp_set_tracker
    (if hp_was_donated a x then
       if hp_abandoned a x then hp_set_abandoned (hp_set_ab_pages (hp_set_donated a (hp_donated a - 1)) (hp_ab_pages a - hp_ab_count a x)) x false
       else hp_set_donated a (hp_donated a - 1)
     else a) x false) L T (x :: X) Q FL G.
Proof.
  intros HP H. cdest H. pose proof (core_nodup _ _ _ _ _ _ _ _ _ _ _ _ _ _ _ _ _ _ _ _ C) as (ND & _).
  assert (Hl : forall s, In s L -> sp_don s = true -> last_hp P s <> x).
  { intros s Hs Hd E. pose proof (don_own _ _ _ _ _ _ _ _ _ _ _ _ _ _ _ _ _ _ _ _ s HP C Hs Hd) as Ho. rewrite E in Ho. apply NoDup_app_iff in ND. destruct ND as (_ & _ & ND).
    apply (ND x Ho). rewrite !in_app_iff. cbn [In]. tauto. }
  destruct C. set (tr := own ++ fl_freed (hp_filler a) ++ T) in *.
  assert (Pt : Permutation (own ++ fl_freed (hp_filler a) ++ x :: T) (x :: tr)) by (unfold tr; clear; pz).
  assert (Nx : ~ In x tr).
  { assert (ND' : NoDup (x :: tr)).
    { rewrite <- Pt. rewrite !app_assoc in ND. rewrite <- app_assoc, <- app_assoc in ND. apply NoDup_app_iff in ND. rewrite app_assoc. apply ND. }
    inversion ND'. assumption. }
  assert (Pu : Permutation U (own ++ fl_freed (hp_filler a) ++ T ++ (x :: X) ++ flat_map (whole P) W)) by (rewrite v_use0; clear; pz).
  assert (Ht : forall y, upd (hp_tracker a) x false y = true <-> In y tr).
  { intros y. unfold upd. destruct (Z.eqb_spec y x) as [->|Hne]; [split; [discriminate|contradiction]|]. rewrite v_tr0, Pt. cbn [In]. split; [intros [->|?]; [congruence|assumption]|auto]. }
  rewrite (count_if_perm _ _ _ _ Pt), count_if_cons in v_don0. rewrite (count_if_perm _ _ _ _ Pt), count_if_cons in v_abp0.
  assert (Hx : In x (own ++ fl_freed (hp_filler a) ++ x :: T)) by (rewrite Pt; left; reflexivity). pose proof (v_ab0 x Hx) as Hax.
  assert (Hab : forall y, In y tr -> hp_abandoned a y = true -> hp_was_donated a y = true) by (intros y Hy; apply v_ab0; rewrite Pt; right; assumption).
  cex own lv U D rl un lo F R W. destruct (hp_was_donated a x) eqn:Ew; [destruct (hp_abandoned a x) eqn:Ea|destruct (hp_abandoned a x) eqn:Ea; [discriminate Hax; reflexivity|]];
    constructor; hred; fold tr; try assumption; try lia.
  - rewrite v_abp0. rewrite (count_if_ext (upd (hp_abandoned a) x false) (hp_abandoned a) (hp_ab_count a) (hp_ab_count a)); [lia|].
    intros y Hy. split; [|reflexivity]. apply upd_other. intros ->. contradiction.
  - intros y Hy. unfold upd. destruct (Z.eqb_spec y x); [discriminate|]. apply Hab. assumption.
  - intros s Hs Hd. rewrite upd_other by (apply Hl; assumption). apply v_last0; assumption.
Qed.

Lemma hrelease_hugepage_ok P K sub a L T X Q FL G x p : 1 < P -> hinv P K sub a L (x :: T) X Q FL G ->
  exists a', release_hugepage a x p = Some a' /\ same_info a a' /\ hp_was_donated a' = hp_was_donated a /\ hinv P K sub a' L T X Q FL G.
Proof.
  intros HP H. apply (hforget_ok P K sub a L T X Q FL G x HP) in H. unfold release_hugepage.
  match type of H with hinv _ _ _ ?b _ _ _ _ _ _ => set (a1 := b) in * end.
  assert (E1 : hp_cache a1 = hp_cache a) by (unfold a1; destruct (hp_was_donated a x), (hp_abandoned a x); reflexivity).
  assert (E2 : forall c, same_info a (hp_set_cache a1 c)) by (intros c; unfold a1; destruct (hp_was_donated a x), (hp_abandoned a x); split; reflexivity).
  assert (E4 : forall c, hp_was_donated (hp_set_cache a1 c) = hp_was_donated a) by (intros c; unfold a1; destruct (hp_was_donated a x), (hp_abandoned a x); reflexivity).
  match goal with |- context[hp_set_tracker ?b x false] => replace (hp_set_tracker b x false) with a1 by (unfold a1; hred; destruct (hp_was_donated a x), (hp_abandoned a x); reflexivity) end.
  change (x :: X) with (pages_of (x, 1) ++ X) in H.
  destruct (pt_released (fl_tr (hp_filler a1) x)).
  - destruct (hrelease_unbacked_ok _ _ _ _ _ _ _ _ _ _ (x, 1) p H ltac:(cbn; lia)) as (c & E & H'). rewrite E. cbn [obind]. eauto 6.
  - destruct (hrelease_insert_ok _ _ _ _ _ _ _ _ _ _ (x, 1) p H ltac:(cbn; lia)) as (c & E & H'). rewrite E. cbn [obind]. eauto 6.
Qed.

(** ** Ranges come and go *)
Definition don_fresh (P : Z) (a : hpaa) (L : list span) (s : span) : Prop :=
  sp_don s = true -> hp_was_donated a (last_hp P s) = true /\ hp_abandoned a (last_hp P s) = false /\
    forall s', In s' L -> sp_don s' = true -> last_hp P s' <> last_hp P s.

Lemma nd_cons P L s : NoDup (map (last_hp P) (filter sp_don L)) ->
  (sp_don s = true -> forall s', In s' L -> sp_don s' = true -> last_hp P s' <> last_hp P s) ->
  NoDup (map (last_hp P) (filter sp_don (s :: L))).
Proof.
  intros ND H. cbn [filter]. destruct (sp_don s); [|assumption]. cbn [map]. constructor; [|assumption]. intros Hi. apply in_map_iff in Hi.
  destruct Hi as (s' & E & Hi). apply filter_In in Hi. destruct Hi as (A & B). exact (H eq_refl s' A B E).
Qed.
Lemma nd_cons_inv P L s : NoDup (map (last_hp P) (filter sp_don (s :: L))) ->
  NoDup (map (last_hp P) (filter sp_don L)) /\ (sp_don s = true -> forall s', In s' L -> sp_don s' = true -> last_hp P s' <> last_hp P s).
Proof.
  cbn [filter]. destruct (sp_don s); [|split; [assumption|discriminate]]. cbn [map]. intros ND. inversion ND as [|? ? N1 N2]; subst. split; [assumption|].
  intros _ s' Hs Hd E. apply N1. rewrite <- E. apply in_map. apply filter_In. auto.
Qed.

Lemma hattach_F P K sub a L T X Q FL G s : hinv P K sub a L T X (key P s :: Q) FL G -> don_fresh P a L s -> hinv P K sub a (s :: L) T X Q FL G.
Proof.
  intros H Hd. cdest H. destruct C. cex own lv U D rl un lo (s :: F) R W. constructor; try assumption.
  - rewrite v_live0. reflexivity.
  - rewrite v_runs0. clear. pr.
  - intros s' [<-|Hs]; [|apply v_last0; assumption]. intros Hds. destruct (Hd Hds) as (A & B & _). auto.
  - apply nd_cons; [assumption|]. intros Hds. apply (Hd Hds).
Qed.

Lemma hattach_W P K sub a L T X Q FL G s : hinv P K sub a L T (whole P s ++ X) (tail P s ++ Q) FL G ->
  sp_page s mod P = 0 /\ P <= sp_len s /\ sp_don s = negb (sp_len s mod P =? 0) -> don_fresh P a L s -> hinv P K sub a (s :: L) T X Q FL G.
Proof.
  intros H Hw Hd. cdest H. destruct C. cex own lv U D rl un lo F R (s :: W). constructor; try assumption.
  - rewrite v_use0. clear. pz.
  - rewrite v_live0. clear. ps.
  - rewrite v_runs0. clear. pr.
  - intros s' [<-|Hs]; [assumption|apply v_raw0; assumption].
  - intros s' [<-|Hs]; [|apply v_last0; assumption]. intros Hds. destruct (Hd Hds) as (A & B & _). auto.
  - apply nd_cons; [assumption|]. intros Hds. apply (Hd Hds).
Qed.

Lemma region_pages_In K ls x : In x (region_pages K ls) <-> exists l, In l ls /\ l <= x < l + K.
Proof. unfold region_pages. rewrite in_flat_map. split; intros (l & A & B); exists l; split; auto; apply pages_of_In in B || apply pages_of_In; exact B. Qed.
Lemma region_pages_perm K l l' : Permutation l l' -> Permutation (region_pages K l) (region_pages K l').
Proof. apply Permutation_flat_map. Qed.

Lemma hrs_get_ok P K sub a L T X Q FL G n : 0 < P -> 0 < K -> hinv P K sub a L T X Q FL G -> 0 < n ->
  exists s r, rs_get P K (hp_regions a) n = Some (s, r) /\
  match r with
  | Some (p, _) => forall o, hinv P K sub (hp_set_regions a s) (Span p n o false :: L) T X Q FL G
  | None => s = hp_regions a
  end.
Proof.
  intros HP HK H Hn. cdest H. destruct C. destruct (set_get P K _ _ _ _ n HP ltac:(lia) v_rs0 Hn) as (s & r & E & M). exists s, r. split; [assumption|].
  destruct r as [(p, b)|]; [|apply M]. destruct M as (_ & _ & _ & M). intros o.
  pose proof (rsr_get P K _ _ _ _ n s p b _ v_rs0 Hn E eq_refl) as Hs.
  eexists own, lv, U, D, _, _, _, F, (Span p n o false :: R), W. constructor; hred; try eassumption.
  - rewrite v_dir0. apply region_pages_perm. assumption.
  - rewrite v_live0. clear. ps.
  - cbn [map]. rewrite v_reg0. reflexivity.
  - intros s' [<-|Hs']; [reflexivity|apply v_rdon0; assumption].
  - intros s' [<-|Hs']; [discriminate|apply v_last0; assumption].
Qed.

Lemma locs_contribute P K s live un lo loc : 0 < P -> 0 <= K -> rs_reach P K s live un lo -> Permutation (loc :: locs s) (locs (rs_contribute s (rg_new P K loc))).
Proof.
  intros HP HK H. destruct (rs_reach_ok _ _ _ _ _ _ HP HK H) as (IH & _).
  unfold locs, rs_contribute. cbn [rs_list]. apply (Permutation_map rg_loc (l := rg_new P K loc :: rs_list s)). apply add_to_list_spec. apply (sk_sorted _ _ _ _ _ IH).
Qed.

Lemma hadd_region_ok P K sub a L T X Q FL G e : 0 < P -> 0 < K -> hinv P K sub a L T X Q FL G -> os_ok G K (e_os e) ->
  exists ok a' g, add_region P K a e = Some (ok, a', g) /\ same_info a a' /\ hinv P K sub a' L T X Q FL (g ++ G) /\
  if ok then forall n, 0 < n <= K * P -> exists s p b, rs_get P K (hp_regions a') n = Some (s, Some (p, b))
  else g = [] /\ (e_os e = None \/ 2 ^ 43 <= K) /\ hp_filler a' = hp_filler a.
Proof.
  intros HP HK H Ho. cdest H. destruct C. unfold add_region.
  destruct (hc_direct_spec _ _ _ _ _ K (e_os e) (e_p1 e) (e_p2 e) (reach_hc_inv _ _ _ _ _ v_hc0) ltac:(lia) Ho) as (res & asked & al & E & M). rewrite E. cbn [obind].
  pose proof (rc_direct _ _ _ _ _ K _ _ _ res asked al v_hc0 ltac:(lia) Ho E) as Hc. destruct res as [r|].
  - destruct M as (M1 & _). eexists true, _, (granted asked (e_os e)). split; [reflexivity|]. split; [split; reflexivity|]. hred.
    assert (Hdj : forall l, In l (locs (hp_regions a)) -> disj (fst r, K) (l, K)).
    { intros l Hl. destruct (huge_cache_conserves _ _ _ _ _ Hc) as (ND & Pm & _). rewrite Pm in ND. apply NoDup_app_iff in ND. destruct ND as (_ & ND & _).
      rewrite <- app_assoc in ND. apply NoDup_app_iff in ND. destruct ND as (_ & _ & ND). unfold disj. cbn [fst snd].
      assert (fst r + K <= l \/ l + K <= fst r \/ (l < fst r + K /\ fst r < l + K)) as [?|[?|Hov]] by lia; [auto|auto|]. exfalso.
      apply (ND (Z.max (fst r) l)); [apply pages_of_In; unfold in_range; lia|]. apply in_or_app. left. rewrite v_dir0. apply region_pages_In. exists l. split; [assumption|lia]. }
    pose proof (rsr_contribute P K _ _ _ _ (fst r) _ v_rs0 Hdj eq_refl) as Hs.
    split.
    + eexists own, lv, U, (pages_of r ++ D), _, _, _, F, R, W. constructor; hred; try eassumption.
      rewrite <- (region_pages_perm K _ _ (locs_contribute P K _ _ _ _ (fst r) HP ltac:(lia) v_rs0)). unfold region_pages. cbn [flat_map]. fold (region_pages K (locs (hp_regions a))).
      rewrite <- v_dir0. replace (fst r, K) with r by (destruct r; cbn [fst snd] in *; congruence). reflexivity.
    + intros n Hn. destruct (set_get P K _ _ _ _ n HP ltac:(lia) Hs ltac:(lia)) as (s & res & E1 & M). destruct res as [(p, b)|]; [eauto|]. exfalso.
      destruct M as (_ & M). apply (M (fst r) (fst r * P)).
      * rewrite <- (locs_contribute P K _ _ _ _ (fst r) HP ltac:(lia) v_rs0). left. reflexivity.
      * split; [lia|]. split; [lia|]. intros x Hx. apply filter_In in Hx. destruct Hx as (Hx & Hst). unfold starts_in in Hst.
        destruct (set_runs P K _ _ _ _ HP ltac:(lia) v_rs0) as (_ & S2 & _). destruct (S2 x Hx) as (S3 & l & S4 & S5 & S6).
        specialize (Hdj l S4). unfold disj in Hdj. cbn [fst snd] in Hdj. exfalso. assert (fst r * P <= fst x < (fst r + K) * P) by lia. destruct Hdj as [Hdj|Hdj]; nia.
  - destruct M as (M1 & M2 & M3). eexists false, _, []. split; [reflexivity|]. split; [split; reflexivity|]. split.
    + cex own lv U D rl un lo F R W. constructor; hred; try assumption. unfold grant in Hc. rewrite M1 in Hc. exact Hc.
    + split; [reflexivity|]. split; [|reflexivity]. destruct M2 as [M2|M2]; [auto|right]. unfold hl_overflows in M2.
      change (2 ^ 64 / 2 ^ 21) with 8796093022208 in M2. change (2 ^ 43) with 8796093022208. lia.
Qed.

(** Where a live range is, and what is left when it goes. *)
Lemma hdetach_ok P K sub a L T X Q FL G s : 1 < P -> 0 < K -> hinv P K sub a (s :: L) T X Q FL G -> don_fresh P a L s /\
  ((hp_tracker a (sp_page s / P) = true /\ 0 < sp_len s /\ sp_page s mod P + sp_len s <= P /\ hinv P K sub a L T X (key P s :: Q) FL G) \/
   (hp_tracker a (sp_page s / P) = false /\ sp_don s = false /\
    forall os, exists rs calls, rs_put P K os (hp_regions a) (sp_page s) (sp_len s) = Some (Some (rs, calls)) /\ hinv P K sub (hp_set_regions a rs) L T X Q FL G) \/
   (hp_tracker a (sp_page s / P) = false /\ (forall os, rs_put P K os (hp_regions a) (sp_page s) (sp_len s) = Some None) /\
    (sp_page s mod P = 0 /\ P <= sp_len s /\ sp_don s = negb (sp_len s mod P =? 0)) /\ hinv P K sub a L T (whole P s ++ X) (tail P s ++ Q) FL G)).
Proof.
  intros HP HK H. cdest H. pose proof (core_nodup _ _ _ _ _ _ _ _ _ _ _ _ _ _ _ _ _ _ _ _ C) as (ND & _).
  assert (HF := fun Hs => core_F _ _ _ _ _ _ _ _ _ _ _ _ _ _ _ _ _ _ _ _ s HP C Hs). destruct C.
  destruct (nd_cons_inv P L s v_nd0) as (N1 & N2). assert (Hl : forall s', In s' L -> sp_don s' = true -> hp_was_donated a (last_hp P s') = true /\ hp_abandoned a (last_hp P s') = false).
  { intros s' Hs. apply v_last0. right. assumption. }
  split. { intros Hd. destruct (v_last0 s (or_introl eq_refl) Hd) as (A & B). auto. }
  assert (Hs : In s (F ++ R ++ W)) by (rewrite <- v_live0; left; reflexivity). rewrite !in_app_iff in Hs. destruct Hs as [Hs|[Hs|Hs]].
  - left. destruct (HF Hs) as (A & B & E). split; [apply v_tr0; rewrite in_app_iff; auto|]. split; [assumption|]. split; [assumption|].
    apply in_split in Hs. destruct Hs as (F1 & F2 & ->). cex own lv U D rl un lo (F1 ++ F2) R W. constructor; try assumption.
    + clear - v_live0. ps.
    + clear - v_runs0. pr.
  - right. left.
    assert (Hr : In (rng s) rl) by (rewrite v_reg0; apply in_map; assumption).
    destruct (set_runs P K _ _ _ _ ltac:(lia) ltac:(lia) v_rs0) as (_ & S2 & _). destruct (S2 _ Hr) as (S3 & l & S4 & S5 & S6). cbn [rng fst snd] in S3, S5, S6.
    assert (Hp : l <= sp_page s / P < l + K). { split; [apply Z.div_le_lower_bound; lia|]. apply Z.div_lt_upper_bound; lia. }
    split; [|split; [apply v_rdon0; assumption|]].
    { apply not_true_iff_false. intros Ht. apply v_tr0 in Ht. rewrite !app_assoc in ND. apply NoDup_app_iff in ND. destruct ND as (_ & _ & ND). apply (ND (sp_page s / P)).
      - rewrite <- !app_assoc. rewrite !in_app_iff in *. tauto.
      - rewrite v_dir0. apply region_pages_In. eauto. }
    intros os. apply in_split in Hr. destruct Hr as (l1 & l2 & ->). unfold rng in v_rs0. destruct (set_put P K _ l1 _ _ l2 _ _ os ltac:(lia) ltac:(lia) v_rs0) as (rs & calls & E & _ & _ & _ & Pl).
    exists rs, calls. split; [assumption|]. pose proof (rsr_put P K _ l1 _ _ l2 _ _ os rs calls _ v_rs0 E eq_refl) as Hrs.
    apply in_split in Hs. destruct Hs as (R1 & R2 & ->). eexists own, lv, U, D, _, _, _, F, (R1 ++ R2), W. constructor; hred; try eassumption.
    + rewrite v_dir0. apply region_pages_perm. assumption.
    + clear - v_live0. ps.
    + rewrite map_app in *. cbn [map] in v_reg0. apply Permutation_app_inv in v_reg0. assumption.
    + intros s' Hs'. apply v_rdon0. rewrite in_app_iff in *. cbn [In]. tauto.
  - right. right. pose proof (v_raw0 s Hs) as Hw. destruct Hw as (W1 & W2 & W3).
    assert (Hin : In (sp_page s / P) (flat_map (whole P) W)).
    { apply in_flat_map. exists s. split; [assumption|]. apply pages_of_In. unfold in_range. cbn [fst snd]. assert (1 <= sp_len s / P) by (apply Z.div_le_lower_bound; lia). lia. }
    split; [|split; [|split; [auto|]]].
    + apply not_true_iff_false. intros Ht. apply v_tr0 in Ht. rewrite !app_assoc in ND. rewrite <- app_assoc in ND. apply NoDup_app_iff in ND. destruct ND as (_ & _ & ND). apply (ND (sp_page s / P)).
      * rewrite <- !app_assoc. rewrite !in_app_iff in *. tauto.
      * rewrite in_app_iff. auto.
    + intros os. apply set_put_other. intros l Hl' Hp. rewrite !app_assoc in ND. apply NoDup_app_iff in ND. destruct ND as (_ & _ & ND). apply (ND (sp_page s / P)).
      * rewrite !in_app_iff. auto.
      * rewrite v_dir0. apply region_pages_In. exists l. split; [assumption|]. split; [apply Z.div_le_lower_bound; lia|]. apply Z.div_lt_upper_bound; lia.
    + apply in_split in Hs. destruct Hs as (W1' & W2' & ->). cex own lv U D rl un lo F R (W1' ++ W2'). constructor; try assumption.
      * rewrite v_use0. clear. pz.
      * clear - v_live0. ps.
      * rewrite v_runs0. clear. pr.
      * intros s' Hs'. apply v_raw0. rewrite in_app_iff in *. cbn [In]. tauto.
Qed.

(** ** The operations *)
Lemma record_info P sign a a' n : same_info a a' -> same_info (record P sign a n) (record P sign a' n).
Proof. intros (A & B). unfold same_info, record. destruct (n <=? P / 2); hred; rewrite A, B; auto. Qed.
Lemma same_info_trans a b c : same_info a b -> same_info b c -> same_info a c.
Proof. intros (A & B) (A' & B'). split; congruence. Qed.
Lemma same_info_refl a : same_info a a.
Proof. split; reflexivity. Qed.
Lemma set_filler_same a : hp_set_filler a (hp_filler a) = a.
Proof. destruct a; reflexivity. Qed.
Lemma set_regions_same a : hp_set_regions a (hp_regions a) = a.
Proof. destruct a; reflexivity. Qed.

Lemma hset_tracker_false P K sub a L T X Q FL G x : hinv P K sub a L T X Q FL G -> In x X -> hinv P K sub (hp_set_tracker a x false) L T X Q FL G.
Proof.
  intros H Hx. cdest H. pose proof (core_nodup _ _ _ _ _ _ _ _ _ _ _ _ _ _ _ _ _ _ _ _ C) as (ND & _). destruct C. cex own lv U D rl un lo F R W. constructor; hred; try assumption.
  intros y. unfold upd. destruct (Z.eqb_spec y x) as [->|]; [|apply v_tr0]. split; [discriminate|]. intros Hi. exfalso.
  rewrite !app_assoc in ND. rewrite <- !app_assoc in ND. rewrite !app_assoc in ND. rewrite <- app_assoc, <- app_assoc in ND. apply NoDup_app_iff in ND. destruct ND as (_ & _ & ND).
  apply (ND x); [rewrite <- app_assoc; assumption|]. rewrite in_app_iff. auto.
Qed.

Lemma hl_spec P n : 0 < P -> 0 < n -> 1 <= hl_from_pages P n /\
  (n mod P = 0 -> hl_from_pages P n = n / P /\ hl_from_pages P n * P - n = 0) /\
  (n mod P <> 0 -> hl_from_pages P n = n / P + 1 /\ hl_from_pages P n * P - n = P - n mod P).
Proof.
  intros HP Hn. unfold hl_from_pages. pose proof (Z.div_mod n P ltac:(lia)). pose proof (Z.mod_pos_bound n P HP). pose proof (Z.div_pos n P ltac:(lia) HP).
  destruct (Z.eqb_spec (n mod P) 0) as [E|E]; (split; [nia|]); split; intros; try contradiction; lia.
Qed.

Definition refused (n : Z) (e : henv) : Prop := e_os e = None \/ 2 ^ 43 <= n.

Lemma alloc_raw_ok P K sub a L X FL G n o e : 1 < P -> 0 < K -> hinv P K sub a L [] X [] FL G -> 0 < n -> os_ok G (hl_from_pages P n) (e_os e) ->
  exists a' out g, alloc_raw P sub a n false o e = Some (a', out, g) /\
  match out with
  | ADone p n' don _ => n' = n /\ p mod P = 0 /\ same_info (record P 1 a n) a' /\ hinv P K sub a' (Span p n o don :: L) [] X [] FL (g ++ G)
  | AFail => g = [] /\ refused (hl_from_pages P n) e /\ same_info a a' /\ hinv P K sub a' L [] X [] FL G
  | AHold _ _ => False
  end.
Proof.
  intros HP HK H Hn Ho. destruct (hl_spec P n ltac:(lia) Hn) as (H1 & H2 & H3). unfold alloc_raw.
  destruct (hget_ok P K sub a L [] X [] FL G (hl_from_pages P n) e H H1 Ho) as (res & c & g & E & M). rewrite E. cbn [obind]. destruct res as [(r, fr)|].
  2: { destruct M as (M1 & M2 & M3 & M4). eexists _, AFail, []. split; [reflexivity|]. split; [reflexivity|]. split; [exact M2|]. split; [split; reflexivity|assumption]. }
  destruct M as (M1 & M2). destruct r as (first, len). cbn [fst snd] in *. subst len. set (hl := hl_from_pages P n) in *.
  assert (Hfirst : In first (pages_of (first, hl) ++ X)) by (apply in_or_app; left; apply pages_of_In; unfold in_range; cbn; lia).
  apply (hset_tracker_false _ _ _ _ _ _ _ _ _ _ first) in M2; [|assumption]. set (a1 := hp_set_tracker (hp_set_cache a c) first false) in *.
  assert (I1 : same_info a a1) by (split; reflexivity).
  assert (Hdiv : first * P / P = first) by (apply Z.div_mul; lia). assert (Hmod : (first * P) mod P = 0) by (apply Z.mod_mul; lia).
  destruct (Z.eq_dec (n mod P) 0) as [Em|Em].
  - destruct (H2 Em) as (H4 & H5). rewrite H5. rewrite Z.eqb_refl.
    assert (En : hl * P = n) by lia. rewrite En.
    eexists _, (ADone (first * P) n false fr), g. split; [reflexivity|]. split; [reflexivity|]. split; [assumption|]. split; [apply record_info; exact I1|].
    apply hinv_record. assert (Hlast : In (first + hl - 1) (pages_of (first, hl) ++ X)) by (apply in_or_app; left; apply pages_of_In; unfold in_range; cbn; lia).
    apply (hset_tracker_false _ _ _ _ _ _ _ _ _ _ (first + hl - 1)) in M2; [|assumption].
    apply hattach_W; [|cbn [sp_page sp_len sp_don]|discriminate].
    + unfold whole, tail. cbn [sp_page sp_len sp_obj]. rewrite Em, Hdiv, <- H4. cbn [Z.eqb app]. assumption.
    + rewrite Em. split; [assumption|]. split; [nia|reflexivity].
  - destruct (H3 Em) as (H4 & H5). pose proof (Z.mod_pos_bound n P ltac:(lia)) as Hmb. rewrite H5. destruct (Z.eqb_spec (P - n mod P) 0) as [|_]; [lia|].
    replace (P - (P - n mod P)) with (n mod P) by lia.
    assert (Ep : pages_of (first, hl) = pages_of (first, n / P) ++ [first + n / P]).
    { rewrite H4. rewrite pages_of_split; [reflexivity| |lia]. apply Z.div_pos; lia. }
    replace (first + hl - 1) with (first + n / P) by lia.
    assert (M3 : hinv P K sub a1 L [] ((first + n / P) :: pages_of (first, n / P) ++ X) [] FL (g ++ G)).
    { revert M2. apply hinv_perm; try reflexivity. rewrite Ep. clear. pz. }
    destruct (hcontribute_ok P K sub a1 _ L [] (first + n / P) _ [] FL (g ++ G) (n mod P) false o true HP M3 ltac:(lia) ltac:(intros; split; [reflexivity|lia]) ltac:(discriminate) eq_refl)
      as (a2 & E2 & I2 & A1 & A2 & A3 & M4). cbv iota in E2. rewrite E2. cbn [obind].
    eexists _, (ADone (first * P) n true fr), g. split; [reflexivity|]. split; [reflexivity|]. split; [assumption|].
    split; [apply record_info; exact (same_info_trans _ _ _ I1 I2)|]. apply hinv_record.
    assert (Hlast : last_hp P (Span (first * P) n o true) = first + n / P) by (unfold last_hp; cbn [sp_page sp_len]; rewrite last_raw by lia; rewrite Hdiv; reflexivity).
    assert (Hfresh : don_fresh P a2 L (Span (first * P) n o true)) by (intros _; rewrite Hlast; auto).
    destruct (Z.lt_ge_cases n P) as [Hlt|Hge].
    + apply hattach_F; [|exact Hfresh]. unfold key. cbn [sp_page sp_len sp_obj]. rewrite Hdiv, Hmod.
      assert (Hz : n / P = 0) by (apply Z.div_small; lia). assert (Hz2 : n mod P = n) by (apply Z.mod_small; lia). rewrite Hz, Hz2, Z.add_0_r in M4. exact M4.
    + apply hattach_W; [| |exact Hfresh].
      * unfold whole, tail. cbn [sp_page sp_len sp_obj]. destruct (Z.eqb_spec (n mod P) 0); [contradiction|]. rewrite Hdiv. exact M4.
      * cbn [sp_page sp_len sp_don]. destruct (Z.eqb_spec (n mod P) 0); [contradiction|]. auto.
Qed.

Lemma htry_span P K sub a L X FL G n d o : 1 < P -> hinv P K sub a L [] X [] FL G -> 0 < n < P -> (d = true -> n = 1) ->
  exists f r, try_get P sub (hp_filler a) n d o = Some (f, r) /\
  match r with
  | None => f = hp_filler a
  | Some (x, i, _) => hinv P K sub (hp_set_filler a f) (Span (x * P + i) n o false :: L) [] X [] FL G
  end.
Proof.
  intros HP H Hn Hd. destruct (htry_get_ok P K sub a L [] X [] FL G n d o HP H Hn Hd) as (f & r & E & M). exists f, r. split; [assumption|].
  destruct r as [((x, i), b)|]; [|assumption]. destruct M as (M1 & M2 & M3). apply hattach_F; [|discriminate]. unfold key. cbn [sp_page sp_len sp_obj].
  replace ((x * P + i) / P) with x by (apply (Z.div_unique _ _ _ i); lia). replace ((x * P + i) mod P) with i by (apply (Z.mod_unique _ _ x); lia). assumption.
Qed.

Lemma alloc_small_ok P K sub a L X FL G n d o e : 1 < P -> 0 < K -> hinv P K sub a L [] X [] FL G -> 0 < n <= P / 2 -> (d = true -> n = 1) -> os_ok G 1 (e_os e) ->
  exists a' out g, alloc_small P sub a n d o e = Some (a', out, g) /\
  match out with
  | ADone p n' don _ => n' = n /\ same_info (record P 1 a n) a' /\ hinv P K sub a' (Span p n o don :: L) [] X [] FL (g ++ G)
  | AFail => g = [] /\ refused 1 e /\ same_info a a' /\ hinv P K sub a' L [] X [] FL G
  | AHold x _ => same_info a a' /\ hinv P K sub a' L [] (x :: X) [] FL (g ++ G)
  end.
Proof.
  intros HP HK H Hn Hd Ho. assert (P / 2 < P) by (apply Z.div_lt; lia). unfold alloc_small.
  destruct (htry_span P K sub a L X FL G n d o HP H ltac:(lia) Hd) as (f & r & E & M). rewrite E. cbn [obind]. destruct r as [((x, i), b)|].
  - eexists _, (ADone _ n false b), []. split; [reflexivity|]. split; [reflexivity|]. split; [apply record_info; split; reflexivity|]. apply hinv_record. exact M.
  - subst f. rewrite set_filler_same. destruct (hget_ok P K sub a L [] X [] FL G 1 e H ltac:(lia) Ho) as (res & c & g & E2 & M). rewrite E2. cbn [obind].
    destruct res as [(r, fr)|].
    + destruct M as (M1 & M2). destruct r as (x, len). cbn [fst snd] in *. subst len. eexists _, (AHold x fr), g. split; [reflexivity|]. split; [split; reflexivity|exact M2].
    + destruct M as (M1 & M2 & _ & M4). eexists _, AFail, []. split; [reflexivity|]. split; [reflexivity|]. split; [exact M2|]. split; [split; reflexivity|assumption].
Qed.

Lemma set_donated_same a : hp_set_donated a (hp_donated a + 0) = a.
Proof. rewrite Z.add_0_r. destruct a; reflexivity. Qed.

Lemma refill_end_ok P K sub a L x X FL G n d o : 1 < P -> hinv P K sub a L [] (x :: X) [] FL G -> 0 < n <= P / 2 -> (d = true -> n = 1) ->
  exists a' p, hp_refill_end P sub a x n d o = Some (a', p) /\ same_info (record P 1 a n) a' /\ hinv P K sub a' (Span p n o false :: L) [] X [] FL G.
Proof.
  intros HP H Hn Hd. assert (P / 2 < P) by (apply Z.div_lt; lia).
  destruct (hcontribute_ok P K sub a a L [] x X [] FL G n d o false HP H ltac:(lia) ltac:(discriminate) Hd (eq_sym (set_donated_same a))) as (a2 & E & I & _ & _ & _ & M).
  unfold hp_refill_end. rewrite E. cbn [obind]. eexists _, (x * P). split; [reflexivity|]. split; [apply record_info; assumption|]. apply hinv_record. apply hattach_F; [|discriminate].
  unfold key. cbn [sp_page sp_len sp_obj]. rewrite Z.div_mul, Z.mod_mul by lia. exact M.
Qed.

Lemma alloc_large_ok P K sub a L X FL G n o er e : 1 < P -> 0 < K -> hinv P K sub a L [] X [] FL G -> 0 < n <= K * P ->
  os_ok G K (e_os er) -> os_ok G (hl_from_pages P n) (e_os e) ->
  exists a' out g, alloc_large P K sub a n false o er e = Some (a', out, g) /\
  match out with
  | ADone p n' don _ => n' = n /\ same_info (record P 1 a n) a' /\ hinv P K sub a' (Span p n o don :: L) [] X [] FL (g ++ G)
  | AFail => g = [] /\ refused (hl_from_pages P n) e /\ same_info a a' /\ hinv P K sub a' L [] X [] FL G
  | AHold _ _ => False
  end.
Proof.
  intros HP HK H Hn Hor Ho.
  assert (Raw : forall b, same_info a b -> hinv P K sub b L [] X [] FL G -> exists a' out g, alloc_raw P sub b n false o e = Some (a', out, g) /\
    match out with
    | ADone p n' don _ => n' = n /\ same_info (record P 1 a n) a' /\ hinv P K sub a' (Span p n o don :: L) [] X [] FL (g ++ G)
    | AFail => g = [] /\ refused (hl_from_pages P n) e /\ same_info a a' /\ hinv P K sub a' L [] X [] FL G
    | AHold _ _ => False
    end).
  { intros b Ib Hb. destruct (alloc_raw_ok P K sub b L X FL G n o e HP HK Hb ltac:(lia) Ho) as (a' & out & g & E & M). exists a', out, g. split; [assumption|]. destruct out; [| |assumption].
    - destruct M as (M1 & _ & M2 & M3). split; [assumption|]. split; [|assumption]. refine (same_info_trans _ _ _ _ M2). apply record_info. assumption.
    - destruct M as (M1 & M2 & M3 & M4). split; [assumption|]. split; [assumption|]. split; [|assumption]. exact (same_info_trans _ _ _ Ib M3). }
  unfold alloc_large. destruct (hl_from_pages P n * P =? n) eqn:Eh; [apply Raw; [apply same_info_refl|assumption]|].
  assert (Ht : exists f r, (if n <? P then try_get P sub (hp_filler a) n false o else Some (hp_filler a, None)) = Some (f, r) /\
    match r with None => f = hp_filler a | Some (x, i, _) => hinv P K sub (hp_set_filler a f) (Span (x * P + i) n o false :: L) [] X [] FL G end).
  { destruct (Z.ltb_spec n P); [|exists (hp_filler a), None; auto]. apply htry_span; [assumption|assumption|lia|discriminate]. }
  destruct Ht as (f & r & E & M). rewrite E. cbn [obind]. destruct r as [((x, i), b)|].
  { eexists _, (ADone _ n false b), []. split; [reflexivity|]. split; [reflexivity|]. split; [apply record_info; split; reflexivity|]. apply hinv_record. exact M. }
  subst f. rewrite set_filler_same. destruct (hrs_get_ok P K sub a L [] X [] FL G n ltac:(lia) HK H ltac:(lia)) as (s & r & Er & M). rewrite Er. cbn [obind].
  destruct r as [(p, fr)|].
  { eexists _, (ADone p n false fr), []. split; [reflexivity|]. split; [reflexivity|]. split; [apply record_info; split; reflexivity|]. apply hinv_record. apply M. }
  subst s. rewrite set_regions_same. destruct (_ <? min_slack P); [apply Raw; [apply same_info_refl|assumption]|].
  destruct (_ && _); [apply Raw; [apply same_info_refl|assumption]|].
  destruct (hadd_region_ok P K sub a L [] X [] FL G er ltac:(lia) HK H Hor) as (ok & a2 & g & Ea & I2 & M2 & M3). rewrite Ea. cbn [obind]. destruct ok.
  - destruct (M3 n Hn) as (s & p & b & E3). destruct (hrs_get_ok P K sub a2 L [] X [] FL (g ++ G) n ltac:(lia) HK M2 ltac:(lia)) as (s' & r' & E4 & M4). rewrite E3 in E4. injection E4 as <- <-.
    rewrite E3. cbn [obind]. eexists _, (ADone p n false b), g. split; [reflexivity|]. split; [reflexivity|]. split; [apply record_info; exact I2|]. apply hinv_record. apply M4.
  - destruct M3 as (-> & _). apply Raw; assumption.
Qed.

Lemma hdelete_ok P K sub a L X FL G s os osr pr1 pr2 : 1 < P -> 0 < K -> hinv P K sub a (s :: L) [] X [] FL G ->
  exists a', hp_delete P K sub a (sp_page s) (sp_len s) (sp_don s) (sp_obj s) os osr pr1 pr2 = Some a' /\
    same_info (record P (-1) a (sp_len s)) a' /\ hinv P K sub a' L [] X [] FL G.
Proof.
  intros HP HK H. apply (hinv_record P K sub (-1) a (sp_len s)) in H. unfold hp_delete. set (b := record P (-1) a (sp_len s)) in *.
  destruct (hdetach_ok P K sub b L [] X [] FL G s HP HK H) as (Hd & [(Ht & Hl0 & Hm & Hi)|[(Ht & Hnd & Hi)|(Ht & Hno & (Hp & Hl & Hdon) & Hi)]]); rewrite Ht.
  - unfold delete_from_hugepage. assert (Ei : sp_page s - sp_page s / P * P = sp_page s mod P) by (rewrite Z.mod_eq by lia; lia). rewrite Ei.
    unfold key in Hi. pose proof (Q_tracker _ _ _ _ _ _ _ _ _ _ _ _ Hi) as Htr.
    destruct (hput_ok P K sub b L [] X [] FL G _ _ _ _ os HP Hi) as (f & r & E & M). rewrite E. cbn [obind]. destruct r as [y|].
    + destruct (hrelease_hugepage_ok P K sub _ L [] X [] FL G _ pr1 HP M) as (a' & E2 & I2 & _ & M2). exists a'. split; [exact E2|]. split; [exact I2|assumption].
    + eexists. split; [reflexivity|]. destruct (sp_don s) eqn:Es; [|split; [split; reflexivity|assumption]]. split; [split; reflexivity|].
      destruct (Hd Es) as (D1 & D2 & D3). assert (El : last_hp P s = sp_page s / P) by (unfold last_hp; apply last_one; lia). rewrite El in *.
      apply habandon_ok; hred; assumption.
  - destruct (Hi osr) as (rs & calls & E & M). rewrite E. cbn [obind]. eexists. split; [reflexivity|]. split; [split; reflexivity|assumption].
  - rewrite Hno. cbn [obind]. assert (Hn : 0 < sp_len s) by lia. destruct (hl_spec P (sp_len s) ltac:(lia) Hn) as (H1 & H2 & H3). pose proof (Z.mod_pos_bound (sp_len s) P ltac:(lia)) as Hmb.
    assert (Hdv : 1 <= sp_len s / P) by (apply Z.div_le_lower_bound; lia).
    destruct (Z.eq_dec (sp_len s mod P) 0) as [Em|Em].
    + destruct (H2 Em) as (H4 & H5). rewrite H5, Z.eqb_refl. cbn [obind].
      unfold tail in Hi. rewrite Em in Hi. cbn [Z.eqb app] in Hi. unfold whole in Hi. rewrite <- H4 in Hi.
      destruct (hrelease_insert_ok P K sub b L [] X [] FL G _ pr2 Hi H1) as (c & E & M). rewrite E. cbn [obind]. eexists. split; [reflexivity|]. split; [split; reflexivity|assumption].
    + destruct (H3 Em) as (H4 & H5). rewrite H5. destruct (Z.eqb_spec (P - sp_len s mod P) 0) as [|_]; [lia|]. replace (P - (P - sp_len s mod P)) with (sp_len s mod P) by lia.
      rewrite H4. replace (sp_page s / P + (sp_len s / P + 1) - 1) with (sp_page s / P + sp_len s / P) by lia. replace (sp_len s / P + 1 - 1) with (sp_len s / P) by lia.
      assert (El : last_hp P s = sp_page s / P + sp_len s / P) by (unfold last_hp; apply last_raw; lia).
      assert (Es : sp_don s = true) by (rewrite Hdon; destruct (Z.eqb_spec (sp_len s mod P) 0); [contradiction|reflexivity]). destruct (Hd Es) as (D1 & D2 & D3). rewrite El in *.
      unfold tail in Hi. destruct (Z.eqb_spec (sp_len s mod P) 0) as [|_]; [contradiction|]. cbn [app] in Hi. set (last := sp_page s / P + sp_len s / P) in *.
      pose proof (Q_tracker _ _ _ _ _ _ _ _ _ _ _ _ Hi) as Htr. rewrite Htr. cbn [negb].
      destruct (hput_ok P K sub b L [] _ [] FL G _ _ _ _ os HP Hi) as (f & r & E & M). rewrite E. cbn [obind]. destruct r as [y|].
      * set (b1 := hp_set_filler b f) in *. destruct (pt_released (fl_tr (hp_filler b1) last)).
        -- destruct (hrelease_hugepage_ok P K sub _ L [] _ [] FL G _ pr1 HP M) as (a2 & E2 & I2 & _ & M2). rewrite E2. cbn [obind].
           destruct (hrelease_insert_ok P K sub a2 L [] X [] FL G _ pr2 M2 Hdv) as (c & E3 & M3). rewrite E3. cbn [obind]. eexists. split; [reflexivity|]. split; [exact I2|assumption].
        -- cbn [obind]. apply hforget_ok in M; [|assumption]. change (hp_was_donated b1 last) with (hp_was_donated b last) in M. change (hp_abandoned b1 last) with (hp_abandoned b last) in M.
           rewrite D1, D2 in M. set (b2 := hp_set_tracker (hp_set_donated b1 (hp_donated b1 - 1)) last false) in *.
           assert (M2 : hinv P K sub b2 L [] (pages_of (sp_page s / P, sp_len s / P + 1) ++ X) [] FL G).
           { revert M. apply hinv_perm; try reflexivity. rewrite pages_of_split by lia. fold last. unfold whole. change (pages_of (last, 1)) with [last]. clear. pz. }
           destruct (hrelease_insert_ok P K sub b2 L [] X [] FL G _ pr2 M2 ltac:(cbn [snd]; lia)) as (c & E3 & M3). rewrite E3. cbn [obind]. eexists. split; [reflexivity|]. split; [split; reflexivity|assumption].
      * cbn [obind]. assert (M2 : hinv P K sub (abandon (hp_set_filler b f) last) L [] (whole P s ++ X) [] FL G) by (apply habandon_ok; hred; assumption).
        destruct (hrelease_insert_ok P K sub _ L [] X [] FL G _ pr2 M2 Hdv) as (c & E3 & M3). rewrite E3. cbn [obind]. eexists. split; [reflexivity|]. split; [split; reflexivity|assumption].
Qed.
