(** C52: memory in recent demand is not released; C53: the statistics of the decisions
    not to release. *)
From Coq Require Import Permutation.
From Verif Require Import Base TimeSeries TimeSeriesProps Subrelease SubreleaseSpec SubreleaseProofs SubreleaseSkip.
From Verif Require Import Filler FillerProofs2 FillerProofs4 FillerProofs6 FillerProps.

(** * C52: the demand of the recent past *)

(** The recent peak is the largest number of pages in use reported in the epochs that the
    interval, cut to the window, reaches back to, whatever was reported when; 0 if
    nothing was. *)
Theorem recent_peak_exact : forall c t last log interval w,
  good_cfg c -> reach_ts (sc_slots c) sentry_nil se_report t last log -> log_ok log ->
  0 <= interval -> epochs_of c (Z.min interval (sc_window c)) w ->
  top (reported log last w ss_num) (recent_peak c t interval).
Proof.
  intros c t last log i w G R L Hi E. unfold recent_peak. apply (peak_spec c t last log G R L _ w); [|exact E]. destruct G as (? & ? & ->). nia.
Qed.
Print Assumptions recent_peak_exact.

(** The recent demand is the largest difference, within an epoch of the short interval,
    between the largest and the smallest demand, plus the largest, over the epochs of
    the long interval, of the smallest demand, and at most the peak over the cap
    interval. *)
Theorem recent_demand_exact : forall c t last log short long ws wl wc,
  good_cfg c -> reach_ts (sc_slots c) sentry_nil se_report t last log -> log_ok log ->
  0 <= short -> 0 <= long -> 0 <= sc_cap c <= sc_window c -> (long <> 0 -> short <= long) ->
  epochs_of c (Z.min short (sc_window c)) ws -> epochs_of c (Z.min long (sc_window c)) wl -> epochs_of c (sc_cap c) wc ->
  exists fluctuation trend peak,
    top (swing log last ws) fluctuation /\ top (floor_of log last wl) trend /\ top (reported log last wc ss_num) peak /\
    recent_demand c t short long = Z.min peak (fluctuation + trend).
Proof.
  intros c t last log short long ws wl wc G R L Hs Hl Hc Hsl Es El Ec. assert (Hw : 0 <= sc_window c) by (destruct G as (? & ? & ->); nia).
  pose proof (fluct_spec c t last log G R L (Z.min short (sc_window c)) ws ltac:(lia) Es) as Tf.
  pose proof (trend_spec c t last log G R L (Z.min long (sc_window c)) wl ltac:(lia) El) as Tt.
  pose proof (peak_spec c t last log G R L (sc_cap c) wc ltac:(lia) Ec) as Tp.
  eexists. eexists. eexists. split; [exact Tf|]. split; [exact Tt|]. split; [exact Tp|]. unfold recent_demand. f_equal. unfold demand_trend. cbv zeta.
  assert (E1 : (if negb (short =? 0) && negb (long =? 0) then Z.min short long else short) = short).
  { destruct (Z.eqb_spec short 0); [reflexivity|]. destruct (Z.eqb_spec long 0); [reflexivity|]. cbn [negb andb]. specialize (Hsl n0). lia. }
  rewrite E1, !(Z.max_l _ 0) by lia. apply wrap64_small.
  pose proof (SubreleaseProofs.top_ok _ _ (swing_ok last log L ws) Tf). pose proof (SubreleaseProofs.top_ok _ _ (floor_ok last log L wl) Tt). unfold two64. cbv zeta in *. lia.
Qed.
Print Assumptions recent_demand_exact.

(** The realized fragmentation is the smallest number of free backed pages reported in
    the summary interval; the minimum number of free pages counts the unbacked too. *)
Theorem realized_fragmentation_exact : forall c t last log w,
  good_cfg c -> reach_ts (sc_slots c) sentry_nil se_report t last log -> log_ok log ->
  0 <= sc_summary c <= sc_window c -> epochs_of c (sc_summary c) w ->
  bottom (reported log last w ss_free) (realized_fragmentation c t).
Proof. intros c t last log w G R L Hi E. exact (backed_spec c t last log G R L _ w Hi E). Qed.
Print Assumptions realized_fragmentation_exact.

Theorem min_free_exact : forall c t last log interval w,
  good_cfg c -> reach_ts (sc_slots c) sentry_nil se_report t last log -> log_ok log ->
  interval <= sc_window c -> epochs_of c (Z.max interval 0) w ->
  bottom (reported log last w (fun v => ss_free v + ss_unmapped v)) (fst (min_free_pages c t interval)) /\
  bottom (reported log last w ss_free) (snd (min_free_pages c t interval)).
Proof.
  intros c t last log i w G R L Hi E. assert (Hw : 0 <= sc_window c) by (destruct G as (? & ? & ->); nia). unfold min_free_pages. cbv zeta. cbn [fst snd]. split.
  - exact (free_spec c t last log G R L (Z.max i 0) w ltac:(lia) E).
  - exact (backed_spec c t last log G R L (Z.max i 0) w ltac:(lia) E).
Qed.
Print Assumptions min_free_exact.

(** ** What a release leaves *)

(** The pages of the filler that are backed: in use or free. *)
Definition backed_pages (N : Z) (f : filler) : Z := fl_used_pages f + fl_free_pages N f.

(** For every state of the filler and every history of demand, with the filler's current
    demand reported last, as a release does: a release of any amount either releases
    nothing or leaves the backed pages above what is required, short of it by less than one
    hugepage (the one released last).  With a peak interval, what is required is no
    less than the pages in use, nor than the demand reported at any time of the
    interval. *)
Theorem release_keeps_recent_demand : forall c N sub f own lv ans desired from_partial f' r t last log e v peak short long required,
  good_cfg c -> 1 < N -> fl_reach N sub f own lv ->
  reach_ts (sc_slots c) sentry_nil se_report t last log -> log_ok log -> stats_ok v -> ss_num v = fl_used_pages f -> last <= e < 2 ^ 63 -> 0 <= peak ->
  let t' := snd (ts_report (sc_slots c) sentry_nil se_report t e v) in
  required_pages c t' peak short long = Some required ->
  release_pages N sub ans f desired from_partial (Some required) f' r ->
  fl_used_pages f' = fl_used_pages f /\ backed_pages N f' <= backed_pages N f /\
  (required <> 0 -> backed_pages N f' = backed_pages N f \/ required - N < backed_pages N f') /\
  (peak <> 0 -> fl_used_pages f <= required /\
     forall w e' v', epochs_of c (Z.min peak (sc_window c)) w -> In (e', v') log -> e - w < e' -> ss_num v' <= required).
Proof.
  intros c N sub f own lv ans desired fp f' r t last log e v peak short long required G HN Hf R L Hv Ev He Hp t' Hr Rel.
  destruct (release_pages_ok N sub ans f own lv desired fp (Some required) f' r HN (fl_reach_ok N sub f own lv HN Hf) Rel) as (Ok' & SP & U & Er & Bd & _ & _).
  assert (HK : 0 < sc_slots c) by apply G.
  assert (He0 : 0 <= last) by (destruct (reach_inv _ _ _ _ _ _ HK R) as (h & I); pose proof (i_range _ _ _ _ _ _ _ I); lia).
  pose proof (R_report _ _ _ _ _ _ e v R ltac:(lia)) as R'. replace (e <? last) with false in R' by lia. fold t' in R'.
  assert (L' : log_ok (log ++ [(e, v)])). { intros x u H. apply in_app_or in H as [H|[E|[]]]; [exact (L _ _ H)|]. inversion E; subst. exact Hv. }
  assert (Eu : fl_used_pages f' = fl_used_pages f) by (unfold fl_used_pages; now rewrite (sp_alloc _ _ SP)).
  assert (Hun : fl_unmapped f <= fl_unmapped f').
  { destruct (filler_release N sub f own lv ans desired fp (Some required) f' r HN Hf Rel) as (Er2 & _ & Mono & _).
    assert (S : forall l, (forall x, In x l -> In x own) -> sum_over l (released N f) <= sum_over l (released N f')).
    { induction l as [|x l IH]; intros Hl; [apply Z.le_refl|]. unfold sum_over in *. cbn [map zsum]. specialize (IH ltac:(intros y Hy; apply Hl; now right)). specialize (Mono x (Hl x (or_introl eq_refl))). lia. }
    specialize (S own ltac:(auto)). lia. }
  assert (Eb : backed_pages N f' = backed_pages N f - (fl_unmapped f' - fl_unmapped f)).
  { unfold backed_pages, fl_free_pages. rewrite Eu, (sp_size _ _ SP). lia. }
  split; [exact Eu|]. split; [lia|]. split.
  - intros N0. destruct Bd as [Bd|Bd]; [left; lia|].
    unfold release_target, desired_subrelease in Bd. apply Z.eqb_neq in N0. rewrite N0 in Bd. cbn [negb] in Bd. cbv zeta in Bd.
    fold (backed_pages N f) in Bd. destruct (Z.leb_spec (backed_pages N f) required) as [C|C].
    + destruct (Z.leb_spec (Z.max desired fp) (fl_unaccounted f)) as [D|D].
      * left. pose proof (fo_unacc _ _ _ _ _ (fl_reach_ok N sub f own lv HN Hf)) as U0. clear - Rel D U0 Er Eb.
        inversion Rel as [H1 H2|required' H1 Hs H2|desired1 f1 total1 f2 total2 H1 Hd H2 R1 R2]; subst; lia.
      * left. inversion Rel as [H1|required' H1 Hs H2|desired1 f1 total1 f2 total2 H1 Hd H2 R1 R2]; subst.
        -- lia.
        -- reflexivity.
        -- exfalso. revert H2. unfold desired_subrelease. rewrite N0. cbn [negb]. cbv zeta. fold (backed_pages N f).
           replace (backed_pages N f <=? required) with true by lia. replace (Z.max desired fp <=? fl_unaccounted f) with false by lia. lia.
    + right. destruct (Z.leb_spec (Z.max desired fp) (fl_unaccounted f + (backed_pages N f - required))); lia.
  - intros Np. unfold required_pages in Hr. apply Z.eqb_neq in Np. rewrite Np in Hr. cbn [andb negb] in Hr. inversion Hr as [Hr']. clear Hr.
    assert (All : forall w e' v', epochs_of c (Z.min peak (sc_window c)) w -> In (e', v') (log ++ [(e, v)]) -> e - w < e' -> ss_num v' <= recent_peak c t' peak).
    { intros w e' v' Ew Hin Le. destruct (recent_peak_exact c t' e (log ++ [(e, v)]) peak w G R' L' Hp Ew) as [(_ & M)|(_ & M)].
      - apply M. exists e', v'. auto.
      - exfalso. apply (M (ss_num v')). exists e', v'. auto. }
    split.
    + rewrite <- Ev. destruct G as (_ & Gp & Gw). set (m := Z.min peak (sc_window c)) in *.
      assert (Hm : 0 < m) by (unfold m; apply Z.eqb_neq in Np; nia).
      apply (All ((m + sc_epoch c - 1) / sc_epoch c) e v).
      * unfold epochs_of. pose proof (Z.div_mod (m + sc_epoch c - 1) (sc_epoch c) ltac:(lia)). pose proof (Z.mod_pos_bound (m + sc_epoch c - 1) (sc_epoch c) Gp). nia.
      * apply in_or_app. right. now left.
      * enough (1 <= (m + sc_epoch c - 1) / sc_epoch c) by lia. apply Z.div_le_lower_bound; lia.
    + intros w e' v' Ew Hin Le. apply (All w e' v' Ew); [apply in_or_app; now left|exact Le].
Qed.
Print Assumptions release_keeps_recent_demand.

(** What is reported as skipped is exactly why less than desired is released: nothing is
    reported iff the target is all that was desired; otherwise the pages reported are
    free pages that stay, no more than what the target leaves out, and the demand
    level is required and backed. *)
Theorem skipped_report_exact : forall N f desired total required,
  0 <= total < desired -> 0 <= required -> 0 <= fl_used_pages f -> 0 <= fl_free_pages N f ->
  let target := desired_subrelease N f desired total required in
  match skipped_report (fl_used_pages f) (fl_free_pages N f) desired total required with
  | None => target = desired
  | Some (pages, level) => total <= target < desired /\ 0 <= pages <= desired - target /\
      (pages = desired - target \/ pages = fl_free_pages N f - Z.min (fl_free_pages N f) (target - total)) /\
      level = Z.min (backed_pages N f) required
  end.
Proof.
  intros N f desired total required Ht Hr Hu Hf. cbv zeta. unfold skipped_report, desired_subrelease, backed_pages. cbv zeta.
  destruct (Z.eqb_spec required 0) as [->|N0]; cbn [negb]; [reflexivity|].
  destruct (Z.leb_spec (fl_used_pages f + fl_free_pages N f) required) as [C|C].
  - replace (desired <=? total) with false by lia. repeat split; try lia.
  - destruct (Z.leb_spec desired (total + (fl_used_pages f + fl_free_pages N f - required))) as [D|D]; [reflexivity|]. repeat split; try lia.
Qed.
Print Assumptions skipped_report_exact.

(** ** Concrete cases *)

(** The trackers of the filler: 16 slots of 225 s, huge_page_filler.h:1086-1087. *)
Definition filler_cfg : scfg := SCfg 16 3600000000000 300000000000 600000000000.
Example filler_cfg_good : good_cfg filler_cfg /\ 0 <= sc_cap filler_cfg <= sc_window filler_cfg /\ epochs_of filler_cfg 300000000000 2 /\ epochs_of filler_cfg 600000000000 3.
Proof. unfold good_cfg, epochs_of. vm_compute. intuition discriminate. Qed.

Definition demand_run : tseries sentry :=
  fold_left (fun t x => snd (ts_report 16 sentry_nil se_report t (fst x) (SStats (snd x) 50 0 0))) [(10, 400); (11, 900); (13, 300); (13, 500); (14, 200)] (ts_init sentry_nil 10).
Example demand_run_reach : exists log, reach_ts 16 sentry_nil se_report demand_run 14 log /\ log_ok log /\ length log = 5%nat.
Proof.
  exists (map (fun x => (fst x, SStats (snd x) 50 0 0)) [(10, 400); (11, 900); (13, 300); (13, 500); (14, 200)]). split; [|split; [|reflexivity]].
  - unfold demand_run. cbn [fold_left fst snd map].
    pose proof (R_new 16 sentry_nil se_report 10 ltac:(lia)) as R.
    apply (R_report _ _ _ _ _ _ 10 (SStats 400 50 0 0)) in R; [|lia]. apply (R_report _ _ _ _ _ _ 11 (SStats 900 50 0 0)) in R; [|lia].
    apply (R_report _ _ _ _ _ _ 13 (SStats 300 50 0 0)) in R; [|lia]. apply (R_report _ _ _ _ _ _ 13 (SStats 500 50 0 0)) in R; [|lia].
    apply (R_report _ _ _ _ _ _ 14 (SStats 200 50 0 0)) in R; [|lia]. exact R.
  - intros e v H. cbn in H. destruct H as [H|[H|[H|[H|[H|[]]]]]]; inversion H; subst; unfold stats_ok, len_max; cbn; lia.
Qed.
Example demand_case :
  recent_peak filler_cfg demand_run 300000000000 = 500 /\ recent_peak filler_cfg demand_run 900000000000 = 900 /\
  recent_demand filler_cfg demand_run 300000000000 900000000000 = 500 /\ realized_fragmentation filler_cfg demand_run = 50 /\
  min_free_pages filler_cfg demand_run (- 5) = (0, 0).
Proof. repeat split; vm_compute; reflexivity. Qed.

(** * C53: the decisions not to release *)

(** ** Specification *)

(** What the filler tells the tracker: the demand, at the two epochs read from the
    clock, and a decision not to release [pages], which was right if the demand reaches
    [level] again. *)
Inductive sop := Demand (e e2 : Z) (v : sstats) | Skipped (e pages level : Z).
Definition st_step (c : scfg) (s : sstate) (o : sop) : sstate :=
  match o with Demand e e2 v => st_report c s e e2 v | Skipped e pages level => st_skip c s e pages level end.
Definition st_run (c : scfg) (e0 : Z) (ops : list sop) : sstate := fold_left (st_step c) ops (st_init e0).

Definition sop_ok (o : sop) : Prop :=
  match o with
  | Demand e e2 v => 0 <= e < 2 ^ 63 /\ 0 <= e2 < 2 ^ 63 /\ 0 <= ss_num v
  | Skipped e pages level => 0 <= e < 2 ^ 63 /\ 0 <= pages /\ 0 <= level
  end.
(** The demands reported, and the decisions not to release something. *)
Definition demands_of (ops : list sop) : list Z := flat_map (fun o => match o with Demand _ _ v => [ss_num v] | Skipped _ _ _ => [] end) ops.
Definition decisions_of (ops : list sop) : list (Z * Z) :=
  flat_map (fun o => match o with Skipped _ pages level => if pages =? 0 then [] else [(pages, level)] | Demand _ _ _ => [] end) ops.

(** The figures for a list of decisions: pages and number. *)
Definition figures (l : list (Z * Z)) : decided := Decided (zsum (map fst l)) (Z.of_nat (length l)).

(** ** Theorems *)
Definition s_inv (c : scfg) (s : sstate) (ops : list sop) : Prop :=
  (exists last log, reach_ts (sc_slots c) sentry_nil se_report (st_t s) last log /\ forall e v, In (e, v) log -> 0 <= ss_num v /\ In (ss_num v) (demands_of ops)) /\
  exists last log gC gR C pend rest, cinv c (st_c s) last log gC gR (decisions_of ops) (demands_of ops) C pend rest.

Lemma cinv_more c s last log gC gR all dem dem' C pend rest : (forall q, In q dem -> In q dem') ->
  cinv c s last log gC gR all dem C pend rest -> cinv c s last log gC gR all dem' C pend rest.
Proof.
  intros H [A1 A2 A3 A4 A5 A6 A7 A8 A9 A10 A11 A12 A13]. constructor; auto.
  - intros d Hd. destruct (A10 d Hd) as (q & Hq & Le). exists q. auto.
  - intros x Hx. destruct (A11 x Hx) as (q & Hq & Le). exists q. auto.
Qed.

Lemma max_report l : (forall v : sstats, In v l -> 0 <= ss_num v) -> let e := fold_left se_report l sentry_nil in
  ss_num (se_max e) = 0 \/ exists v, In v l /\ ss_num (se_max e) = ss_num v.
Proof.
  induction l as [|v l IH] using rev_ind; intros H; [left; reflexivity|]. cbv zeta in *. rewrite fold_left_app. cbn [fold_left].
  assert (Hv : In v (l ++ [v])) by (apply in_or_app; right; now left).
  specialize (IH ltac:(intros u Hu; apply H, in_or_app; now left)). set (e := fold_left se_report l sentry_nil) in *. unfold se_report. cbn [se_max].
  destruct (se_empty e); [rewrite Z.ltb_irrefl; right; now exists v|]. destruct (_ <? _); [right; now exists v|].
  destruct IH as [IH|(u & Hu & IH)]; [now left|right]. exists u. split; [apply in_or_app; now left|exact IH].
Qed.

Lemma demands_snoc ops o : demands_of (ops ++ [o]) = demands_of ops ++ demands_of [o].
Proof. unfold demands_of. apply flat_map_app. Qed.
Lemma decisions_snoc ops o : decisions_of (ops ++ [o]) = decisions_of ops ++ decisions_of [o].
Proof. unfold decisions_of. apply flat_map_app. Qed.

Lemma s_inv_run c e0 ops : 1 < sc_slots c -> 0 < sc_epoch c -> 0 <= sc_summary c -> 0 <= e0 < 2 ^ 63 -> Forall sop_ok ops ->
  s_inv c (st_run c e0 ops) ops.
Proof.
  intros HK Hep Hs He0. assert (HK0 : 0 < sc_slots c) by lia. induction ops as [|o ops IH] using rev_ind; intros Fo.
  { split; [exists e0, []; split; [apply R_new, He0|intros e v []]|].
    exists e0, [], [], [], [], [], []. constructor; cbn; auto; try (intros; contradiction); try constructor; try lia. }
  apply Forall_app in Fo as (Fo & Fo1). inversion Fo1 as [|? ? Ho _]; subst. specialize (IH Fo). unfold st_run in *. rewrite fold_left_app. cbn [fold_left].
  set (s := fold_left (st_step c) ops (st_init e0)) in *. destruct IH as ((last & log & R & Hl) & (cl & clog & gC & gR & C & pend & rest & I)).
  destruct o as [e e2 v|e pages level]; cbn [st_step sop_ok] in *.
  - destruct Ho as (He & He2 & Hv). unfold st_report.
    pose proof (R_report _ _ _ _ _ _ e v R He) as R'. destruct (ts_report (sc_slots c) sentry_nil se_report (st_t s) e v) as (moved & t') eqn:Et. cbn [snd] in R'.
    assert (Hd : In (ss_num v) (demands_of (ops ++ [Demand e e2 v]))) by (rewrite demands_snoc; apply in_or_app; right; now left).
    assert (Hm : forall q, In q (demands_of ops) -> In q (demands_of (ops ++ [Demand e e2 v]))) by (intros q Hq; rewrite demands_snoc; apply in_or_app; now left).
    assert (Hl' : forall x u, In (x, u) ((if e <? last then [] else log) ++ [(e, v)]) -> 0 <= ss_num u /\ In (ss_num u) (demands_of (ops ++ [Demand e e2 v]))).
    { intros x u H. apply in_app_or in H as [H|[H|[]]]; [|inversion H; subst; auto]. destruct (e <? last); [destruct H|]. destruct (Hl _ _ H). auto. }
    assert (Ed : decisions_of (ops ++ [Demand e e2 v]) = decisions_of ops) by (rewrite decisions_snoc; apply app_nil_r).
    pose proof (cinv_more _ _ _ _ _ _ _ _ _ _ _ _ Hm I) as I'. rewrite <- Ed in I'.
    destruct (moved && (0 <? d_count (cs_pending (st_c s)))); [|split; cbn [st_t st_c]; [exists e; eexists; split; [exact R'|exact Hl']|do 7 eexists; exact I']].
    destruct (timeseries_recent _ _ _ _ _ _ _ _ HK R') as (_ & Er & _). destruct (ts_recent (sc_slots c) t') as (taken & r) eqn:Erec. cbn [snd] in Er.
    set (peak := if taken <=? sc_summary_epochs c then Z.max (ss_num v) (ss_num (se_max r)) else ss_num v).
    assert (Hp : 0 <= peak /\ In peak (demands_of (ops ++ [Demand e e2 v]))).
    { assert (Hr : ss_num (se_max r) = 0 \/ 0 <= ss_num (se_max r) /\ In (ss_num (se_max r)) (demands_of (ops ++ [Demand e e2 v]))).
      { rewrite Er. destruct (reach_inv _ _ _ _ _ _ HK0 R') as (h & Iv). rewrite (i_entries _ _ _ _ _ _ _ Iv) by lia. change (Z.to_nat 1) with 1%nat.
        destruct (nth_error h 1) as [(x & d)|]; [|left; reflexivity]. cbn [snd]. destruct (max_report (at_epoch ((if e <? last then [] else log) ++ [(e, v)]) x)) as [E|(u & Hu & E)].
        - intros u Hu. apply in_at_epoch in Hu. apply (Hl' _ _ Hu).
        - now left.
        - right. rewrite E. apply in_at_epoch in Hu. apply (Hl' _ _ Hu). }
      unfold peak. destruct (taken <=? sc_summary_epochs c); [|auto]. destruct Hr as [Hr|(Hr & Hi)]; [rewrite Hr, Z.max_l by lia; auto|].
      destruct (Z.max_spec (ss_num v) (ss_num (se_max r))) as [(_ & ->)|(_ & ->)]; auto. }
    destruct Hp as (Hp & Hpi). destruct (cinv_peak c (st_c s) _ _ _ _ _ _ _ _ _ e2 peak HK0 Hep Hs I' He2 Hp Hpi) as (log2 & gC2 & gR2 & C2 & pend2 & rest2 & I2).
    split; cbn [st_t st_c]; [exists e; eexists; split; [exact R'|exact Hl']|]. do 7 eexists. exact I2.
  - destruct Ho as (He & Hpg & Hlv). assert (Ed : demands_of (ops ++ [Skipped e pages level]) = demands_of ops) by (rewrite demands_snoc; apply app_nil_r). unfold st_skip.
    destruct (Z.eqb_spec pages 0) as [->|Np].
    + assert (Ec : decisions_of (ops ++ [Skipped e 0 level]) = decisions_of ops) by (rewrite decisions_snoc; apply app_nil_r).
      unfold s_inv. rewrite Ed, Ec. split; [exists last, log; auto|]. do 7 eexists. exact I.
    + assert (Ec : decisions_of (ops ++ [Skipped e pages level]) = decisions_of ops ++ [(pages, level)]).
      { rewrite decisions_snoc. unfold decisions_of at 2. cbn [flat_map]. replace (pages =? 0) with false by lia. reflexivity. }
      unfold s_inv. rewrite Ed, Ec. cbn [st_t st_c]. split; [exists last, log; auto|].
      destruct (cinv_skip c (st_c s) _ _ _ _ _ _ _ _ _ e pages level HK0 I He Hlv) as (log2 & gC2 & gR2 & C2 & rest2 & I2). do 7 eexists. exact I2.
Qed.

Lemma sum_dec_figures l : zsum (map fst l) < two64 -> Z.of_nat (length l) < two64 -> (forall d, In d l -> 0 <= fst d) -> sum_dec l = figures l.
Proof.
  intros A B P. unfold sum_dec, figures. assert (0 <= zsum (map fst l)).
  { clear A B. induction l as [|d l IH]; cbn [map zsum]; [lia|]. specialize (IH ltac:(intros x Hx; apply P; now right)). specialize (P d (or_introl eq_refl)). lia. }
  rewrite (wrap64_small (zsum (map fst l))) by (split; assumption). rewrite (wrap64_small (Z.of_nat (length l))) by (split; [apply Zle_0_nat|assumption]). reflexivity.
Qed.

(** For every history of demands and decisions, the clock going backwards included: the
    decisions counted as correct, as pending and as neither are different ones, so none is
    counted twice, and the figures are exactly theirs; and a decision is counted as correct
    only if a demand at its level was reported at some time.

    Missing from the full property (refuted below): that the demand came after the
    decision. *)
Theorem skip_statistics_partial : forall c e0 ops, 1 < sc_slots c -> 0 < sc_epoch c -> 0 <= sc_summary c -> 0 <= e0 < 2 ^ 63 -> Forall sop_ok ops ->
  let all := decisions_of ops in
  zsum (map fst all) < two64 -> Z.of_nat (length all) < two64 ->
  let s := st_c (st_run c e0 ops) in
  exists correct pending neither,
    Permutation all (correct ++ pending ++ neither) /\
    cs_total s = figures all /\ cs_correct s = figures correct /\ cs_pending s = figures pending /\
    forall d, In d correct -> exists q, In q (demands_of ops) /\ snd d <= q.
Proof.
  intros c e0 ops HK Hep Hs He0 Fo all B1 B2 s. destruct (s_inv_run c e0 ops HK Hep Hs He0 Fo) as (_ & (last & log & gC & gR & C & pend & rest & I)).
  pose proof I as [A1 A2 A3 A4 A5 A6 A7 A8 A9 A10 A11 A12 A13]. fold all in A3, A4, A5.
  assert (Pos : forall d, In d all -> 0 <= fst d).
  { intros d Hd. unfold all, decisions_of in Hd. apply in_flat_map in Hd as (o & Ho & Hd). rewrite Forall_forall in Fo. specialize (Fo o Ho).
    destruct o as [e e2 v|e pages level]; [destruct Hd|]. destruct (pages =? 0); [destruct Hd|]. destruct Hd as [<-|[]]. cbn. apply Fo. }
  assert (Part : forall a b, Permutation all (a ++ b) -> sum_dec a = figures a).
  { intros a b P. assert (Ps : forall d, In d (a ++ b) -> 0 <= fst d) by (intros d Hd; apply Pos, (Permutation_in d (Permutation_sym P) Hd)).
    assert (Hb : 0 <= zsum (map fst b)). { assert (Pb : forall d, In d b -> 0 <= fst d) by (intros d Hd; apply Ps, in_or_app; now right). clear - Pb. induction b as [|d b IH]; cbn [map zsum]; [lia|].
      specialize (IH ltac:(intros x Hx; apply Pb; now right)). specialize (Pb d (or_introl eq_refl)). lia. }
    apply sum_dec_figures; [| |intros d Hd; apply Ps, in_or_app; now left].
    - assert (E : zsum (map fst all) = zsum (map fst (a ++ b))) by (clear - P; induction P; cbn [map zsum]; lia). rewrite map_app, zsum_app in E. lia.
    - pose proof (Permutation_length P) as E. rewrite app_length in E. lia. }
  exists (gC ++ flat_map (decs_at log) C), pend, rest. split; [now rewrite <- app_assoc|]. split; [unfold s; rewrite A5; apply (Part all []); now rewrite app_nil_r|].
  split; [unfold s; rewrite A6; apply (Part _ (pend ++ rest)); now rewrite <- app_assoc|].
  split; [unfold s; rewrite A7; apply (Part _ ((gC ++ flat_map (decs_at log) C) ++ rest))|].
  - etransitivity; [exact A4|]. rewrite app_assoc. apply Permutation_app_swap_app.
  - intros d Hd. apply in_app_or in Hd as [Hd|Hd]; [exact (A10 d Hd)|]. apply in_flat_map in Hd as (x & Hx & Hd). destruct (A11 x Hx) as (q & Hq & Le). exists q. split; [exact Hq|].
    pose proof (dec_num log x d A2 Hd). lia.
Qed.
Print Assumptions skip_statistics_partial.

(** A decision can be counted as correct although the demand never reached its level
    again: the peak that led to it, reported earlier in the same epoch, counts as the
    confirmation. *)
Theorem skip_correct_needs_demand_refuted : ~ (forall ops1 e pages level ops2,
  Forall sop_ok (ops1 ++ Skipped e pages level :: ops2) -> pages <> 0 -> decisions_of (ops1 ++ ops2) = [] ->
  cs_correct (st_c (st_run filler_cfg 0 (ops1 ++ Skipped e pages level :: ops2))) = figures [(pages, level)] ->
  exists q, In q (demands_of ops2) /\ level <= q).
Proof.
  intros H. destruct (H [Demand 5 5 (SStats 100 0 0 0); Demand 5 5 (SStats 10 90 0 0)] 5 50 100 [Demand 6 6 (SStats 10 90 0 0)]) as (q & [<-|[]] & Le).
  - repeat constructor; cbn; lia.
  - discriminate.
  - reflexivity.
  - vm_compute. reflexivity.
  - cbn in Le. lia.
Qed.
Print Assumptions skip_correct_needs_demand_refuted.

(** The decision in that history is the one the filler takes: 10 pages in use, 90 free, 50
    to release, and a recent peak of 100. *)
Example skip_case :
  recent_peak filler_cfg (st_t (st_run filler_cfg 0 [Demand 5 5 (SStats 100 0 0 0); Demand 5 5 (SStats 10 90 0 0)])) 300000000000 = 100 /\
  skipped_report 10 90 50 0 100 = Some (50, 100) /\
  let s := st_c (st_run filler_cfg 0 [Demand 5 5 (SStats 1000 0 0 0); Demand 7 7 (SStats 200 0 0 0); Skipped 7 900 1000; Skipped 8 50 550; Skipped 8 50 500; Demand 9 9 (SStats 600 0 0 0)]) in
  cs_total s = Decided 1000 3 /\ cs_correct s = Decided 100 2 /\ cs_pending s = Decided 900 1.
Proof. repeat split; vm_compute; reflexivity. Qed.
