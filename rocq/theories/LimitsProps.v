(** * Memory limits (C31)

    Specification.  [plays rel brk w log w'] says that the calls in [log], made one after the other from [w], give the results
    in [log] and end in [w'].  [got_total log] is the number of pages reported as released by them. *)
From Coq Require Import Permutation.
From Verif Require Import Base Limits.

Fixpoint plays {W} (rel brk : op W) (w : W) (log : list call) (w' : W) : Prop :=
  match log with
  | [] => w' = w
  | c :: log => let (w1, got) := (if ca_break c then brk else rel) w (ca_heap c) (ca_asked c) in ca_got c = got /\ plays rel brk w1 log w'
  end.
Definition got_total (log : list call) : Z := zsum (map ca_got log).
(** Every call asks for all that is still missing. *)
Definition asks_missing (pages : Z) (log : list call) : Prop :=
  forall pre c post, log = pre ++ c :: post -> ca_asked c = Z.max 0 (pages - got_total pre).
(** Every heap was asked, with or without breaking hugepages. *)
Definition all_asked (cf : config) (break : bool) (log : list call) : Prop :=
  forall h, In h (heaps cf) -> exists c, In c log /\ ca_heap c = h /\ ca_break c = break.

(** ** Lemmas *)

Lemma plays_app {W} (rel brk : op W) l1 : forall w l2 w1 w2, plays rel brk w l1 w1 -> plays rel brk w1 l2 w2 -> plays rel brk w (l1 ++ l2) w2.
Proof.
  induction l1 as [|c l1 IH]; intros w l2 w1 w2 H1 H2; cbn [plays app] in *; [subst; assumption|].
  destruct ((if ca_break c then brk else rel) w (ca_heap c) (ca_asked c)) as (w3, got). destruct H1 as (A & B). split; [assumption|]. eapply IH; eassumption.
Qed.
Lemma got_app l1 l2 : got_total (l1 ++ l2) = got_total l1 + got_total l2.
Proof. unfold got_total. rewrite map_app. apply zsum_app. Qed.
Lemma got_one c : got_total [c] = ca_got c.
Proof. unfold got_total. cbn [map]. rewrite zsum_cons. change (zsum []) with 0. lia. Qed.

Lemma asks_snoc pages l c : asks_missing pages l -> ca_asked c = Z.max 0 (pages - got_total l) -> asks_missing pages (l ++ [c]).
Proof.
  intros H E pre d post Eq. 
  destruct post as [|z post] using rev_ind.
  - apply app_inj_tail in Eq. destruct Eq as (<- & <-). assumption.
  - clear IHpost. rewrite app_comm_cons, app_assoc in Eq. apply app_inj_tail in Eq. destruct Eq as (Eq & _). apply (H _ _ _ Eq).
Qed.

Lemma ceil_covers cf b : 0 < cf_page cf -> 0 <= b -> b <= pages_ceil cf b * cf_page cf < b + cf_page cf.
Proof. intros Hp Hb. unfold pages_ceil. pose proof (Z.div_mod b (cf_page cf) ltac:(lia)). pose proof (Z.mod_pos_bound b (cf_page cf) Hp). destruct (Z.eqb_spec (b mod cf_page cf) 0); nia. Qed.

Lemma release_from_spec {W} (rel brk : op W) n : forall hs w0 w log w' r log',
  release_from rel hs n w (got_total log) log = (w', r, log') -> plays rel brk w0 log w -> asks_missing n log ->
  plays rel brk w0 log' w' /\ r = got_total log' /\ asks_missing n log' /\ (exists new, log' = log ++ new) /\
  (forall h, In h hs -> exists c, In c log' /\ ca_heap c = h /\ ca_break c = false).
Proof.
  induction hs as [|h hs IH]; intros w0 w log w' r log' E P A; cbn [release_from] in E.
  - inversion E; subst. split; [assumption|]. split; [reflexivity|]. split; [assumption|]. split; [exists []; rewrite app_nil_r; reflexivity|]. intros h [].
  - destruct (rel w h (if got_total log <? n then n - got_total log else 0)) as (w1, got) eqn:Er.
    assert (Ea : (if got_total log <? n then n - got_total log else 0) = Z.max 0 (n - got_total log)) by (destruct (Z.ltb_spec (got_total log) n); lia).
    set (c := Call false h (if got_total log <? n then n - got_total log else 0) got) in *. replace (got_total log + got) with (got_total (log ++ [c])) in E by (rewrite got_app, got_one; reflexivity).
    apply IH with (w0 := w0) in E.
    + destruct E as (E1 & E2 & E3 & (new & E4) & E5). split; [assumption|]. split; [assumption|]. split; [assumption|]. split; [exists (c :: new); rewrite E4, <- app_assoc; reflexivity|].
      intros h' [<-|Hh]; [|auto]. exists c. split; [rewrite E4; apply in_or_app; left; apply in_or_app; right; left; reflexivity|]. split; reflexivity.
    + eapply plays_app; [exact P|]. cbn [plays]. unfold c. cbn [ca_break ca_heap ca_asked ca_got]. rewrite Er. split; reflexivity.
    + apply asks_snoc; [assumption|]. exact Ea.
Qed.

Lemma break_from_spec {W} (rel brk : op W) n : forall hs w0 w log w' ok log',
  break_from brk hs n w (got_total log) log = (w', ok, log') -> plays rel brk w0 log w -> asks_missing n log -> (hs = [] \/ got_total log < n) ->
  plays rel brk w0 log' w' /\ ok = (n <=? got_total log') /\ asks_missing n log' /\ (exists new, log' = log ++ new) /\
  (ok = false -> forall h, In h hs -> exists c, In c log' /\ ca_heap c = h /\ ca_break c = true).
Proof.
  induction hs as [|h hs IH]; intros w0 w log w' r log' E P A L; cbn [break_from] in E.
  - inversion E; subst. split; [assumption|]. split; [reflexivity|]. split; [assumption|]. split; [exists []; rewrite app_nil_r; reflexivity|]. intros _ h [].
  - destruct L as [|L]; [discriminate|]. destruct (brk w h (n - got_total log)) as (w1, got) eqn:Er. set (c := Call true h (n - got_total log) got) in *.
    assert (P' : plays rel brk w0 (log ++ [c]) w1). { eapply plays_app; [exact P|]. cbn [plays]. unfold c. cbn [ca_break ca_heap ca_asked ca_got]. rewrite Er. split; reflexivity. }
    assert (A' : asks_missing n (log ++ [c])) by (apply asks_snoc; [assumption|unfold c; cbn [ca_asked]; lia]).
    replace (got_total log + got) with (got_total (log ++ [c])) in E by (rewrite got_app, got_one; reflexivity).
    destruct (Z.leb_spec n (got_total (log ++ [c]))) as [Le|Gt].
    + inversion E; subst. split; [assumption|]. split; [symmetry; apply Z.leb_le; assumption|]. split; [assumption|]. split; [eexists; reflexivity|]. discriminate.
    + apply IH with (w0 := w0) in E; [|assumption..|right; assumption]. destruct E as (E1 & E2 & E3 & (new & E4) & E5). split; [assumption|]. split; [assumption|]. split; [assumption|].
      split; [exists (c :: new); rewrite E4, <- app_assoc; reflexivity|]. intros F h' [<-|Hh]; [|auto].
      exists c. split; [rewrite E4; apply in_or_app; left; apply in_or_app; right; left; reflexivity|]. split; reflexivity.
Qed.

(** ** One attempt to release [pages]

    It asks the heaps one after the other for all that is missing; it succeeds exactly if they report that much; and if not
    then each was asked, and each was asked to break hugepages too (unless this is for the hard limit and breaking is off). *)
Theorem shrink_asks : forall W (rel brk : op W) cf hard pages w w' ok log, shrink_by rel brk cf hard pages w = (w', ok, log) ->
  plays rel brk w log w' /\ asks_missing pages log /\ (ok = true <-> pages <= got_total log) /\ all_asked cf false log /\
  (ok = false -> hard && negb (cf_subrelease cf) = false -> all_asked cf true log).
Proof.
  intros W rel brk cf hard pages w w' ok log E. unfold shrink_by, release in E. destruct (release_from rel (heaps cf) pages w 0 []) as ((w1, r), log1) eqn:E1.
  change 0 with (got_total []) in E1. apply (release_from_spec rel brk) with (w0 := w) in E1; [|reflexivity|intros pre c post F; destruct pre; discriminate].
  destruct E1 as (P1 & -> & A1 & _ & H1). destruct (Z.leb_spec pages (got_total log1)) as [Le|Gt].
  - inversion E; subst. split; [assumption|]. split; [assumption|]. split; [tauto|]. split; [exact H1|]. discriminate.
  - destruct (hard && negb (cf_subrelease cf)) eqn:Eh.
    + inversion E; subst. split; [assumption|]. split; [assumption|]. split; [split; [discriminate|lia]|]. split; [exact H1|]. discriminate.
    + apply (break_from_spec rel brk) with (w0 := w) in E; [|assumption..|right; assumption]. destruct E as (P2 & -> & A2 & (new & E4) & H2). split; [assumption|]. split; [assumption|]. split; [apply Z.leb_le|].
      split; [|intros F _; exact (H2 F)]. intros h Hh. destruct (H1 h Hh) as (c & Hc & Hc'). exists c. split; [rewrite E4; apply in_or_app; left|]; assumption.
Qed.

(** ** ShrinkToUsageLimit, whatever the heaps and the other threads do *)

(** At or below the soft limit, and without one, nothing is asked of the heaps and nothing but the peak changes. *)
Theorem limit_respected_does_nothing : forall W (rel brk : op W) backed cf lm n sampled w,
  lm_soft lm = no_limit \/ backed w <= lm_soft lm ->
  exists lm', shrink_to_limit rel brk backed cf lm n sampled w = (w, lm', Returns, []) /\
    lm_soft lm' = lm_soft lm /\ lm_hard lm' = lm_hard lm /\ lm_soft_hits lm' = lm_soft_hits lm /\ lm_hard_hits lm' = lm_hard_hits lm /\
    lm_peak lm' = Z.max (lm_peak lm) (backed w).
Proof.
  intros W rel brk backed cf lm n sampled w H. unfold shrink_to_limit. destruct (Z.ltb_spec (lm_peak lm) (backed w)); cbn [lm_soft lm_hard lm_soft_hits lm_hard_hits lm_peak];
    (destruct (Z.eqb_spec (lm_soft lm) no_limit) as [E|E]; [|destruct (Z.leb_spec (backed w) (lm_soft lm)); [|lia]]);
    (eexists; split; [reflexivity|]; cbn [lm_soft lm_hard lm_soft_hits lm_hard_hits lm_peak]; repeat split; lia).
Qed.

(** Above it, the heaps are asked for the least number of pages that covers the overage, until they have reported that much
    or have all been asked to break hugepages.  The process ends only if they have not reported that much, a hard limit is set, usage is
    then still above it, and a second attempt, for what is above the hard limit, has not been reported as covered either. *)
Theorem limit_exceeded_asks : forall W (rel brk : op W) backed cf lm n sampled w w' lm' out log, 0 < cf_page cf ->
  lm_soft lm <> no_limit -> lm_soft lm < backed w ->
  shrink_to_limit rel brk backed cf lm n sampled w = (w', lm', out, log) ->
  exists pages log1 log2 w1, log = log1 ++ log2 /\ plays rel brk w log1 w1 /\ plays rel brk w1 log2 w' /\
    backed w - lm_soft lm <= pages * cf_page cf < backed w - lm_soft lm + cf_page cf /\
    asks_missing pages log1 /\
    (pages <= got_total log1 \/ all_asked cf true log1) /\
    (out = Aborts -> got_total log1 < pages /\ lm_hard lm < no_limit /\ lm_hard lm < backed w1 /\
       exists pages2, backed w1 - lm_hard lm <= pages2 * cf_page cf < backed w1 - lm_hard lm + cf_page cf /\
         asks_missing pages2 log2 /\ got_total log2 < pages2 /\ (cf_subrelease cf = true -> all_asked cf true log2)) /\
    (out = Returns -> pages <= got_total log1 \/ no_limit <= lm_hard lm \/ backed w1 <= lm_hard lm \/
       backed w1 - lm_hard lm <= got_total log2 * cf_page cf) /\
    lm_soft lm' = lm_soft lm /\ (out = Returns -> lm_hard lm' = lm_hard lm).
Proof.
  intros W rel brk backed cf lm n sampled w w' lm' out log Hp Hs Hb E. unfold shrink_to_limit in E.
  set (lm1 := if lm_peak lm <? backed w then _ else lm) in E.
  assert (E1 : lm_soft lm1 = lm_soft lm) by (unfold lm1; destruct (_ <? _); reflexivity). assert (E2 : lm_hard lm1 = lm_hard lm) by (unfold lm1; destruct (_ <? _); reflexivity).
  rewrite E1 in E. replace (lm_soft lm =? no_limit) with false in E by lia. replace (backed w <=? lm_soft lm) with false in E by lia. cbn [lm_soft lm_hard] in E. rewrite ?E1, ?E2 in E.
  pose proof (ceil_covers cf (backed w - lm_soft lm) Hp ltac:(lia)) as Cv.
  destruct (shrink_by rel brk cf false (pages_ceil cf (backed w - lm_soft lm)) w) as ((w1, ok), log1) eqn:S1. apply shrink_asks in S1. destruct S1 as (P1 & A1 & O1 & _ & B1).
  exists (pages_ceil cf (backed w - lm_soft lm)), log1.
  destruct ok.
  - inversion E; subst. exists [], w'. rewrite app_nil_r. cbn [plays lm_soft lm_hard]. pose proof (proj1 O1 eq_refl). repeat match goal with |- _ /\ _ => split end; try assumption; try reflexivity; try congruence; try lia; auto.
  - specialize (B1 eq_refl eq_refl). assert (got_total log1 < pages_ceil cf (backed w - lm_soft lm)) by (destruct (Z.lt_ge_cases (got_total log1) (pages_ceil cf (backed w - lm_soft lm))); [assumption|]; pose proof (proj2 O1 ltac:(lia)); discriminate).
    destruct (Z.ltb_spec (lm_hard lm) no_limit) as [Hh|Hh].
    + destruct (Z.leb_spec (backed w1) (lm_hard lm)) as [Hb1|Hb1].
      * inversion E; subst. exists [], w'. rewrite app_nil_r. cbn [plays lm_soft lm_hard]. repeat match goal with |- _ /\ _ => split end; try assumption; try reflexivity; try congruence; try lia; auto.
      * pose proof (ceil_covers cf (backed w1 - lm_hard lm) Hp ltac:(lia)) as Cv2.
        destruct (shrink_by rel brk cf true (pages_ceil cf (backed w1 - lm_hard lm)) w1) as ((w2, ok), log2) eqn:S2. apply shrink_asks in S2. destruct S2 as (P2 & A2 & O2 & _ & B2).
        exists log2, w1. destruct ok; inversion E; subst; cbn [lm_soft lm_hard]; repeat match goal with |- _ /\ _ => split end; try assumption; try reflexivity; try congruence; try lia; auto.
        -- intros _. right. right. right. pose proof (proj1 O2 eq_refl). clear - H0 Cv2 Hp. nia.
        -- intros _. split; [assumption|]. split; [assumption|]. split; [assumption|]. exists (pages_ceil cf (backed w1 - lm_hard lm)). split; [assumption|]. split; [assumption|]. split.
           ++ destruct (Z.lt_ge_cases (got_total log2) (pages_ceil cf (backed w1 - lm_hard lm))); [assumption|]. pose proof (proj2 O2 ltac:(lia)). discriminate.
           ++ intros Es. apply B2; [reflexivity|]. rewrite Es. reflexivity.
    + inversion E; subst. exists [], w'. rewrite app_nil_r. cbn [plays lm_soft lm_hard]. repeat match goal with |- _ /\ _ => split end; try assumption; try reflexivity; try congruence; try lia; auto.
Qed.

(** ** When the heaps keep their word and no other thread interferes

    [releasable w h] is what heap [h] has that can be given back if hugepages may be broken.  Keeping its word means for a heap: what
    it reports is given back and is no more used, the other heaps are not affected, and, asked to break hugepages, it stops short of what was
    asked only when it has nothing left. *)
Record honest {W} (rel brk : op W) (backed : W -> Z) (releasable : W -> heap -> Z) (cf : config) : Prop := {
  ho_rel : forall w h n w' got, In h (heaps cf) -> 0 <= n -> rel w h n = (w', got) ->
    0 <= got <= releasable w h /\ backed w' = backed w - got * cf_page cf /\ releasable w' h = releasable w h - got /\
    (forall h', In h' (heaps cf) -> h' <> h -> releasable w' h' = releasable w h');
  ho_brk : forall w h n w' got, In h (heaps cf) -> 0 <= n -> brk w h n = (w', got) ->
    Z.min n (releasable w h) <= got <= releasable w h /\ backed w' = backed w - got * cf_page cf /\ releasable w' h = releasable w h - got /\
    (forall h', In h' (heaps cf) -> h' <> h -> releasable w' h' = releasable w h');
  ho_pos : forall w h, In h (heaps cf) -> 0 <= releasable w h
}.
Definition releasable_total {W} (releasable : W -> heap -> Z) (cf : config) (w : W) : Z := zsum (map (releasable w) (heaps cf)).

Lemma NoDup_map_inj {A B} (f : A -> B) l : (forall x y, f x = f y -> x = y) -> NoDup l -> NoDup (map f l).
Proof.
  intros I. induction 1 as [|x l N _ IH]; cbn [map]; constructor; [|assumption]. intros F. apply in_map_iff in F. destruct F as (y & E & Hy). apply I in E. subst. contradiction.
Qed.
Lemma heaps_nodup cf : NoDup (heaps cf).
Proof.
  unfold heaps. assert (N1 : NoDup (map Normal (seq 0 (cf_partitions cf)) ++ map Sampled (seq 0 (if cf_sampled cf then 2 else 1)))).
  { assert (G : forall (l1 l2 : list heap), NoDup l1 -> NoDup l2 -> (forall x, In x l1 -> ~ In x l2) -> NoDup (l1 ++ l2)).
    { induction l1 as [|x l1 IH]; intros l2 N1 N2 D; [assumption|]. cbn [app]. apply NoDup_cons_iff in N1. destruct N1 as (Nx & N1). constructor.
      - intros F. apply in_app_or in F. destruct F as [F|F]; [contradiction|]. apply (D x (or_introl eq_refl) F).
      - apply IH; [assumption..|]. intros y Hy. apply D. right. assumption. }
    apply G; [apply NoDup_map_inj; [congruence|apply seq_NoDup]..|]. intros x H1 H2. apply in_map_iff in H1. apply in_map_iff in H2. destruct H1 as (i & <- & _), H2 as (j & E & _). discriminate. }
  destruct (cf_cold cf); [|exact N1]. cbn [app]. constructor; [|exact N1]. intros F. apply in_app_or in F. destruct F as [F|F]; apply in_map_iff in F; destruct F as (i & E & _); discriminate.
Qed.

Lemma zsum_at (f g : heap -> Z) h d l : NoDup l -> In h l -> g h = f h - d -> (forall h', In h' l -> h' <> h -> g h' = f h') -> zsum (map g l) = zsum (map f l) - d.
Proof.
  intros N I E O. induction l as [|x l IH]; [destruct I|]. cbn [map]. rewrite !zsum_cons. apply NoDup_cons_iff in N. destruct N as (Nx & N). destruct I as [->|I].
  - rewrite E. assert (Er : zsum (map g l) = zsum (map f l)); [|lia]. f_equal. apply map_ext_in. intros y Hy. apply O; [right; assumption|]. intros ->. contradiction.
  - rewrite (O x) by (left + (intros ->; contradiction); reflexivity). rewrite IH; [lia|assumption..|]. intros h' Hh. apply O. right. assumption.
Qed.

Lemma plays_honest {W} (rel brk : op W) (backed : W -> Z) (releasable : W -> heap -> Z) (cf : config) (HO : honest rel brk backed releasable cf) log : forall w w' n, (forall c, In c log -> In (ca_heap c) (heaps cf)) ->
  (forall pre c post, log = pre ++ c :: post -> ca_asked c = Z.max 0 (n - got_total pre)) -> plays rel brk w log w' ->
  backed w' = backed w - got_total log * cf_page cf /\ releasable_total releasable cf w' = releasable_total releasable cf w - got_total log /\ 0 <= got_total log.
Proof.
  induction log as [|c log IH]; intros w w' n Hin Has P; cbn [plays] in P.
  - subst w'. change (got_total []) with 0. split; [ring|]. split; [ring|lia].
  - destruct ((if ca_break c then brk else rel) w (ca_heap c) (ca_asked c)) as (w1, got) eqn:Eo. destruct P as (Eg & P).
    assert (Hc : In (ca_heap c) (heaps cf)) by (apply Hin; left; reflexivity). assert (Ha : 0 <= ca_asked c) by (rewrite (Has [] c log eq_refl); lia).
    assert (K : 0 <= got /\ backed w1 = backed w - got * cf_page cf /\ releasable_total releasable cf w1 = releasable_total releasable cf w - got).
    { pose proof (ho_pos _ _ _ _ _ HO w _ Hc) as Pp. destruct (ca_break c).
      - destruct (ho_brk _ _ _ _ _ HO w _ _ _ _ Hc Ha Eo) as (A & B & C & D). split; [lia|]. split; [assumption|]. apply (zsum_at _ _ (ca_heap c)); [apply heaps_nodup|assumption..].
      - destruct (ho_rel _ _ _ _ _ HO w _ _ _ _ Hc Ha Eo) as (A & B & C & D). split; [lia|]. split; [assumption|]. apply (zsum_at _ _ (ca_heap c)); [apply heaps_nodup|assumption..]. }
    destruct K as (K1 & K2 & K3). destruct (IH w1 w' (n - ca_got c)) as (I1 & I2 & I3); [intros d Hd; apply Hin; right; assumption| |assumption|].
    + intros pre d post E. subst log. rewrite (Has (c :: pre) d post eq_refl). unfold got_total. cbn [map]. rewrite zsum_cons. f_equal. lia.
    + unfold got_total in *. cbn [map]. rewrite zsum_cons, Eg. split; [rewrite I1, K2; ring|]. lia.
Qed.

Lemma plays_none_left {W} (rel brk : op W) (backed : W -> Z) (releasable : W -> heap -> Z) (cf : config) (HO : honest rel brk backed releasable cf) h : forall log w w' n, (forall c, In c log -> In (ca_heap c) (heaps cf)) ->
  (forall pre c post, log = pre ++ c :: post -> ca_asked c = Z.max 0 (n - got_total pre)) -> plays rel brk w log w' ->
  In h (heaps cf) -> releasable w h = 0 -> releasable w' h = 0.
Proof.
  induction log as [|c log IH]; intros w w' n Hin Has P Hh E; cbn [plays] in P; [subst; assumption|].
  destruct ((if ca_break c then brk else rel) w (ca_heap c) (ca_asked c)) as (w1, got) eqn:Eo. destruct P as (Eg & P).
  assert (Hc : In (ca_heap c) (heaps cf)) by (apply Hin; left; reflexivity). assert (Ha : 0 <= ca_asked c) by (rewrite (Has [] c log eq_refl); lia).
  apply (IH w1 w' (n - ca_got c)); [intros d Hd; apply Hin; right; assumption| |assumption..|].
  - intros pre d post Ed. subst log. rewrite (Has (c :: pre) d post eq_refl). unfold got_total. cbn [map]. rewrite zsum_cons. f_equal. lia.
  - assert (Eq : ca_heap c = h \/ ca_heap c <> h) by (destruct (ca_heap c) as [|i|i], h as [|j|j]; try (right; congruence); try (left; reflexivity); destruct (Nat.eq_dec i j); [left; congruence|right; congruence|left; congruence|right; congruence]).
    pose proof (ho_pos _ _ _ _ _ HO w1 h Hh). destruct (ca_break c).
    + destruct (ho_brk _ _ _ _ _ HO w _ _ _ _ Hc Ha Eo) as (A & B & C & D). destruct Eq as [Eq|Eq]; [|rewrite D by (assumption + congruence); assumption].
      pose proof (ho_pos _ _ _ _ _ HO w h Hh). rewrite Eq in *. lia.
    + destruct (ho_rel _ _ _ _ _ HO w _ _ _ _ Hc Ha Eo) as (A & B & C & D). destruct Eq as [Eq|Eq]; [|rewrite D by (assumption + congruence); assumption]. rewrite Eq in *. lia.
Qed.

(** After a pass that asked every heap to break hugepages and stayed short, nothing releasable is left. *)
Lemma short_means_none {W} (rel brk : op W) (backed : W -> Z) (releasable : W -> heap -> Z) (cf : config) (HO : honest rel brk backed releasable cf) log w w' n : (forall c, In c log -> In (ca_heap c) (heaps cf)) -> asks_missing n log -> plays rel brk w log w' ->
  all_asked cf true log -> got_total log < n -> forall h, In h (heaps cf) -> releasable w' h = 0.
Proof.
  intros Hin Has P Hall Hs h Hh. destruct (Hall h Hh) as (c & Hc & Eh & Eb). apply in_split in Hc. destruct Hc as (l1 & l2 & ->).
  assert (Hw : exists w1 w2, plays rel brk w l1 w1 /\ brk w1 h (ca_asked c) = (w2, ca_got c) /\ plays rel brk w2 l2 w').
  { revert P. clear - Eh Eb. revert w. induction l1 as [|d l1 IH]; intros w P; cbn [plays app] in P.
    - rewrite Eb, Eh in P. destruct (brk w h (ca_asked c)) as (w2, got) eqn:Eo. destruct P as (-> & P). exists w, w2. split; [reflexivity|]. split; [assumption|assumption].
    - destruct ((if ca_break d then brk else rel) w (ca_heap d) (ca_asked d)) as (w3, got) eqn:Eo. destruct P as (Eg & P). apply IH in P. destruct P as (w1 & w2 & P1 & P2 & P3).
      exists w1, w2. split; [|split; assumption]. cbn [plays]. rewrite Eo. split; assumption. }
  destruct Hw as (w1 & w2 & P1 & P2 & P3).
  assert (Ea : ca_asked c = Z.max 0 (n - got_total l1)) by (apply (Has l1 c l2); reflexivity). assert (Hasl : forall pre d post, l2 = pre ++ d :: post -> ca_asked d = Z.max 0 (n - got_total (l1 ++ [c]) - got_total pre)).
  { intros pre d post E. subst l2. rewrite (Has (l1 ++ c :: pre) d post) by (rewrite <- app_assoc; reflexivity). f_equal. rewrite !got_app. rewrite got_one. unfold got_total. cbn [map]. rewrite zsum_cons. lia. }
  assert (Hin2 : forall d, In d l2 -> In (ca_heap d) (heaps cf)) by (intros d Hd; apply Hin; apply in_or_app; right; right; assumption).
  apply (plays_none_left rel brk backed releasable cf HO h l2 w2 w' (n - got_total (l1 ++ [c]))); [assumption..|].
  assert (Ea0 : 0 <= ca_asked c) by lia. destruct (ho_brk _ _ _ _ _ HO w1 h _ _ _ Hh Ea0 P2) as (A & B & C & D). rewrite C.
  destruct (plays_honest rel brk backed releasable cf HO l2 w2 w' (n - got_total (l1 ++ [c])) Hin2 Hasl P3) as (_ & _ & G2).
  assert (Hgt : got_total (l1 ++ c :: l2) = got_total l1 + ca_got c + got_total l2) by (rewrite got_app; unfold got_total; cbn [map]; rewrite zsum_cons; lia). lia.
Qed.

Lemma release_from_heaps {W} (rel : op W) n : forall hs w r log w' r' log', release_from rel hs n w r log = (w', r', log') ->
  forall c, In c log' -> In c log \/ In (ca_heap c) hs.
Proof.
  induction hs as [|h hs IH]; intros w r log w' r' log' E c Hc; cbn [release_from] in E; [inversion E; subst; left; assumption|].
  destruct (rel w h _) as (w1, got). destruct (IH _ _ _ _ _ _ E c Hc) as [H|H]; [|right; right; assumption].
  apply in_app_or in H. destruct H as [H|[<-|[]]]; [left; assumption|right; left; reflexivity].
Qed.
Lemma break_from_heaps {W} (brk : op W) n : forall hs w r log w' ok log', break_from brk hs n w r log = (w', ok, log') ->
  forall c, In c log' -> In c log \/ In (ca_heap c) hs.
Proof.
  induction hs as [|h hs IH]; intros w r log w' r' log' E c Hc; cbn [break_from] in E; [inversion E; subst; left; assumption|].
  destruct (brk w h _) as (w1, got). destruct (n <=? r + got).
  - inversion E; subst. apply in_app_or in Hc. destruct Hc as [H|[<-|[]]]; [left; assumption|right; left; reflexivity].
  - destruct (IH _ _ _ _ _ _ E c Hc) as [H|H]; [|right; right; assumption]. apply in_app_or in H. destruct H as [H|[<-|[]]]; [left; assumption|right; left; reflexivity].
Qed.
Lemma shrink_heaps {W} (rel brk : op W) cf hard pages w w' ok log : shrink_by rel brk cf hard pages w = (w', ok, log) -> forall c, In c log -> In (ca_heap c) (heaps cf).
Proof.
  unfold shrink_by, release. destruct (release_from rel (heaps cf) pages w 0 []) as ((w1, r), log1) eqn:E1. intros E c Hc.
  assert (H1 : forall c, In c log1 -> In (ca_heap c) (heaps cf)) by (intros d Hd; destruct (release_from_heaps _ _ _ _ _ _ _ _ _ E1 d Hd) as [[]|]; assumption).
  destruct (pages <=? r); [inversion E; subst; auto|]. destruct (hard && _); [inversion E; subst; auto|]. destruct (break_from_heaps _ _ _ _ _ _ _ _ _ E c Hc); auto.
Qed.

(** The process ends exactly if usage would be above the hard limit even after everything releasable was given back; if it does
    not end, usage is then at most the hard limit, and at most the soft limit unless nothing releasable is left. *)
Theorem limit_outcome : forall W (rel brk : op W) backed releasable cf lm n sampled w w' lm' out log,
  honest rel brk backed releasable cf -> 0 < cf_page cf -> lm_soft lm <= lm_hard lm -> lm_hard lm < no_limit -> lm_soft lm < backed w ->
  shrink_to_limit rel brk backed cf lm n sampled w = (w', lm', out, log) ->
  (out = Aborts <-> lm_hard lm < backed w - releasable_total releasable cf w * cf_page cf) /\
  (out = Returns -> backed w' <= lm_hard lm /\ (backed w' <= lm_soft lm \/ forall h, In h (heaps cf) -> releasable w' h = 0)).
Proof.
  intros W rel brk backed releasable cf lm n sampled w w' lm' out log HO Hp Hsh Hh Hb E. unfold shrink_to_limit in E.
  set (lm1 := if lm_peak lm <? backed w then _ else lm) in E.
  assert (E1 : lm_soft lm1 = lm_soft lm) by (unfold lm1; destruct (_ <? _); reflexivity). assert (E2 : lm_hard lm1 = lm_hard lm) by (unfold lm1; destruct (_ <? _); reflexivity).
  rewrite E1 in E. replace (lm_soft lm =? no_limit) with false in E by lia. replace (backed w <=? lm_soft lm) with false in E by lia. cbn [lm_soft lm_hard] in E. rewrite ?E1, ?E2 in E.
  replace (lm_hard lm <? no_limit) with true in E by lia.
  pose proof (ceil_covers cf (backed w - lm_soft lm) Hp ltac:(lia)) as Cv. set (pages := pages_ceil cf (backed w - lm_soft lm)) in *.
  destruct (shrink_by rel brk cf false pages w) as ((w1, ok), log1) eqn:S1. pose proof (shrink_heaps _ _ _ _ _ _ _ _ _ S1) as Hin1. apply shrink_asks in S1. destruct S1 as (P1 & A1 & O1 & _ & B1).
  destruct (plays_honest rel brk backed releasable cf HO log1 w w1 pages Hin1 A1 P1) as (K1 & K2 & K3).
  assert (Tpos : forall v, 0 <= releasable_total releasable cf v).
  { intros v. unfold releasable_total. assert (G : forall l, (forall h, In h l -> In h (heaps cf)) -> 0 <= zsum (map (releasable v) l)).
    { induction l as [|h l IH]; intros Hl; cbn [map]; [change (zsum []) with 0; lia|]. rewrite zsum_cons. pose proof (ho_pos _ _ _ _ _ HO v h (Hl h (or_introl eq_refl))).
      specialize (IH ltac:(intros x Hx; apply Hl; right; assumption)). lia. }
    apply G. auto. }
  pose proof (Tpos w1) as T1.
  destruct ok.
  - inversion E; subst. pose proof (proj1 O1 eq_refl) as G1. assert (backed w' <= lm_soft lm) by nia. split; [split; [discriminate|intros F; exfalso; nia]|]. intros _. split; [lia|left; assumption].
  - specialize (B1 eq_refl eq_refl). assert (G1 : got_total log1 < pages) by (destruct (Z.lt_ge_cases (got_total log1) pages); [assumption|]; pose proof (proj2 O1 ltac:(lia)); discriminate).
    pose proof (short_means_none rel brk backed releasable cf HO log1 w w1 pages Hin1 A1 P1 B1 G1) as None1.
    assert (T0 : releasable_total releasable cf w1 = 0).
    { unfold releasable_total. assert (G : forall l, (forall h, In h l -> In h (heaps cf)) -> zsum (map (releasable w1) l) = 0).
      { induction l as [|h l IH]; intros Hl; cbn [map]; [reflexivity|]. rewrite zsum_cons, (None1 h (Hl h (or_introl eq_refl))). rewrite IH; [reflexivity|]. intros x Hx. apply Hl. right. assumption. }
      apply G. auto. }
    assert (K4 : backed w1 = backed w - releasable_total releasable cf w * cf_page cf) by (rewrite K1; f_equal; f_equal; lia).
    destruct (Z.leb_spec (backed w1) (lm_hard lm)) as [Hb1|Hb1].
    + inversion E; subst. split; [split; [discriminate|lia]|]. intros _. split; [assumption|right; assumption].
    + pose proof (ceil_covers cf (backed w1 - lm_hard lm) Hp ltac:(lia)) as Cv2. set (pages2 := pages_ceil cf (backed w1 - lm_hard lm)) in *.
      destruct (shrink_by rel brk cf true pages2 w1) as ((w2, ok), log2) eqn:S2. pose proof (shrink_heaps _ _ _ _ _ _ _ _ _ S2) as Hin2. apply shrink_asks in S2. destruct S2 as (P2 & A2 & O2 & _).
      destruct (plays_honest rel brk backed releasable cf HO log2 w1 w2 pages2 Hin2 A2 P2) as (L1 & L2 & L3). pose proof (Tpos w2).
      assert (ok = false). { destruct ok; [|reflexivity]. pose proof (proj1 O2 eq_refl). exfalso. nia. }
      subst ok. inversion E; subst. split; [split; [intros _; lia|reflexivity]|discriminate].
Qed.

(** ** Histories: the limits over any sequence of calls *)
Inductive lm_reach {W} (rel brk : op W) (backed : W -> Z) (cf : config) : limits -> Prop :=
| lr_init : lm_reach rel brk backed cf lm_init
| lr_set lm limit hard : lm_reach rel brk backed cf lm -> 0 <= limit <= no_limit -> lm_reach rel brk backed cf (set_limit lm limit hard)
| lr_shrink lm n sampled w w' lm' log : lm_reach rel brk backed cf lm -> shrink_to_limit rel brk backed cf lm n sampled w = (w', lm', Returns, log) -> lm_reach rel brk backed cf lm'.

Lemma shrink_keeps {W} (rel brk : op W) backed cf lm n sampled w w' lm' log : shrink_to_limit rel brk backed cf lm n sampled w = (w', lm', Returns, log) ->
  lm_soft lm' = lm_soft lm /\ lm_hard lm' = lm_hard lm /\ lm_peak lm' = Z.max (lm_peak lm) (backed w).
Proof.
  unfold shrink_to_limit. set (lm1 := if lm_peak lm <? backed w then _ else lm).
  assert (K : lm_soft lm1 = lm_soft lm /\ lm_hard lm1 = lm_hard lm /\ lm_peak lm1 = Z.max (lm_peak lm) (backed w)) by (unfold lm1; destruct (Z.ltb_spec (lm_peak lm) (backed w)); cbn [lm_soft lm_hard lm_peak]; repeat split; lia).
  destruct (lm_soft lm1 =? no_limit); [intros E; inversion E; subst; assumption|]. destruct (backed w <=? lm_soft lm1); [intros E; inversion E; subst; assumption|]. cbn [lm_soft lm_hard lm_peak lm_soft_ok lm_hard_ok lm_soft_hits lm_hard_hits lm_peak_sampled].
  destruct (shrink_by rel brk cf false _ w) as ((w1, ok), log1). destruct ok; [intros E; inversion E; subst; assumption|]. destruct (lm_hard lm1 <? no_limit); [|intros E; inversion E; subst; assumption].
  destruct (backed w1 <=? lm_hard lm1); [intros E; inversion E; subst; assumption|]. destruct (shrink_by rel brk cf true _ w1) as ((w2, ok), log2). destruct ok; intros E; inversion E; subst. assumption.
Qed.

(** The soft limit never exceeds the hard limit; setting a limit makes it what was asked, except that the soft limit is cut to
    the hard one. *)
Theorem limits_ordered : forall W (rel brk : op W) backed cf lm, lm_reach rel brk backed cf lm ->
  0 <= lm_soft lm <= lm_hard lm /\ lm_hard lm <= no_limit /\
  (forall limit, lm_hard (set_limit lm limit true) = limit /\ lm_soft (set_limit lm limit true) = Z.min (lm_soft lm) limit) /\
  (forall limit, lm_hard (set_limit lm limit false) = lm_hard lm /\ lm_soft (set_limit lm limit false) = Z.min limit (lm_hard lm)) /\
  (forall n sampled w w' lm' log, shrink_to_limit rel brk backed cf lm n sampled w = (w', lm', Returns, log) ->
     lm_soft lm' = lm_soft lm /\ lm_hard lm' = lm_hard lm /\ lm_peak lm' = Z.max (lm_peak lm) (backed w)).
Proof.
  intros W rel brk backed cf lm H. assert (K : 0 <= lm_soft lm <= lm_hard lm /\ lm_hard lm <= no_limit).
  { induction H as [|lm limit hard H IH Hl|lm n sampled w w' lm' log H IH E].
    - vm_compute. intuition discriminate.
    - unfold set_limit. cbn [lm_soft lm_hard]. destruct hard; destruct (Z.ltb_spec limit (lm_soft lm)), (Z.ltb_spec (lm_hard lm) limit); lia.
    - apply shrink_keeps in E. destruct E as (-> & -> & _). assumption. }
  destruct K as (K1 & K2). split; [assumption|]. split; [assumption|]. split; [|split].
  - intros limit. unfold set_limit. cbn [lm_soft lm_hard]. split; [reflexivity|]. destruct (Z.ltb_spec limit (lm_soft lm)); lia.
  - intros limit. unfold set_limit. cbn [lm_soft lm_hard]. split; [reflexivity|]. destruct (Z.ltb_spec (lm_hard lm) limit); lia.
  - intros n sampled w w' lm' log E. apply (shrink_keeps _ _ _ _ _ _ _ _ _ _ _ E).
Qed.

(** ** A concrete world: for each heap, pages that can be released at once and pages that need a hugepage broken; the rest in use *)
Definition toy := (Z * (heap -> Z * Z))%type.
Definition heap_eqb (a b : heap) : bool :=
  match a, b with Cold, Cold => true | Normal i, Normal j => Nat.eqb i j | Sampled i, Sampled j => Nat.eqb i j | _, _ => false end.
Definition toy_rel (page : Z) : op toy := fun w h n =>
  let (e, f) := snd w h in let got := Z.max 0 (Z.min n e) in
  ((fst w - got * page, fun h' => if heap_eqb h h' then (e - got, f) else snd w h'), got).
Definition toy_brk (page : Z) : op toy := fun w h n =>
  let (e, f) := snd w h in let got := Z.max 0 (Z.min n (e + f)) in
  ((fst w - got * page, fun h' => if heap_eqb h h' then (e - Z.min e got, f - (got - Z.min e got)) else snd w h'), got).
Definition toy_releasable (w : toy) (h : heap) : Z := Z.max 0 (fst (snd w h) + snd (snd w h)).

Definition toy_cf := Config true 2 false true 8192.
Definition toy_w : toy := (8192 * 100, fun h => match h with Cold => (3, 4) | Normal 0 => (5, 0) | Sampled 0 => (0, 6) | _ => (0, 0) end).

(** 100 pages in use, 18 of them releasable: a soft limit of 85 pages is met by breaking hugepages of the cold and the sampled
    heap; of 70 with a hard limit of 90, everything is released; a hard limit of 81 ends the process.
*)
Definition toy_shrink (lm : limits) := shrink_to_limit (toy_rel 8192) (toy_brk 8192) fst toy_cf lm 0 0 toy_w.
Example limits_example :
  (let '(w, lm, out, log) := toy_shrink (set_limit lm_init (8192 * 85) false) in (fst w, out, map (fun c => (ca_break c, ca_asked c, ca_got c)) log)) =
    (8192 * 85, Returns, [(false, 15, 3); (false, 12, 5); (false, 7, 0); (false, 7, 0); (true, 7, 4); (true, 3, 0); (true, 3, 0); (true, 3, 3)]) /\
  (let '(w, lm, out, log) := toy_shrink (set_limit (set_limit lm_init (8192 * 90) true) (8192 * 70) false) in (fst w, out)) = (8192 * 82, Returns) /\
  (let '(w, lm, out, log) := toy_shrink (set_limit lm_init (8192 * 81) true) in out) = Aborts.
Proof. vm_compute. auto. Qed.

Lemma heap_eqb_spec a b : reflect (a = b) (heap_eqb a b).
Proof.
  destruct a as [|i|i], b as [|j|j]; cbn [heap_eqb]; try (constructor; congruence); destruct (Nat.eqb_spec i j); constructor; congruence.
Qed.

(** Such heaps keep their word, if the numbers are not negative; the worlds where they are get zero instead. *)
Definition toy_fix (w : toy) : toy := (fst w, fun h => (Z.max 0 (fst (snd w h)), Z.max 0 (snd (snd w h)))).
Example toy_honest : honest (fun w => toy_rel 8192 (toy_fix w)) (fun w => toy_brk 8192 (toy_fix w)) fst (fun w h => toy_releasable (toy_fix w) h) toy_cf.
Proof.
  constructor.
  - intros w h n w' got _ Hn E. unfold toy_rel, toy_fix in E. cbn [snd fst] in E. inversion E; subst; clear E. unfold toy_releasable, toy_fix. cbn [fst snd toy_cf cf_page].
    destruct (heap_eqb_spec h h) as [_|]; [|congruence]. cbn [fst snd]. split; [lia|]. split; [reflexivity|]. split; [lia|]. intros h' _ Nh. destruct (heap_eqb_spec h h'); [congruence|]. cbn [fst snd]. lia.
  - intros w h n w' got _ Hn E. unfold toy_brk, toy_fix in E. cbn [snd fst] in E. inversion E; subst; clear E. unfold toy_releasable, toy_fix. cbn [fst snd toy_cf cf_page].
    destruct (heap_eqb_spec h h) as [_|]; [|congruence]. cbn [fst snd]. split; [lia|]. split; [reflexivity|]. split; [lia|]. intros h' _ Nh. destruct (heap_eqb_spec h h'); [congruence|]. cbn [fst snd]. lia.
  - intros w h _. unfold toy_releasable. lia.
Qed.

(** The assertion of debug builds that every hit of the hard limit was followed by a counted shrink, page_allocator.cc:133, can fail: the hard limit is
    exceeded twice; the first time the pass for the soft limit is enough, so only the second is counted. *)
Theorem hard_hits_counted_refuted :
  ~ (forall W (rel brk : op W) backed cf lm n sampled w w' lm' log, lm_reach rel brk backed cf lm ->
       shrink_to_limit rel brk backed cf lm n sampled w = (w', lm', Returns, log) -> lm_hard_ok lm' = lm_hard_ok lm + 1 -> lm_hard_ok lm' = lm_hard_hits lm').
Proof.
  intros F. set (rel := fun (w : Z) (h : heap) (n : Z) => (w + 1, if (w =? 0) || (w =? 14) then 1 else 0)). set (bk := fun w : Z => 8192 * 11).
  set (cf := Config false 1 false true 8192). set (lm0 := set_limit lm_init (8192 * 10) true).
  assert (R0 : lm_reach rel rel bk cf lm0) by (apply lr_set; [constructor|vm_compute; intuition discriminate]).
  set (lm1 := Limits (8192 * 10) (8192 * 10) 1 1 1 0 (8192 * 11) 0). set (log1 := [Call false (Normal 0) 1 1; Call false (Sampled 0) 0 0]).
  assert (E1 : shrink_to_limit rel rel bk cf lm0 0 0 0 = (2, lm1, Returns, log1)) by (vm_compute; reflexivity).
  assert (R1 : lm_reach rel rel bk cf lm1) by (exact (lr_shrink _ _ _ _ _ _ _ _ _ _ _ R0 E1)).
  destruct (shrink_to_limit rel rel bk cf lm1 0 0 10) as (((w2, lm2), out2), log2) eqn:E2. vm_compute in E2. injection E2 as <- <- <- <-.
  assert (X : forall a b : Z, a = b -> (a =? b) = true) by (intros; lia).
  specialize (F Z rel rel bk cf lm1 0 0 10). eassert (E2 : shrink_to_limit rel rel bk cf lm1 0 0 10 = _) by (vm_compute; reflexivity). specialize (F _ _ _ R1 E2 eq_refl). apply X in F. vm_compute in F. discriminate.
Qed.

Print Assumptions shrink_asks.
Print Assumptions limit_respected_does_nothing.
Print Assumptions limit_exceeded_asks.
Print Assumptions limit_outcome.
Print Assumptions limits_ordered.
Print Assumptions limits_example.
Print Assumptions toy_honest.
Print Assumptions hard_hits_counted_refuted.
