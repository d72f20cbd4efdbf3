(** Lemmas about the treatment of hugepages: what the scaled bitmaps say, and the record of the passes. *)
From Coq Require Import Permutation.
From Verif Require Import Base Bitmap BitmapProofs BitmapProofs2 HintedLists PageTracker PageTrackerProps Filler FillerProofs FillerProofs2 FillerProps Treatment TreatmentProofs TreatmentProofs2 TreatmentProofs3 TreatmentSpec.

Lemma zcount_some P n : forall i, 1 <= zcount P i n -> exists k, i <= k < i + Z.of_nat n /\ P k = true.
Proof.
  induction n as [|n IH]; intros i Hz; cbn [zcount] in Hz; [lia|]. destruct (P i) eqn:Eb; [exists i; split; [lia|assumption]|].
  destruct (IH (i + 1) ltac:(lia)) as (k & Hk & Hk'). exists k. split; [lia|assumption].
Qed.
Lemma zcount_pos P n i k : i <= k < i + Z.of_nat n -> P k = true -> 1 <= zcount P i n.
Proof.
  intros Hk HP. pose proof (zcount_bound P n i). destruct (Z.eq_dec (zcount P i n) 0) as [E|]; [|lia]. rewrite (zcount_zero_inv P n i E k Hk) in HP. discriminate.
Qed.

Lemma scale_overlap M N w j : 1 < N -> 0 < M -> M mod N = 0 \/ N mod M = 0 -> 0 <= j < N ->
  (bit (scale M N w M true) j = true <-> forall i, 0 <= i < M -> overlap N M i j -> bit w i = true) /\
  (bit (scale M N w M false) j = true <-> exists i, 0 <= i < M /\ overlap N M i j /\ bit w i = true).
Proof.
  intros HN HM Hd Hj.
  destruct (scale_spec M N w M true ltac:(lia) ltac:(lia) Hd) as (_ & Ht). destruct (scale_spec M N w M false ltac:(lia) ltac:(lia) Hd) as (_ & Hf).
  specialize (Ht j Hj). specialize (Hf j Hj). cbv zeta in Ht, Hf. rewrite Ht, Hf. clear Ht Hf.
  assert (H : exists s n, (j / Z.max 1 (N / M)) * Z.max 1 (M / N) = s /\ Z.max 1 (M / N) = n /\ 1 <= n /\ forall i, 0 <= i < M /\ overlap N M i j <-> s <= i < s + n).
  { unfold overlap. destruct Hd as [Hd|Hd].
    - assert (HMN : M = N * (M / N)) by (apply Z.div_exact; lia). set (r := M / N) in *. assert (0 < r) by nia.
      assert (N / M <= 1) by (apply Z.div_le_upper_bound; nia). replace (Z.max 1 (N / M)) with 1 by lia. rewrite Z.div_1_r. replace (Z.max 1 r) with r by lia.
      exists (j * r), r. split; [reflexivity|]. split; [reflexivity|]. split; [lia|]. intros i. rewrite HMN. clear - HN H Hj. split; [intros (A & B & D)|intros A]; [split; nia|]. repeat split; nia.
    - assert (HMN : N = M * (N / M)) by (apply Z.div_exact; lia). set (q := N / M) in *. assert (0 < q) by nia.
      assert (M / N <= 1) by (apply Z.div_le_upper_bound; nia). replace (Z.max 1 (M / N)) with 1 by lia. replace (Z.max 1 q) with q by lia.
      exists (j / q), 1. split; [lia|]. split; [reflexivity|]. split; [lia|]. intros i. rewrite HMN. rewrite HMN in Hj. clear - HM H Hj.
      pose proof (Z.div_mod j q ltac:(lia)). pose proof (Z.mod_pos_bound j q ltac:(lia)). split; [intros (A & B & D)|intros A].
      + assert (i = j / q) by nia. lia.
      + assert (i = j / q) by lia. subst i. repeat split; nia. }
  destruct H as (s & n & -> & -> & Hn & Hi). rewrite !Z.leb_le. pose proof (zcount_bound (bit w) (Z.to_nat n) s) as B. split; split.
  - intros H i Hi1 Hi2. apply (zcount_full_inv (bit w) (Z.to_nat n) s); [lia|]. pose proof (proj1 (Hi i) (conj Hi1 Hi2)). lia.
  - intros H. rewrite zcount_all; [lia|]. intros i Hi'. destruct (proj2 (Hi i)) as (A & D); [lia|]. auto.
  - intros H. destruct (zcount_some _ _ _ H) as (k & Hk & E). destruct (proj2 (Hi k)) as (A & D); [lia|]. exists k. auto.
  - intros (k & A & D & E). apply (zcount_pos _ _ _ k); [|assumption]. pose proof (proj1 (Hi k) (conj A D)). lia.
Qed.

Lemma overlap_some N M i : 1 < N -> 0 < M -> 0 <= i < M -> exists j, 0 <= j < N /\ overlap N M i j.
Proof.
  intros HN HM Hi. exists (i * N / M). unfold overlap. pose proof (Z.div_mod (i * N) M ltac:(lia)). pose proof (Z.mod_pos_bound (i * N) M ltac:(lia)).
  split; [split; [apply Z.div_pos; nia|apply Z.div_lt_upper_bound; nia]|]. split; nia.
Qed.

Lemma any_bits N M e w : 1 < N -> 0 < M -> M mod N = 0 \/ N mod M = 0 -> o_huge (e_obs e) = Some false ->
  negb (is_zero N (e_bits N M e w false)) = true <-> some_marked M w.
Proof.
  intros HN HM Hd Hh. pose proof (e_bits_wf N M e w false HN HM Hd) as W. unfold e_bits, e_looked in *. rewrite Hh in *. cbn in *. rewrite Bool.negb_true_iff. split.
  - intros E. assert (Hn : ~ forall j, 0 <= j < N -> bit (scale M N w M false) j = false).
    { intros H. apply (proj2 (is_zero_spec N _ ltac:(lia) W)) in H. congruence. }
    destruct (Z_le_gt_dec 1 (zcount (bit (scale M N w M false)) 0 (Z.to_nat N))) as [H|H].
    + destruct (zcount_some _ _ _ H) as (j & Hj & Ej). destruct (scale_overlap M N w j HN HM Hd ltac:(lia)) as (_ & Q). apply Q in Ej. destruct Ej as (i & A & _ & B). exists i. auto.
    + exfalso. apply Hn. intros j Hj. pose proof (zcount_bound (bit (scale M N w M false)) (Z.to_nat N) 0). apply (zcount_zero_inv _ (Z.to_nat N) 0); lia.
  - intros (i & Hi & E). destruct (overlap_some N M i HN HM Hi) as (j & Hj & Ho). destruct (is_zero N (scale M N w M false)) eqn:Ez; [|reflexivity].
    pose proof (proj1 (is_zero_spec N _ ltac:(lia) W) Ez j Hj) as Q. destruct (scale_overlap M N w j HN HM Hd Hj) as (_ & Q').
    assert (bit (scale M N w M false) j = true) by (apply Q'; eauto). congruence.
Qed.

(** ** The tries of a pass *)

Lemma count_app {A} (P : A -> bool) l l' : count P (l ++ l') = count P l + count P l'.
Proof. unfold count. rewrite filter_app, app_length. lia. Qed.
Lemma count_one {A} (P : A -> bool) x : count P [x] = if P x then 1 else 0.
Proof. unfold count. cbn [filter]. destruct (P x); reflexivity. Qed.
Lemma count_cons {A} (P : A -> bool) x l : count P (x :: l) = (if P x then 1 else 0) + count P l.
Proof. unfold count. cbn [filter]. destruct (P x); cbn [length]; lia. Qed.
Lemma longest_app l l' : longest (l ++ l') = Z.max (longest l) (longest l').
Proof.
  unfold longest. induction l as [|e l IH]; cbn [app map fold_right]; [|lia]. assert (0 <= fold_right Z.max 0 (map took l')); [|lia].
  induction l'; cbn [map fold_right]; lia.
Qed.
Lemma longest_nonneg l : 0 <= longest l.
Proof. unfold longest. induction l; cbn [map fold_right]; lia. Qed.
Lemma longest_le l b : 0 <= b -> longest l <= b <-> forall e, In e l -> took e <= b.
Proof.
  intros Hb. unfold longest. induction l as [|e l IH]; cbn [map fold_right In]; [split; [intros _ ? []|auto]|]. split.
  - intros H e' [<-|He]; [lia|]. apply IH; [lia|assumption].
  - intros H. pose proof (H e (or_introl eq_refl)). assert (fold_right Z.max 0 (map took l) <= b); [apply IH; auto|lia].
Qed.

Lemma decide_tries M c enabled s l o : 0 < M -> 0 <= tc_slow c -> counts_ok s l -> decide c M enabled s o = None <-> may_try M c enabled l o.
Proof.
  intros HM Hs (_ & _ & _ & _ & Em). unfold decide, may_try. rewrite Em.
  assert (Hc : forall w, count_bits M w 0 M = marked M w) by (intros w; apply count_bits_spec; lia). rewrite !Hc. unfold k_max_swapped, k_max_unbacked.
  pose proof (longest_le l (tc_slow c) Hs) as Hl. destruct (o_huge o) as [[|]|]; try (split; [discriminate|intros (_ & H & _); discriminate]).
  destruct enabled; cbn [andb negb]; [|split; [discriminate|intros (H & _); discriminate]].
  destruct (Z.ltb_spec (tc_slow c) (longest l)) as [H|H]; cbn [negb].
  - split; [discriminate|]. intros (_ & _ & _ & A). apply Hl in A. lia.
  - destruct (tc_unfiltered c); cbn [orb].
    + split; [|reflexivity]. intros _. repeat split; auto. apply Hl. assumption.
    + destruct (Z.ltb_spec (marked M (o_swapped o)) 128), (Z.ltb_spec (marked M (o_unbacked o)) 64); cbn [andb];
      (split; [first [discriminate|intros _; repeat split; auto; apply Hl; assumption]|first [reflexivity|intros (_ & _ & [A|A] & _); [discriminate|lia]]]).
Qed.

Lemma decide_not_tried c M enabled s o out : decide c M enabled s o = Some out -> match out with TTried _ _ _ => False | _ => True end.
Proof.
  unfold decide. destruct (o_huge o) as [[|]|]; try (intros H; injection H as <-; exact I).
  destruct (enabled && _).
  - destruct (_ || _); [discriminate|]. intros H. injection H as <-. exact I.
  - destruct enabled; intros H; injection H as <-; exact I.
Qed.

Lemma log_snoc M c enabled l e : log_ok M c enabled l -> (tried e = true <-> may_try M c enabled l (e_obs e)) -> log_ok M c enabled (l ++ [e]).
Proof.
  intros H He l1 x l2 E. destruct l2 as [|y l2] using rev_ind.
  - apply app_inj_tail in E. destruct E as (-> & ->). assumption.
  - clear IHl2. change (l1 ++ x :: l2 ++ [y]) with (l1 ++ (x :: l2) ++ [y]) in E. rewrite app_assoc in E. apply app_inj_tail in E. destruct E as (E & _). exact (H l1 x l2 E).
Qed.

Lemma counts_not_tried s l e : counts_ok s l -> tried e = false -> counts_ok s (l ++ [e]).
Proof.
  intros (A & B & C & D & E) H. unfold counts_ok. rewrite map_app, zsum_app, longest_app, !count_app, !count_one, H.
  assert (W : worked e = false) by (unfold worked, tried in *; destruct (e_out e); congruence).
  assert (T : took e = 0) by (unfold took, tried in *; destruct (e_out e); congruence).
  rewrite W. unfold longest at 2. cbn [map fold_right zsum]. rewrite T. pose proof (longest_nonneg l). repeat split; try lia.
  intros k. rewrite count_app, count_one, C. assert (F : failed k e = false) by (unfold failed, tried in *; destruct (e_out e); congruence). rewrite F. lia.
Qed.
Lemma error_index_kind errno k : (error_index errno =? k) = is_kind k errno.
Proof.
  unfold error_index, is_kind. cbn [existsb].
  destruct (errno =? 12) eqn:E1; [lia|]. destruct (errno =? 16) eqn:E2; [lia|]. destruct (errno =? 22) eqn:E3; [lia|].
  destruct (errno =? 11) eqn:E4; [lia|]. destruct (errno =? 4) eqn:E5; lia.
Qed.
Lemma counts_tried s l x o ok errno elapsed t : counts_ok s l -> counts_ok (count_collapse s ok errno elapsed) (l ++ [Entry x o (TTried ok errno elapsed) t]).
Proof.
  intros (A & B & C & D & E). unfold counts_ok. rewrite map_app, zsum_app, longest_app, !count_app, !count_one. unfold longest at 2.
  cbn [count_collapse st_attempted st_succeeded st_errors st_time st_max map fold_right zsum took tried worked e_out].
  pose proof (longest_nonneg l). repeat split; try (destruct ok; lia); try lia.
  intros k. rewrite count_app, count_one. cbn [failed e_out]. destruct ok; [rewrite C; lia|]. rewrite <- error_index_kind. unfold upd. rewrite (Z.eqb_sym k).
  destruct (Z.eqb_spec (error_index errno) k) as [->|]; rewrite C; lia.
Qed.

(** ** The record of the passes *)

Definition allowed (a : past) : bool := a_asked a && negb (a_skipped a).

Record pinv (M : Z) (c : tconf) (cur : Z) (a : past) (g : pass) : Prop := {
  pi_enabled : g_enabled g = allowed a;
  pi_cur : allowed a = true -> cur = 0;
  pi_log : log_ok M c (g_enabled g) (g_done g);
  pi_counts : counts_ok (g_stats g) (g_done g);
  pi_eligible : st_eligible (g_stats g) = (if allowed a then Z.of_nat (length (map e_x (g_done g) ++ busy_list (g_busy g) ++ g_todo g)) else 0);
  pi_zero : st_subreleased (g_stats g) = 0 /\ st_unbacked (g_stats g) = 0 /\ st_stale (g_stats g) = 0;
  pi_busy : forall x o, g_busy g = Some (x, o) -> may_try M c (g_enabled g) (g_done g) o }.

Record hinv (M : Z) (c : tconf) (s : tsys) : Prop := {
  hi_skip : forall l1 a l2, y_past s = l1 ++ a :: l2 -> a_skipped a = a_asked a && (skipped_last l2 + 1 <? wait_after c l2);
  hi_cur : y_cur s = skipped_last (y_past s);
  hi_max : y_max s = wait_after c (over s);
  hi_range : 1 <= y_max s <= 128 /\ 0 <= y_cur s < y_max s;
  hi_log : forall a, In a (over s) -> log_ok M c (allowed a) (a_done a) /\ a_eligible a = if allowed a then Z.of_nat (length (a_done a)) else 0;
  hi_pass : forall g, y_phase s = PPass g -> exists a l, y_past s = a :: l /\ pinv M c (y_cur s) a g;
  hi_counts : counts_ok (y_stats s) (flat_map a_done (over s));
  hi_eligible : st_eligible (y_stats s) = zsum (map a_eligible (over s));
  hi_total : st_total_unbacked (y_stats s) = zsum (map a_unb (over s));
  hi_skipped : st_skipped (y_stats s) = count a_skipped (y_past s);
  hi_last : st_subreleased (y_stats s) = match over s with [] => 0 | a :: _ => a_sub a end /\
            st_unbacked (y_stats s) = match over s with [] => 0 | a :: _ => a_unb a end /\
            st_stale (y_stats s) = match over s with [] => 0 | a :: _ => a_stale a end }.

Lemma skip_cons c (a : past) (past0 : list past) :
  (forall l1 x l2, past0 = l1 ++ x :: l2 -> a_skipped x = a_asked x && (skipped_last l2 + 1 <? wait_after c l2)) ->
  a_skipped a = a_asked a && (skipped_last past0 + 1 <? wait_after c past0) ->
  forall l1 x l2, a :: past0 = l1 ++ x :: l2 -> a_skipped x = a_asked x && (skipped_last l2 + 1 <? wait_after c l2).
Proof. intros H Ha [|y l1] x l2 E; injection E as -> E; [subst; assumption|exact (H l1 x l2 E)]. Qed.

Lemma may_try_false M c l o : ~ may_try M c false l o.
Proof. intros (H & _). discriminate. Qed.

Lemma counts_update s b l l' : counts_ok s l -> counts_ok b l' -> counts_ok (stats_update s b) (l' ++ l).
Proof.
  intros (A & B & C & D & E) (A' & B' & C' & D' & E'). unfold counts_ok. rewrite map_app, zsum_app, longest_app, !count_app.
  cbn [stats_update st_attempted st_succeeded st_errors st_time st_max]. repeat split; try lia. intros k. rewrite count_app, C, C'. lia.
Qed.

Lemma pass_hinv N M c s s' : 1 < N -> 0 < M -> M mod N = 0 \/ N mod M = 0 -> 0 <= tc_slow c -> tinv N c s -> hinv M c s -> pass_step N M c s s' -> hinv M c s'.
Proof.
  intros HN HM Hd Hsl T I H. pose proof (pass_tinv N M c s s' HN HM Hd T H) as T'. destruct T' as (Nc & _).
  destruct H as [s asked now ls lu k1 info sampled k2 sel Hp Es Eu Hs Ht|s g x l o out t Hp Ht Hb Hdec|s g x l o t elapsed Hp Ht Hb Hdec Hr|s g x l o Hp Ht Hb Hdec Hr|s g x o t ok errno elapsed Hp Hb|s g os Hp Ht Hb].
  - clear Nc. assert (Ov : over s = y_past s) by (unfold over; rewrite Hp; reflexivity). destruct I as [I1 I2 I3 I4 I5 I6 I7 I8 I9 I10 I11].
    unfold pass_start. set (q := if asked then should_backoff (y_max s) (y_cur s) else (false, y_cur s)).
    assert (Q : fst q = asked && (skipped_last (y_past s) + 1 <? wait_after c (y_past s)) /\
      snd q = (if fst q then 1 + y_cur s else if asked then 0 else y_cur s) /\ 0 <= snd q < y_max s).
    { unfold q, should_backoff. rewrite <- I2, <- Ov, <- I3. destruct asked; cbn [andb fst snd]; [|split; [reflexivity|split; [reflexivity|lia]]].
      destruct (Z.ltb_spec (y_cur s + 1) (y_max s)); cbn [fst snd]; (split; [reflexivity|split; lia]). }
    destruct q as [back cur]. cbn [fst snd] in Q. destruct Q as (Q1 & Q2 & Q3).
    constructor; cbn [over y_phase y_past y_cur y_max y_stats tl]; rewrite ?Ov in *; auto.
    + apply skip_cons; [assumption|]. exact Q1.
    + cbn [skipped_last a_skipped a_asked]. rewrite <- I2. exact Q2.
    + split; [tauto|assumption].
    + intros g E. injection E as <-. eexists _, _. split; [reflexivity|].
      constructor; cbn [g_enabled g_done g_stats g_busy g_todo busy_list map app st_eligible st_subreleased st_unbacked st_stale]; auto.
      * unfold allowed. cbn [a_asked a_skipped]. intros Ha. apply Bool.andb_true_iff in Ha. destruct Ha as (-> & Hn). apply Bool.negb_true_iff in Hn. rewrite Hn in Q2. exact Q2.
      * intros l1 x l2 E. destruct l1; discriminate.
      * unfold counts_ok. cbn. auto.
      * discriminate.
    + destruct back; exact I7.
    + destruct back; exact I8.
    + destruct back; exact I9.
    + rewrite count_cons. cbn [a_skipped]. destruct back; cbn [st_skipped]; rewrite I10; lia.
    + destruct back; exact I11.
  - clear Nc. destruct I as [I1 I2 I3 I4 I5 I6 I7 I8 I9 I10 I11]. destruct (I6 g Hp) as (a & p & Ep & [P1 P2 P3 P4 P5 P6 P7]).
    assert (Ov : over s = tl (y_past s)) by (unfold over; rewrite Hp; reflexivity).
    constructor; cbn [with_phase over y_phase y_past y_cur y_max y_stats]; rewrite ?Ov in *; auto.
    intros g' E. injection E as <-. exists a, p. split; [assumption|].
    assert (Nt : tried (Entry x o out t) = false) by (pose proof (decide_not_tried _ _ _ _ _ _ Hdec); unfold tried; cbn; destruct out; auto; contradiction).
    constructor; cbn [g_enabled g_done g_stats g_busy g_todo]; auto.
    + apply log_snoc; [assumption|]. rewrite Nt. split; [discriminate|]. intros Hm. cbn [e_obs] in Hm.
      apply (decide_tries M c (g_enabled g) (g_stats g) (g_done g) o HM Hsl P4) in Hm. congruence.
    + apply counts_not_tried; assumption.
    + rewrite P5, Hb, Ht. cbn [busy_list app]. rewrite map_app, <- app_assoc. reflexivity.
    + discriminate.
  - clear Nc. destruct I as [I1 I2 I3 I4 I5 I6 I7 I8 I9 I10 I11]. destruct (I6 g Hp) as (a & p & Ep & [P1 P2 P3 P4 P5 P6 P7]).
    assert (Ov : over s = tl (y_past s)) by (unfold over; rewrite Hp; reflexivity).
    constructor; cbn [with_phase over y_phase y_past y_cur y_max y_stats]; rewrite ?Ov in *; auto.
    intros g' E. injection E as <-. exists a, p. split; [assumption|].
    constructor; cbn [g_enabled g_done g_stats g_busy g_todo]; auto.
    + apply log_snoc; [assumption|]. cbn [tried e_out e_obs]. split; [intros _|reflexivity].
      apply (decide_tries M c (g_enabled g) (g_stats g) (g_done g) o HM Hsl P4). assumption.
    + apply counts_tried; assumption.
    + cbn [count_collapse st_eligible]. rewrite P5, Hb, Ht. cbn [busy_list app]. rewrite map_app, <- app_assoc. reflexivity.
    + discriminate.
  - destruct I as [I1 I2 I3 I4 I5 I6 I7 I8 I9 I10 I11]. destruct (I6 g Hp) as (a & p & Ep & [P1 P2 P3 P4 P5 P6 P7]).
    assert (Ov : over s = tl (y_past s)) by (unfold over; rewrite Hp; reflexivity).
    destruct (fl_collapsing (y_f s) x); [cbn in Nc; congruence|]. clear Nc.
    constructor; cbn [with_phase over y_phase y_past y_cur y_max y_stats]; rewrite ?Ov in *; auto.
    intros g' E. injection E as <-. exists a, p. split; [assumption|].
    constructor; cbn [g_enabled g_done g_stats g_busy g_todo]; auto.
    + rewrite P5, Hb, Ht. reflexivity.
    + intros x' o' E. injection E as <- <-. apply (decide_tries M c (g_enabled g) (g_stats g) (g_done g) o HM Hsl P4). assumption.
  - destruct I as [I1 I2 I3 I4 I5 I6 I7 I8 I9 I10 I11]. destruct (I6 g Hp) as (a & p & Ep & [P1 P2 P3 P4 P5 P6 P7]).
    assert (Ov : over s = tl (y_past s)) by (unfold over; rewrite Hp; reflexivity).
    destruct (pt_released (fl_tr (y_f s) x)); [cbn in Nc; congruence|]. clear Nc.
    constructor; cbn [with_phase over y_phase y_past y_cur y_max y_stats]; rewrite ?Ov in *; auto.
    intros g' E. injection E as <-. exists a, p. split; [assumption|].
    constructor; cbn [g_enabled g_done g_stats g_busy g_todo]; auto.
    + apply log_snoc; [assumption|]. cbn [tried e_out e_obs]. split; [intros _|reflexivity]. exact (P7 x o Hb).
    + apply counts_tried; assumption.
    + cbn [count_collapse st_eligible]. rewrite P5, Hb. cbn [busy_list app]. rewrite map_app, <- app_assoc. reflexivity.
    + discriminate.
  - clear Nc. destruct (finish_ok N M c s g os HN HM Hd T Hp Ht Hb) as (mine & F). destruct I as [I1 I2 I3 I4 I5 I6 I7 I8 I9 I10 I11]. destruct (I6 g Hp) as (a & p & Ep & [P1 P2 P3 P4 P5 P6 P7]).
    assert (Ov : over s = p) by (unfold over; rewrite Hp, Ep; reflexivity). rewrite Ov in *. rewrite Ep in *.
    destruct F as [_ F2 _ _ _ _ _ _ F9 _ _ _ _ _ F15 F16 F17 F18]. set (s' := pass_finish N M c s g os) in *. clearbody s'. rewrite Ep in F18.
    destruct F9 as (G1 & G2 & G3 & G4 & G5 & G6 & G7 & G8). pose proof P4 as (C1 & C2 & C3 & C4 & C5).
    set (a' := Past (a_asked a) (a_skipped a) (g_done g) (st_eligible (g_stats g)) (st_subreleased mine) (st_unbacked mine) (st_stale mine)) in *.
    assert (Ov' : over s' = a' :: p) by (unfold over; rewrite F2, F18; reflexivity).
    assert (W : y_max s' = wait_after c (a' :: p)).
    { rewrite F16, I3. cbn [wait_after a' a_done]. rewrite C1, C5. assert (0 <= count tried (g_done g)) by (unfold count; lia).
      unfold update_backoff, k_max_backoff. rewrite Z.shiftl_mul_pow2, Z.shiftr_div_pow2 by lia. change (2 ^ 1) with 2.
      destruct (Z.ltb_spec 0 (count tried (g_done g))), (Z.eqb_spec (count tried (g_done g)) 0); try lia.
      destruct (tc_slow c <? longest (g_done g)); [f_equal; lia|]. reflexivity. }
    constructor; rewrite ?Ov', ?F15, ?F17; auto.
    + rewrite F18. apply skip_cons; [|exact (I1 [] a p eq_refl)]. intros l1 y l2 E. apply (I1 (a :: l1) y l2). cbn. congruence.
    + rewrite F18. rewrite I2. reflexivity.
    + rewrite W. cbn [wait_after a' a_done]. rewrite <- I3. destruct (Z.eqb_spec (count tried (g_done g)) 0) as [E0|E0]; [assumption|].
      assert (Hc0 : y_cur s = 0).
      { apply P2. rewrite <- P1. destruct (g_enabled g) eqn:Een; [reflexivity|]. exfalso. apply E0. unfold count.
        destruct (filter tried (g_done g)) as [|e q] eqn:Ef; [reflexivity|]. assert (He : In e (filter tried (g_done g))) by (rewrite Ef; left; reflexivity).
        apply filter_In in He. destruct He as (He & Te). apply in_split in He. destruct He as (l1 & l2 & El). apply (P3 l1 e l2 El) in Te. exfalso. exact (may_try_false _ _ _ _ Te). }
      rewrite Hc0. destruct I4 as (I4 & _). pose proof (Z.div_le_upper_bound (y_max s) 2 128 ltac:(lia)).
      destruct (tc_slow c <? longest (g_done g)); [lia|]. destruct (longest (g_done g) <? tc_fast c); lia.
    + intros b [<-|Hb']; [|exact (I5 b Hb')]. change (allowed a') with (allowed a). cbn [a' a_done a_eligible]. split; [rewrite <- P1; exact P3|].
      rewrite P5, Hb, Ht. cbn [busy_list app]. rewrite app_nil_r, map_length. reflexivity.
    + intros g' E. congruence.
    + cbn [flat_map a' a_done]. apply counts_update; [assumption|]. unfold counts_ok. rewrite G2, G3, G4, G6, G7. exact P4.
    + cbn [map zsum a' a_eligible stats_update st_eligible]. rewrite G1, I8. lia.
    + cbn [map zsum a' a_unb stats_update st_total_unbacked]. rewrite I9. lia.
    + rewrite F18. cbn [stats_update st_skipped]. rewrite I10, !count_cons. reflexivity.
Qed.

Lemma other_hinv N M c s s' : hinv M c s -> other_step N (tc_sub c) s s' -> hinv M c s'.
Proof. intros [] H. destruct H; constructor; assumption. Qed.

Theorem treat_hinv N M c s : 1 < N -> 0 < M -> M mod N = 0 \/ N mod M = 0 -> 0 <= tc_slow c -> treat_reach N M c s -> hinv M c s.
Proof.
  intros HN HM Hd Hs. induction 1 as [t0 i0|s s' H IH Hc Hst|s s' H IH Hst].
  - constructor; cbn; auto; try lia; try discriminate.
    + intros l1 a l2 E. destruct l1; discriminate.
    + unfold counts_ok. cbn. auto.
  - exact (other_hinv N M c s s' IH Hst).
  - exact (pass_hinv N M c s s' HN HM Hd Hs (treat_tinv N M c s HN HM Hd H) IH Hst).
Qed.
