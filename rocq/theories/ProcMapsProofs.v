(** Lemmas for C61. *)
From Verif Require Import Base CpuList CpuListProps SafeIo SafeIoProofs SafeIoProofs2 ProcMaps ProcMapsSpec.

Lemma pm_cap_pos : (0 < pm_cap)%nat. Proof. apply Nat.ltb_lt. vm_compute. reflexivity. Qed.
Lemma pm_cap_val : pm_cap = 5119%nat. Proof. reflexivity. Qed.
#[global] Opaque pm_cap.

Lemma sys_read_cases w n : (0 < n)%nat ->
  exists w' r e, sys_read w n = (w', r, e) /\ s_reads w' = tl (s_reads w) /\
  match r with
  | Some b => s_rest w = b ++ s_rest w' /\ (length b <= n)%nat /\ (b = [] -> s_rest w = []) /\
      (s_reads w = [] -> length b = n \/ s_rest w' = [])
  | None => s_rest w' = s_rest w /\ s_reads w <> [] /\ (reads_ok (s_reads w) -> e = EINTR)
  end.
Proof.
  intros Hn. unfold sys_read.
  assert (G : forall k, (0 < k)%nat -> exists w' r e,
     (mk_source (skipn (length (firstn (Nat.min n (Nat.max 1 k)) (s_rest w))) (s_rest w)) (tl (s_reads w)) (s_polls w), Some (firstn (Nat.min n (Nat.max 1 k)) (s_rest w)), 0) = (w', r, e) /\
     s_reads w' = tl (s_reads w) /\
     match r with
     | Some b => s_rest w = b ++ s_rest w' /\ (length b <= n)%nat /\ (b = [] -> s_rest w = []) /\ ((n <= k)%nat -> length b = n \/ s_rest w' = [])
     | None => s_rest w' = s_rest w /\ s_reads w <> [] /\ (reads_ok (s_reads w) -> e = EINTR) end).
  { intros k Hk. eexists _, _, _. split; [reflexivity|]. split; [reflexivity|]. cbn [s_rest].
    set (m := Nat.min n (Nat.max 1 k)).
    assert (Hm : (0 < m <= n)%nat) by lia.
    split; [|split; [|split]].
    - rewrite firstn_length. destruct (Nat.le_gt_cases m (length (s_rest w))).
      + rewrite Nat.min_l by lia. symmetry. apply firstn_skipn.
      + rewrite Nat.min_r by lia. rewrite firstn_all2 by lia. rewrite skipn_all. symmetry. apply app_nil_r.
    - rewrite firstn_length. lia.
    - intros E. destruct (s_rest w); auto. destruct m; [lia|]. discriminate.
    - intros Hk2. replace m with n by lia. rewrite firstn_length. destruct (Nat.le_gt_cases n (length (s_rest w))).
      + left. lia.
      + right. rewrite Nat.min_r by lia. apply skipn_all. }
  destruct (s_reads w) as [|[|e|k] r] eqn:E.
  - destruct (G n Hn) as (w' & r & e & -> & A & B). exists w', r, e. split; auto. split; auto. destruct r; auto.
    destruct B as (B1 & B2 & B3 & B4). repeat split; auto.
  - eexists _, _, _. split; [reflexivity|]. cbn. repeat split; auto. discriminate.
  - eexists _, _, _. split; [reflexivity|]. cbn. repeat split; auto. discriminate. intros H. apply H. left. reflexivity.
  - destruct k as [|k].
    + assert (E2 : Nat.max 1 0 = Nat.max 1 1) by reflexivity. rewrite E2.
      destruct (G 1%nat ltac:(lia)) as (w' & r' & e & -> & A & B). exists w', r', e. split; auto. split; auto. destruct r'; auto.
      destruct B as (B1 & B2 & B3 & B4). repeat split; auto. discriminate.
    + destruct (G (S k) ltac:(lia)) as (w' & r' & e & -> & A & B). exists w', r', e. split; auto. split; auto. destruct r'; auto.
      destruct B as (B1 & B2 & B3 & B4). repeat split; auto. discriminate.
Qed.

Lemma reads_ok_tl l : reads_ok l -> reads_ok (tl l).
Proof. intros H e I. apply H. destruct l; [destruct I|]. right. exact I. Qed.

Lemma pm_fill_spec fuel : forall w text, (length text <= pm_cap)%nat ->
  ((length (s_reads w) + 2 <= fuel)%nat \/ (s_reads w = [] /\ (1 <= fuel)%nat /\ (length text = pm_cap \/ s_rest w = []))) ->
  exists w' text' more, pm_fill fuel w text = Some (w', text') /\ text' = text ++ more /\ s_rest w = more ++ s_rest w' /\
    (length text' <= pm_cap)%nat /\
    (reads_ok (s_reads w) -> reads_ok (s_reads w') /\ (length text' = pm_cap \/ s_rest w' = [])).
Proof.
  induction fuel as [|fuel IH]; intros w text Hl Hf; [lia|].
  cbn [pm_fill]. destruct (Nat.ltb_spec (length text) pm_cap) as [H|H].
  2:{ exists w, text, []. rewrite app_nil_r. repeat split; auto. left. lia. }
  destruct (sys_read_cases w (pm_cap - length text) ltac:(lia)) as (w' & r & e & -> & Er & Hr).
  destruct r as [b|].
  - destruct Hr as (Hr & Hb & Hb0 & Hfull). destruct b as [|x b].
    + exists w', text, []. rewrite app_nil_r. split; auto. split; auto. split; auto. split; auto.
      intros Ok. split. rewrite Er. apply reads_ok_tl; auto. right. specialize (Hb0 eq_refl). rewrite Hb0 in Hr. symmetry in Hr. exact Hr.
    + destruct (IH w' (text ++ x :: b)) as (w2 & t2 & more & E & -> & R & L & Ok).
      * rewrite app_length. lia.
      * rewrite Er. destruct Hf as [Hf|(Z0 & _ & [Z1|Z1])].
        -- destruct (s_reads w) as [|ev q] eqn:Q.
           ++ right. split; [reflexivity|]. split; [cbn in Hf; lia|]. destruct (Hfull eq_refl) as [F|F]; [left|right; exact F].
              rewrite app_length. lia.
           ++ left. cbn [tl length] in *. lia.
        -- lia.
        -- rewrite Z1 in Hr. discriminate.
      * exists w2, ((text ++ x :: b) ++ more), ((x :: b) ++ more). split; auto.
        rewrite <- !app_assoc. split; auto. split. rewrite Hr, R, app_assoc. reflexivity. split. rewrite <- app_assoc in L. exact L.
        intros O. apply reads_ok_tl in O. rewrite <- Er in O. destruct (Ok O) as (O1 & O2). split; auto. rewrite <- app_assoc in O2. exact O2.
  - destruct Hr as (Hr & Hne & Hok). destruct (Z.eqb_spec e EINTR) as [Ee|Ee].
    + destruct (IH w' text) as (w2 & t2 & more & E & -> & R & L & Ok); auto.
      * left. rewrite Er. destruct Hf as [Hf|(Z0 & _)]; [|congruence]. destruct (s_reads w); [congruence|]. cbn [tl length] in *. lia.
      * exists w2, (text ++ more), more. split; auto. split; auto. split. congruence. split; auto.
        intros O. apply Ok. rewrite Er. apply reads_ok_tl; auto.
    + exists w', text, []. rewrite app_nil_r. split; auto. split; auto. split; auto. split; auto.
      intros O. elim Ee. auto.
Qed.

Definition remaining (s : pm_state) : list Z := pm_rest s ++ s_rest (pm_src s).
Definition pm_ok (s : pm_state) : Prop := (length (pm_rest s) <= pm_cap)%nat.

(** Without any assumption: a line is there, and it takes from the text. *)
Lemma pm_line_total s : pm_ok s -> exists line s', pm_line s = Some (line, s') /\ pm_ok s' /\
  (length (remaining s') <= length (remaining s))%nat /\
  ((0 < pm_done s' + length (pm_rest s'))%nat -> (length (remaining s') < length (remaining s))%nat).
Proof.
  intros Ok. unfold pm_line. destruct (find_ch ch_newline (pm_rest s)) as [k|] eqn:F.
  - eexists _, _. split; [reflexivity|]. pose proof (find_ch_lt _ _ _ F) as L. unfold pm_ok, remaining in *. cbn [pm_rest pm_src pm_done].
    rewrite !app_length, !skipn_length. lia.
  - destruct (pm_fill_spec (length (s_reads (pm_src s)) + 3) (pm_src s) (pm_rest s) Ok ltac:(lia)) as (w' & t' & more & E & -> & R & L & _).
    rewrite E. cbn [obind]. destruct (find_ch ch_newline (pm_rest s ++ more)) as [k|] eqn:F2.
    + eexists _, _. split; [reflexivity|]. pose proof (find_ch_lt _ _ _ F2) as L2. unfold pm_ok, remaining in *. cbn [pm_rest pm_src pm_done].
      rewrite R. rewrite !app_length in *. rewrite !skipn_length. rewrite !app_length. lia.
    + eexists _, _. split; [reflexivity|]. unfold pm_ok, remaining in *. cbn [pm_rest pm_src pm_done].
      rewrite R. rewrite !app_length in *. cbn [length]. lia.
Qed.

Lemma pm_next_loop_total fuel : forall s, pm_ok s -> (length (remaining s) < fuel)%nat ->
  exists s' e, pm_next_loop fuel s = Some (s', e) /\ pm_ok s'.
Proof.
  induction fuel as [|fuel IH]; intros s Ok Hf; [lia|]. cbn [pm_next_loop].
  destruct (pm_line_total s Ok) as (line & s' & -> & Ok' & L & L2). cbn [obind].
  destruct (scan_line line); [eauto|].
  destruct (Nat.ltb_spec 0 (pm_done s' + length (pm_rest s'))); [|eauto].
  apply IH; auto. specialize (L2 H). lia.
Qed.

Lemma pm_next_total s : pm_ok s -> exists s' e, pm_next s = Some (s', e) /\ pm_ok s'.
Proof. intros Ok. apply pm_next_loop_total; auto. unfold remaining. rewrite app_length. lia. Qed.

(** With no failing read, the lines are those of the file. *)
Lemma pm_line_split s l t : pm_ok s -> reads_ok (s_reads (pm_src s)) -> remaining s = l ++ 10 :: t -> ~ In 10 l -> (length l < pm_cap)%nat ->
  exists s', pm_line s = Some (l, s') /\ pm_ok s' /\ reads_ok (s_reads (pm_src s')) /\ remaining s' = t /\ (0 < pm_done s' + length (pm_rest s'))%nat.
Proof.
  intros Ok Ro R N L. unfold pm_line. unfold remaining in *.
  assert (Cut : forall a b k, a ++ b = l ++ 10 :: t -> find_ch ch_newline a = Some k -> firstn k a = l /\ skipn (S k) a ++ b = t).
  { intros a b k E F. pose proof (find_ch_app_l _ a b k F) as F2. rewrite E in F2.
    change (10 :: t) with (ch_newline :: t) in F2. rewrite (find_ch_at ch_newline l t N) in F2. injection F2 as <-.
    pose proof (find_ch_lt _ _ _ F) as Lt.
    split.
    - transitivity (firstn (length l) (a ++ b)).
      + rewrite firstn_app. replace (length l - length a)%nat with 0%nat by lia. cbn. rewrite app_nil_r. reflexivity.
      + rewrite E, firstn_app, Nat.sub_diag, firstn_all. cbn. apply app_nil_r.
    - transitivity (skipn (S (length l)) (a ++ b)).
      + rewrite skipn_app. replace (S (length l) - length a)%nat with 0%nat by lia. reflexivity.
      + rewrite E, skipn_app. replace (S (length l) - length l)%nat with 1%nat by lia. rewrite skipn_all2 by lia. reflexivity. }
  destruct (find_ch ch_newline (pm_rest s)) as [k|] eqn:F.
  - destruct (Cut _ _ _ R F) as (-> & C). eexists. split; [reflexivity|]. unfold pm_ok in *. cbn [pm_rest pm_src pm_done]. rewrite skipn_length. repeat split; auto; lia.
  - destruct (pm_fill_spec (length (s_reads (pm_src s)) + 3) (pm_src s) (pm_rest s) Ok ltac:(lia)) as (w' & t' & more & E & Et & R2 & L2 & O2).
    rewrite E. cbn [obind]. destruct (O2 Ro) as (O3 & O4). rewrite R2 in R. rewrite app_assoc, <- Et in R.
    destruct (find_ch ch_newline t') as [k|] eqn:F2.
    + destruct (Cut _ _ _ R F2) as (-> & C). eexists. split; [reflexivity|]. unfold pm_ok in *. cbn [pm_rest pm_src pm_done]. rewrite skipn_length. repeat split; auto; lia.
    + exfalso. destruct O4 as [O4|O4].
      * apply CpuListProps.find_ch_none in F2. apply F2.
        assert (X : nth_error (t' ++ s_rest w') (length l) = Some 10).
        { rewrite R, nth_error_app2, Nat.sub_diag by lia. reflexivity. }
        rewrite nth_error_app1 in X by lia. eapply nth_error_In; eauto.
      * rewrite O4, app_nil_r in R. apply CpuListProps.find_ch_none in F2. apply F2. rewrite R. apply in_or_app. right. left. reflexivity.
Qed.

Lemma pm_line_last s : pm_ok s -> reads_ok (s_reads (pm_src s)) -> ~ In 10 (remaining s) -> (length (remaining s) < pm_cap)%nat ->
  exists s', pm_line s = Some (remaining s, s') /\ pm_ok s' /\ reads_ok (s_reads (pm_src s')) /\ remaining s' = [] /\ pm_done s' = length (remaining s) /\ pm_rest s' = [].
Proof.
  intros Ok Ro N L. unfold pm_line.
  assert (F : find_ch ch_newline (pm_rest s) = None).
  { apply CpuListProps.find_ch_none. intros I. apply N. unfold remaining. apply in_or_app. auto. }
  rewrite F.
  destruct (pm_fill_spec (length (s_reads (pm_src s)) + 3) (pm_src s) (pm_rest s) Ok ltac:(lia)) as (w' & t' & more & E & Et & R2 & L2 & O2).
  rewrite E. cbn [obind]. destruct (O2 Ro) as (O3 & O4). unfold remaining in *. rewrite R2, app_assoc, <- Et in *.
  destruct O4 as [O4|O4].
  { rewrite app_length in L. lia. }
  rewrite O4, app_nil_r in *.
  assert (F2 : find_ch ch_newline t' = None) by (apply CpuListProps.find_ch_none; exact N).
  rewrite F2. eexists. split; [reflexivity|]. unfold pm_ok. cbn [pm_rest pm_src pm_done length]. repeat split; auto; lia.
Qed.

Definition line_entries (l : list Z) : list map_entry := match scan_line l with Some e => [e] | None => [] end.

Lemma file_text_cons l ls last : file_text (l :: ls) last = l ++ 10 :: file_text ls last.
Proof. unfold file_text. cbn [flat_map]. rewrite <- !app_assoc. reflexivity. Qed.

Lemma file_text_length l ls last : (length (file_text (l :: ls) last) = length l + S (length (file_text ls last)))%nat.
Proof. rewrite file_text_cons, app_length. reflexivity. Qed.

Lemma scan_nil : scan_line [] = None. Proof. reflexivity. Qed.

Lemma pm_next_loop_spec fuel : forall s lines last, pm_ok s -> reads_ok (s_reads (pm_src s)) ->
  remaining s = file_text lines last -> Forall (fun l => ~ In 10 l /\ (length l < pm_cap)%nat) (last :: lines) ->
  (length (remaining s) < fuel)%nat ->
  exists s' lines' last', pm_ok s' /\ reads_ok (s_reads (pm_src s')) /\ remaining s' = file_text lines' last' /\
    Forall (fun l => ~ In 10 l /\ (length l < pm_cap)%nat) (last' :: lines') /\
    pm_next_loop fuel s = Some (s', hd_error (flat_map line_entries (lines ++ [last]))) /\
    flat_map line_entries (lines' ++ [last']) = tl (flat_map line_entries (lines ++ [last])).
Proof.
  induction fuel as [|fuel IH]; intros s lines last Ok Ro R Fl Hf; [lia|].
  cbn [pm_next_loop]. destruct lines as [|l lines].
  - unfold file_text in R. cbn in R. inversion Fl as [|x y (N & L) _]; subst x y.
    rewrite <- R in N, L.
    destruct (pm_line_last s Ok Ro N L) as (s' & -> & Ok' & Ro' & R' & D' & P'). cbn [obind].
    rewrite R in *. cbn [app flat_map]. change (line_entries last) with (match scan_line last with Some e => [e] | None => [] end). destruct (scan_line last) as [e|] eqn:Sc.
    + exists s', [], []. split; auto. split; auto. split. rewrite R'. reflexivity. split. constructor; auto. split. intros []. cbn. pose proof pm_cap_pos; lia.
      split; reflexivity.
    + destruct (Nat.ltb_spec 0 (pm_done s' + length (pm_rest s'))) as [H|H].
      * destruct (IH s' [] []) as (s2 & l2 & la2 & A & B & C & D & E & F); auto.
        -- constructor; auto. split. intros []. cbn. pose proof pm_cap_pos; lia.
        -- rewrite R'. rewrite D', P' in H. cbn [length] in *. rewrite Nat.add_0_r in H. lia.
        -- exists s2, l2, la2. split; auto.
      * exists s', [], []. split; auto. split; auto. split. rewrite R'. reflexivity. split. constructor; auto. split. intros []. cbn. pose proof pm_cap_pos; lia.
        split; reflexivity.
  - rewrite file_text_cons in R. inversion Fl as [|x y P0 Fl2]; subst x y. inversion Fl2 as [|x y (N & L) Fl3]; subst x y.
    destruct (pm_line_split s l _ Ok Ro R N L) as (s' & -> & Ok' & Ro' & R' & D'). cbn [obind].
    cbn [app flat_map]. change (line_entries l) with (match scan_line l with Some e => [e] | None => [] end). destruct (scan_line l) as [e|] eqn:Sc.
    + exists s', lines, last. split; auto 10.
    + destruct (Nat.ltb_spec 0 (pm_done s' + length (pm_rest s'))) as [H|H]; [|lia].
      destruct (IH s' lines last) as (s2 & l2 & la2 & A & B & C & D & E & F); auto.
      * rewrite R', R, app_length in *. cbn [length] in Hf. lia.
      * exists s2, l2, la2. cbn [app]. split; auto.
Qed.

Lemma results_nil n : results n [] = repeat None n.
Proof. unfold results. cbn. rewrite firstn_all2; auto. rewrite repeat_length. lia. Qed.

Lemma results_S n es : results (S n) es = hd_error es :: results n (tl es).
Proof.
  destruct es as [|e es].
  - cbn [hd_error tl]. rewrite !results_nil. reflexivity.
  - unfold results. cbn [map app firstn hd_error tl]. f_equal.
    rewrite !firstn_app. f_equal. rewrite map_length.
    assert (G : forall a b, (a <= b)%nat -> firstn a (repeat (None : option map_entry) b) = repeat None a).
    { induction a; intros [|b] H; try reflexivity; [lia|]. cbn [repeat firstn]. f_equal. apply IHa. lia. }
    rewrite !G by lia. reflexivity.
Qed.

Lemma pm_calls_spec n : forall s lines last, pm_ok s -> reads_ok (s_reads (pm_src s)) ->
  remaining s = file_text lines last -> Forall (fun l => ~ In 10 l /\ (length l < pm_cap)%nat) (last :: lines) ->
  pm_calls n s = Some (results n (flat_map line_entries (lines ++ [last]))).
Proof.
  induction n as [|n IH]; intros s lines last Ok Ro R Fl; [reflexivity|].
  cbn [pm_calls]. unfold pm_next.
  destruct (pm_next_loop_spec (S (length (pm_rest s) + length (s_rest (pm_src s)) + 1)) s lines last Ok Ro R Fl) as (s' & l' & la' & A & B & C & D & E & F).
  { unfold remaining. rewrite app_length. lia. }
  rewrite E. cbn [obind]. rewrite (IH s' l' la' A B C D), F, results_S. reflexivity.
Qed.
