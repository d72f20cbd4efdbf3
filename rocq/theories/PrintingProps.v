(** * Statistics as text (C51)

    Specification.  [text os] is everything that is printed.  Byte [i] of a text is [nth i]. *)
From Verif Require Import Base Printing.

Definition text_of (o : print) : list Z := match o with Printf t => t | Broken _ => [] | Append ps => concat ps end.
Definition text (os : list print) : list Z := concat (map text_of os).
Definition len_of (l : list Z) : Z := Z.of_nat (length l).
Definition byte (l : list Z) (i : Z) : Z := nth (Z.to_nat i) l 0.
Definition works (o : print) : Prop := match o with Broken _ => False | _ => True end.
Definition is_printf (o : print) : Prop := match o with Printf _ => True | _ => False end.

(** ** Lemmas *)

Lemma len_app a b : len_of (a ++ b) = len_of a + len_of b.
Proof. unfold len_of. rewrite app_length. lia. Qed.
Lemma len_nonneg l : 0 <= len_of l.
Proof. unfold len_of. lia. Qed.
Lemma byte_app_l a b i : 0 <= i < len_of a -> byte (a ++ b) i = byte a i.
Proof. unfold byte, len_of. intros H. apply app_nth1. lia. Qed.
Lemma byte_app_r a b i : len_of a <= i -> byte (a ++ b) i = byte b (i - len_of a).
Proof. unfold byte, len_of. intros H. rewrite app_nth2 by lia. f_equal. lia. Qed.
Lemma text_snoc os o : text (os ++ [o]) = text os ++ text_of o.
Proof. unfold text. rewrite map_app, concat_app. cbn [map concat]. rewrite app_nil_r. reflexivity. Qed.

Lemma put_spec bs : forall m a z, put m a bs z = if (a <=? z) && (z <? a + len_of bs) then byte bs (z - a) else m z.
Proof.
  induction bs as [|b bs IH]; intros m a z; cbn [put].
  - replace ((a <=? z) && (z <? a + len_of [])) with false; [reflexivity|]. unfold len_of. cbn [length]. lia.
  - rewrite IH. unfold len_of. cbn [length]. destruct (Z.eqb_spec z a) as [->|Hz].
    + replace ((a + 1 <=? a) && (a <? a + 1 + Z.of_nat (length bs))) with false by lia. rewrite upd_same. replace ((a <=? a) && (a <? a + Z.of_nat (S (length bs)))) with true by lia.
      rewrite Z.sub_diag. reflexivity.
    + rewrite upd_other by congruence. replace ((a <=? z) && (z <? a + Z.of_nat (S (length bs)))) with ((a + 1 <=? z) && (z <? a + 1 + Z.of_nat (length bs))) by lia.
      destruct ((a + 1 <=? z) && _) eqn:E; [|reflexivity]. unfold byte. replace (Z.to_nat (z - a)) with (S (Z.to_nat (z - (a + 1)))) by lia. reflexivity.
Qed.
Lemma put_app x : forall m a y, put m a (x ++ y) = put (put m a x) (a + len_of x) y.
Proof.
  induction x as [|b x IH]; intros m a y; cbn [put app]; [unfold len_of; cbn [length]; rewrite Z.add_0_r; reflexivity|].
  rewrite IH. unfold len_of. cbn [length]. replace (a + 1 + Z.of_nat (length x)) with (a + Z.of_nat (S (length x))) by lia. reflexivity.
Qed.
Lemma put_pieces ps : forall m a, fold_left (fun s x => (put (fst s) (snd s) x, snd s + Z.of_nat (length x))) ps (m, a) = (put m a (concat ps), a + len_of (concat ps)).
Proof.
  induction ps as [|x ps IH]; intros m a; cbn [fold_left concat fst snd]; [unfold len_of; cbn [length put]; rewrite Z.add_0_r; reflexivity|].
  rewrite IH, put_app, len_app. unfold len_of. f_equal. lia.
Qed.
Lemma total_pieces ps : zsum (map (fun x => Z.of_nat (length x)) ps) = len_of (concat ps).
Proof. induction ps as [|x ps IH]; [reflexivity|]. cbn [map concat]. rewrite zsum_cons, IH, len_app. reflexivity. Qed.
Lemma firstn_len k (t : list Z) : 0 <= k <= len_of t -> len_of (firstn (Z.to_nat k) t) = k.
Proof. unfold len_of. intros H. rewrite firstn_length. lia. Qed.
Lemma firstn_byte k (t : list Z) i : 0 <= i < k -> byte (firstn (Z.to_nat k) t) i = byte t i.
Proof.
  unfold byte. intros H. assert (G : forall n j (l : list Z), (j < n)%nat -> nth j (firstn n l) 0 = nth j l 0).
  { induction n as [|n IHn]; intros j l Hj; [lia|]. destruct l as [|x l]; [reflexivity|]. destruct j as [|j]; [reflexivity|]. cbn [firstn nth]. apply IHn. lia. }
  apply G. lia.
Qed.
Lemma run_snoc s os o : pr_run s (os ++ [o]) = pr_step (pr_run s os) o.
Proof. unfold pr_run. rewrite fold_left_app. reflexivity. Qed.

(** What SNPrintF writes. *)
Lemma snprintf_spec m buf size t m' r : snprintf m buf size t = (m', r) -> 0 <= size ->
  r = len_of t /\ (forall z, ~ (buf <= z < buf + size) -> m' z = m z) /\
  (0 < size -> let k := Z.min r (size - 1) in (forall i, 0 <= i < k -> m' (buf + i) = byte t i) /\ m' (buf + k) = 0 /\ forall z, buf + k < z -> m' z = m z).
Proof.
  unfold snprintf. fold (len_of t). intros E Hs. injection E as <- <-. split; [reflexivity|]. pose proof (len_nonneg t) as Hl. destruct (Z.ltb_spec 0 size) as [Hp|Hp].
  - set (k := Z.min (len_of t) (size - 1)). assert (Hk : 0 <= k <= len_of t) by (unfold k; lia). split.
    + intros z Hz. rewrite upd_other by (unfold k in *; lia). rewrite put_spec, firstn_len by assumption. replace ((buf <=? z) && (z <? buf + k)) with false by (unfold k; lia). reflexivity.
    + intros _. cbv zeta. fold k. split; [|split].
      * intros i Hi. rewrite upd_other by lia. rewrite put_spec, firstn_len by assumption. replace ((buf <=? buf + i) && (buf + i <? buf + k)) with true by lia. replace (buf + i - buf) with i by lia. apply firstn_byte. assumption.
      * apply upd_same.
      * intros z Hz. rewrite upd_other by lia. rewrite put_spec, firstn_len by assumption. replace ((buf <=? z) && (z <? buf + k)) with false by lia. reflexivity.
  - split; [reflexivity|lia].
Qed.

(** ** Nothing outside the buffer is written *)
Theorem printer_in_bounds : forall m buf len os m' p, 0 < len -> pr_run (pr_init m buf len) os = (m', p) ->
  (forall z, ~ (buf <= z < buf + len) -> m' z = m z) /\ buf <= pr_buf p /\ 0 <= pr_left p /\ pr_buf p + pr_left p <= buf + len.
Proof.
  intros m buf len os. induction os as [|o os IH] using rev_ind; intros m' p Hl E.
  - injection E as <- <-. cbn [pr_buf pr_left]. split; [|lia]. intros z Hz. apply upd_other. lia.
  - rewrite run_snoc in E. destruct (pr_run (pr_init m buf len) os) as (m1, p1). destruct (IH m1 p1 Hl eq_refl) as (A & B & C & D). destruct o as [t|j|ps]; cbn [pr_step] in E.
    + destruct (snprintf m1 (pr_buf p1) (pr_left p1) t) as (m2, r) eqn:Es. destruct (snprintf_spec _ _ _ _ _ _ Es C) as (-> & F & _). pose proof (len_nonneg t).
      injection E as <- <-. split; [intros z Hz; rewrite F by lia; auto|]. destruct (Z.ltb_spec (pr_left p1) (len_of t)); cbn [pr_buf pr_left]; lia.
    + injection E as <- <-. cbn [pr_buf pr_left]. split; [|lia]. intros z Hz. rewrite put_spec. assert (len_of (firstn (Z.to_nat (pr_left p1)) j) <= pr_left p1) by (unfold len_of; rewrite firstn_length; lia).
      replace ((pr_buf p1 <=? z) && _) with false by lia. auto.
    + rewrite total_pieces in E. pose proof (len_nonneg (concat ps)). destruct (Z.ltb_spec (pr_left p1) (len_of (concat ps))).
      * injection E as <- <-. cbn [pr_buf pr_left]. split; [assumption|lia].
      * rewrite put_pieces in E. injection E as <- <-. cbn [pr_buf pr_left]. split; [|lia]. intros z Hz. rewrite put_spec. replace ((pr_buf p1 <=? z) && _) with false by lia. auto.
Qed.
Print Assumptions printer_in_bounds.

(** ** What is in the buffer *)

Record written (m : Z -> Z) (buf len : Z) (T : list Z) (m' : Z -> Z) (p : printer) (k : Z) : Prop := {
  w_req : pr_required p = len_of T;
  w_k : 0 <= k <= Z.min len (len_of T);
  w_text : forall i, 0 <= i < k -> m' (buf + i) = byte T i;
  w_rest : forall z, buf + k < z -> m' z = m z;
  w_nul : m' (buf + k) = 0 \/ m' (buf + k) = m (buf + k);
  w_left : 0 <= pr_left p;
  w_more : 0 < pr_left p -> k = len_of T /\ pr_buf p = buf + k /\ pr_left p = len - k;
  w_full : pr_left p = 0 -> len <= len_of T
}.

Lemma run_written m buf len os : 0 < len -> Forall works os -> forall m' p, pr_run (pr_init m buf len) os = (m', p) ->
  exists k, written m buf len (text os) m' p k /\ (Forall is_printf os -> k = Z.min (len_of (text os)) (len - 1) /\ m' (buf + k) = 0).
Proof.
  intros Hl. induction os as [|o os IH] using rev_ind; intros Hw m' p E.
  - injection E as <- <-. exists 0. split; [split; cbn [pr_required pr_left pr_buf]; unfold text, len_of; cbn [map concat length]; try lia; try reflexivity|].
    + intros z Hz. apply upd_other. lia.
    + left. rewrite Z.add_0_r. apply upd_same.
    + intros _. split; [unfold text, len_of; cbn [map concat length]; lia|]. rewrite Z.add_0_r. apply upd_same.
  - apply Forall_app in Hw. destruct Hw as (Hw & Ho). apply Forall_inv in Ho. rewrite run_snoc in E. destruct (pr_run (pr_init m buf len) os) as (m1, p1). destruct (IH Hw m1 p1 eq_refl) as (k & W & Hf). clear IH.
    destruct W as [W1 W2 W3 W4 W5 W6 W7 W8]. rewrite text_snoc. set (T := text os) in *. clearbody T. pose proof (len_nonneg T) as HT. destruct o as [t|j|ps]; cbn [pr_step text_of works] in *.
    + destruct (snprintf m1 (pr_buf p1) (pr_left p1) t) as (m2, r) eqn:Es. destruct (snprintf_spec _ _ _ _ _ _ Es W6) as (-> & F1 & F2). pose proof (len_nonneg t) as Ht. injection E as <- <-.
      destruct (Z.eq_dec (pr_left p1) 0) as [E0|E0].
      * (* full *) specialize (W8 E0). assert (Em : forall z, m2 z = m1 z) by (intros z; apply F1; lia). exists k. split.
        -- set (p2 := if _ <? _ then _ else _). assert (Hp2 : pr_required p2 = pr_required p1 + len_of t /\ pr_left p2 = 0) by (unfold p2; destruct (Z.ltb_spec (pr_left p1) (len_of t)); cbn [pr_required pr_left]; lia).
           clearbody p2. destruct Hp2 as (Q1 & Q2). split; rewrite ?len_app; try lia.
           ++ intros i Hi. rewrite Em, W3 by assumption. symmetry. apply byte_app_l. lia.
           ++ rewrite !Em. assumption.
        -- intros Hp. apply Forall_app in Hp. destruct (Hf (proj1 Hp)) as (A & B). rewrite len_app, Em. split; [lia|assumption].
      * specialize (F2 ltac:(lia)). cbv zeta in F2. destruct F2 as (G1 & G2 & G3). destruct (W7 ltac:(lia)) as (X1 & X2 & X3). clear W7. rewrite X2 in *. set (d := Z.min (len_of t) (pr_left p1 - 1)) in *.
        assert (Hd : 0 <= d <= len_of t) by (unfold d; lia). exists (k + d). split.
        -- split.
           ++ destruct (_ <? _); cbn [pr_required]; rewrite len_app; lia.
           ++ rewrite len_app. unfold d in *. lia.
           ++ intros i Hi. destruct (Z.lt_ge_cases i k).
              ** rewrite F1 by lia. rewrite W3 by lia. symmetry. apply byte_app_l. lia.
              ** replace (buf + i) with (buf + k + (i - k)) by lia. rewrite G1 by lia. rewrite byte_app_r by lia. f_equal. lia.
           ++ intros z Hz. rewrite G3 by lia. apply W4. lia.
           ++ left. replace (buf + (k + d)) with (buf + k + d) by lia. assumption.
           ++ destruct (Z.ltb_spec (pr_left p1) (len_of t)); cbn [pr_left]; lia.
           ++ destruct (Z.ltb_spec (pr_left p1) (len_of t)); cbn [pr_left pr_buf]; intros Hx; [lia|]. rewrite len_app. unfold d in *. lia.
           ++ destruct (Z.ltb_spec (pr_left p1) (len_of t)); cbn [pr_left]; intros Hx; rewrite len_app; lia.
        -- intros _. replace (buf + (k + d)) with (buf + k + d) by lia. split; [rewrite len_app; unfold d in *; lia|assumption].
    + destruct Ho.
    + set (t := concat ps) in *. rewrite total_pieces in E. fold t in E. pose proof (len_nonneg t) as Ht. destruct (Z.ltb_spec (pr_left p1) (len_of t)) as [Hx|Hx].
      * injection E as <- <-. exists k. split.
        -- split; cbn [pr_required pr_left pr_buf]; rewrite ?len_app; try lia; try assumption.
           ++ intros i Hi. rewrite W3 by assumption. symmetry. apply byte_app_l. lia.
        -- intros Hp. exfalso. apply Forall_app in Hp. destruct Hp as (_ & Hp). apply Forall_inv in Hp. exact Hp.
      * rewrite put_pieces in E. fold t in E. injection E as <- <-. destruct (Z.eq_dec (pr_left p1) 0) as [E0|E0].
        -- specialize (W8 E0). assert (Et : t = []) by (destruct t; [reflexivity|unfold len_of in Hx; cbn [length] in Hx; lia]). rewrite Et in *. change (len_of []) with 0 in *. cbn [put]. rewrite app_nil_r. exists k. split.
           ++ split; cbn [pr_required pr_left pr_buf]; try assumption; lia.
           ++ intros Hp. apply Forall_app in Hp. apply Hf. apply Hp.
        -- destruct (W7 ltac:(lia)) as (X1 & X2 & X3). clear W7. rewrite X2 in *. exists (k + len_of t).
           assert (Pm : forall z, put m1 (buf + k) t z = if (buf + k <=? z) && (z <? buf + k + len_of t) then byte t (z - (buf + k)) else m1 z) by (intros z; apply put_spec). split.
           ++ split; cbn [pr_required pr_left pr_buf]; rewrite ?len_app; try lia.
              ** intros i Hi. rewrite Pm. destruct (Z.lt_ge_cases i k).
                 --- replace ((buf + k <=? buf + i) && _) with false by lia. rewrite W3 by lia. symmetry. apply byte_app_l. lia.
                 --- replace ((buf + k <=? buf + i) && (buf + i <? buf + k + len_of t)) with true by lia. rewrite byte_app_r by lia. f_equal. lia.
              ** intros z Hz. rewrite Pm. replace ((buf + k <=? z) && _) with false by lia. apply W4. lia.
              ** rewrite Pm. replace ((buf + k <=? buf + (k + len_of t)) && _) with false by lia. destruct (Z.eq_dec (len_of t) 0) as [Et|Et]; [rewrite Et, Z.add_0_r; assumption|right; apply W4; lia].
           ++ intros Hp. exfalso. apply Forall_app in Hp. destruct Hp as (_ & Hp). apply Forall_inv in Hp. exact Hp.
Qed.

(** The space required is that of the whole text, whether it fits or not. *)
Theorem printer_space_required : forall m buf len os m' p, 0 < len -> Forall works os -> pr_run (pr_init m buf len) os = (m', p) -> pr_required p = len_of (text os).
Proof. intros m buf len os m' p Hl Hw E. destruct (run_written m buf len os Hl Hw m' p E) as (k & W & _). apply W. Qed.
Print Assumptions printer_space_required.

(** If the text is shorter than the buffer, it is in the buffer as it is. *)
Theorem printer_exact : forall m buf len os m' p, 0 < len -> Forall works os -> pr_run (pr_init m buf len) os = (m', p) -> len_of (text os) < len ->
  forall i, 0 <= i < len_of (text os) -> m' (buf + i) = byte (text os) i.
Proof.
  intros m buf len os m' p Hl Hw E Hs i Hi. destruct (run_written m buf len os Hl Hw m' p E) as (k & W & _). destruct W. destruct (w_more0 ltac:(destruct (Z.eq_dec (pr_left p) 0) as [E0|E0]; [specialize (w_full0 E0)|]; lia)) as (A & _).
  apply w_text0. lia.
Qed.
Print Assumptions printer_exact.

(** In any case the buffer starts with a prefix of the text; after it there is at most a NUL, and the rest of the buffer is untouched.  If only
    printf was used, the prefix is as long as fits and the NUL is there. *)
Theorem printer_prefix : forall m buf len os m' p, 0 < len -> Forall works os -> pr_run (pr_init m buf len) os = (m', p) ->
  exists k, 0 <= k <= Z.min len (len_of (text os)) /\ (forall i, 0 <= i < k -> m' (buf + i) = byte (text os) i) /\
    (m' (buf + k) = 0 \/ m' (buf + k) = m (buf + k)) /\ (forall z, buf + k < z -> m' z = m z) /\
    (Forall is_printf os -> k = Z.min (len_of (text os)) (len - 1) /\ m' (buf + k) = 0).
Proof.
  intros m buf len os m' p Hl Hw E. destruct (run_written m buf len os Hl Hw m' p E) as (k & W & Hp). destruct W. exists k. auto.
Qed.
Print Assumptions printer_prefix.

(** *** The functions that return the statistics *)

Lemma bytes_at_spec m n : forall a T, length T = n -> (forall i, 0 <= i < Z.of_nat n -> m (a + i) = byte T i) -> bytes_at m a n = T.
Proof.
  induction n as [|n IH]; intros a T HT H; [destruct T; [reflexivity|discriminate]|]. destruct T as [|b T]; [discriminate|]. injection HT as HT. cbn [bytes_at]. f_equal.
  - rewrite <- (Z.add_0_r a). rewrite H by lia. reflexivity.
  - apply IH; [assumption|]. intros i Hi. replace (a + 1 + i) with (a + (i + 1)) by lia. rewrite H by lia. unfold byte. replace (Z.to_nat (i + 1)) with (S (Z.to_nat i)) by lia. reflexivity.
Qed.

(** GetStats into a buffer: nothing outside it is written; a length below that of the buffer is returned exactly if the whole text, that of the region
    factory included, fits, and then it is the length of the text and the buffer holds the text. *)
Theorem get_stats_exact : forall m buf len dump region m' n, 0 < len -> Forall works dump -> Forall works region -> get_stats m buf len dump region = (m', n) ->
  let T := text dump ++ text region in
  (forall z, ~ (buf <= z < buf + len) -> m' z = m z) /\ (n < len <-> len_of T < len) /\
  (n < len -> n = len_of T /\ forall i, 0 <= i < n -> m' (buf + i) = byte T i).
Proof.
  intros m buf len dump region m' n Hl Hd Hr E T. unfold T. unfold get_stats in E. destruct (pr_run (pr_init m buf len) dump) as (m1, p1) eqn:E1. pose proof (printer_in_bounds m buf len dump m1 p1 Hl E1) as (B1 & _).
  pose proof (printer_space_required _ _ _ _ _ _ Hl Hd E1) as R1. rewrite R1 in E. rewrite len_app. pose proof (len_nonneg (text dump)). pose proof (len_nonneg (text region)).
  destruct (Z.ltb_spec (len_of (text dump)) len) as [Hx|Hx].
  - replace (0 <? len - len_of (text dump)) with true in E by lia. destruct (pr_run (pr_init m1 (buf + len_of (text dump)) (len - len_of (text dump))) region) as (m2, p2) eqn:E2.
    assert (Hl2 : 0 < len - len_of (text dump)) by lia. pose proof (printer_in_bounds _ _ _ _ _ _ Hl2 E2) as (B2 & _). pose proof (printer_space_required _ _ _ _ _ _ Hl2 Hr E2) as R2. injection E as <- <-. rewrite R2.
    split; [intros z Hz; rewrite B2 by lia; auto|]. split; [lia|]. intros Hn. split; [reflexivity|]. intros i Hi. destruct (Z.lt_ge_cases i (len_of (text dump))).
    + rewrite B2 by lia. rewrite byte_app_l by lia. apply (printer_exact _ _ _ _ _ _ Hl Hd E1 Hx). lia.
    + rewrite byte_app_r by lia. replace (buf + i) with (buf + len_of (text dump) + (i - len_of (text dump))) by lia. apply (printer_exact _ _ _ _ _ _ Hl2 Hr E2); lia.
  - change (0 <? 0) with false in E. injection E as <- <-. split; [assumption|]. split; lia.
Qed.
Print Assumptions get_stats_exact.

(** MallocExtension::GetStats() returns the whole text of the first attempt that is shorter than 4 MiB - 1 or else of the second if it is shorter than 8 MiB - 1, and
    nothing if none is. *)
Theorem get_stats_string_exact : forall m buf src, (forall i, Forall works (fst (src i)) /\ Forall works (snd (src i))) ->
  let T i := text (fst (src i)) ++ text (snd (src i)) in
  get_stats_string m buf src 22 2 =
    if len_of (T 22) <? 2 ^ 22 - 1 then T 22 else if len_of (T 23) <? 2 ^ 23 - 1 then T 23 else [].
Proof.
  intros m buf src Hw T. unfold T. clear T.
  assert (G : forall s k m, 0 < s -> get_stats_string m buf src s (S k) = if len_of (text (fst (src s)) ++ text (snd (src s))) <? 2 ^ s - 1 then text (fst (src s)) ++ text (snd (src s))
    else get_stats_string (fst (get_stats m (buf s) (2 ^ s - 1) (fst (src s)) (snd (src s)))) buf src (s + 1) k).
  { clear m. intros s k m Hs. cbn [get_stats_string]. destruct (get_stats m (buf s) (2 ^ s - 1) (fst (src s)) (snd (src s))) as (m1, n) eqn:E. destruct (Hw s) as (H1 & H2).
    assert (Hp : 0 < 2 ^ s - 1) by (pose proof (proj1 (Z.pow_gt_1 2 s ltac:(lia)) Hs); lia).
    destruct (get_stats_exact _ _ _ _ _ _ _ Hp H1 H2 E) as (_ & A & B). cbn [fst]. set (T := text (fst (src s)) ++ text (snd (src s))) in *. clearbody T.
    destruct (Z.ltb_spec n (2 ^ s - 1)) as [L|L].
    - destruct (B L) as (-> & C). replace (len_of T <? 2 ^ s - 1) with true by lia. apply bytes_at_spec; [unfold len_of; lia|]. unfold len_of in *. intros i Hi. apply C. lia.
    - replace (len_of T <? 2 ^ s - 1) with false by lia. reflexivity. }
  rewrite G by lia. destruct (_ <? _); [reflexivity|]. change (22 + 1) with 23. rewrite G by lia. destruct (_ <? _); reflexivity.
Qed.
Print Assumptions get_stats_string_exact.

(** malloc_stats writes exactly the first 64 KiB - 1 bytes of its text (which uses printf only and contains no NUL), and never reads beyond its buffer. *)
Theorem print_stats_exact : forall m buf dump, Forall is_printf dump -> (forall b, In b (text dump) -> b <> 0) ->
  print_stats m buf dump = Some (firstn (Z.to_nat (2 ^ 16 - 1)) (text dump)).
Proof.
  intros m buf dump Hp Hz. unfold print_stats. destruct (pr_run (pr_init m buf (2 ^ 16)) dump) as (m1, p1) eqn:E.
  assert (Hw : Forall works dump) by (eapply Forall_impl; [|exact Hp]; intros [| |]; cbn; tauto). destruct (printer_prefix m buf (2 ^ 16) dump m1 p1 ltac:(lia) Hw E) as (k & K1 & K2 & _ & _ & K3). destruct (K3 Hp) as (K4 & K5).
  set (T := text dump) in *. clearbody T. assert (G : forall fuel a T', (forall b, In b T' -> b <> 0) -> (forall i, 0 <= i < len_of T' -> m1 (a + i) = byte T' i) -> m1 (a + len_of T') = 0 -> (length T' < fuel)%nat -> c_string m1 a fuel = Some T').
  { induction fuel as [|fuel IH]; intros a T' Hb Ht Hn Hf; [lia|]. cbn [c_string]. destruct T' as [|b T'].
    - change (len_of []) with 0 in Hn. rewrite Z.add_0_r in Hn. rewrite Hn. reflexivity.
    - assert (Eb : m1 a = b). { rewrite <- (Z.add_0_r a). rewrite Ht by (unfold len_of; cbn [length]; lia). reflexivity. }
      rewrite Eb. replace (b =? 0) with false by (pose proof (Hb b (or_introl eq_refl)); lia). rewrite (IH (a + 1) T').
      + reflexivity.
      + intros x Hx. apply Hb. right. assumption.
      + intros i Hi. replace (a + 1 + i) with (a + (i + 1)) by lia. rewrite Ht by (unfold len_of in *; cbn [length]; lia). unfold byte. replace (Z.to_nat (i + 1)) with (S (Z.to_nat i)) by lia. reflexivity.
      + replace (a + 1 + len_of T') with (a + len_of (b :: T')) by (unfold len_of; cbn [length]; lia). assumption.
      + cbn [length] in Hf. lia. }
  set (N := Z.to_nat (2 ^ 16)). assert (HN : Z.of_nat N = 2 ^ 16) by (unfold N; lia). assert (HF : Z.to_nat (2 ^ 16 - 1) = Z.to_nat (2 ^ 16 - 1)) by reflexivity. set (F := Z.to_nat (2 ^ 16 - 1)) in *. assert (HF2 : Z.of_nat F = 2 ^ 16 - 1) by (unfold F; lia). clearbody N F. clear HF.
  assert (Ek : len_of (firstn F T) = k) by (unfold len_of in *; rewrite firstn_length; lia). apply G.
  - intros b Hb. apply Hz. rewrite <- (firstn_skipn F T). apply in_or_app. left. assumption.
  - intros i Hi. rewrite K2 by lia. rewrite <- (firstn_byte (Z.of_nat F) T i) by lia. rewrite Nat2Z.id. reflexivity.
  - rewrite Ek. assumption.
  - unfold len_of in Ek. lia.
Qed.
Print Assumptions print_stats_exact.

(** ** Examples *)

Definition hello : list print := [Printf [104; 101]; Append [[108]; []; [108; 111]]; Printf [33; 10]].
Example printer_case :
  let m := fun _ : Z => 7 in
  let '(m1, p1) := pr_run (pr_init m 100 10) hello in
  let '(m2, p2) := pr_run (pr_init m 100 6) hello in
  let '(m3, p3) := pr_run (pr_init m 100 4) hello in
  Forall works hello /\
  bytes_at m1 99 12 = [7; 104; 101; 108; 108; 111; 33; 10; 0; 7; 7; 7] /\ pr_required p1 = 7 /\
  bytes_at m2 99 12 = [7; 104; 101; 108; 108; 111; 0; 7; 7; 7; 7; 7] /\ pr_required p2 = 7 /\
  bytes_at m3 99 12 = [7; 104; 101; 0; 7; 7; 7; 7; 7; 7; 7; 7] /\ pr_required p3 = 7.
Proof. vm_compute. repeat split; repeat constructor. Qed.

(** With Append the text may fill the buffer without a NUL: a caller must use the length. *)
Theorem printer_terminated_refuted : exists m buf len os m' p, 0 < len /\ Forall works os /\ pr_run (pr_init m buf len) os = (m', p) /\ forall i, 0 <= i < len -> m' (buf + i) <> 0.
Proof.
  exists (fun _ => 7), 0, 3, [Append [[1; 2]; [3]]]. eexists _, _. split; [lia|]. split; [repeat constructor|]. split; [reflexivity|]. intros i Hi.
  assert (Ei : i = 0 \/ i = 1 \/ i = 2) by lia. destruct Ei as [->|[->| ->]]; vm_compute; discriminate.
Qed.
Print Assumptions printer_terminated_refuted.

Example get_stats_case : exists m' n, get_stats (fun _ => 7) 0 10 hello [Printf [49]] = (m', n) /\ n = 8 /\ bytes_at m' 0 10 = [104; 101; 108; 108; 111; 33; 10; 49; 0; 7].
Proof. eexists _, _. split; [reflexivity|]. vm_compute. auto. Qed.
Example get_stats_string_case : get_stats_string (fun _ => 7) (fun _ => 0) (fun _ => (hello, [Printf [49]])) 22 2 = [104; 101; 108; 108; 111; 33; 10; 49].
Proof. rewrite get_stats_string_exact; [reflexivity|]. intros i. split; repeat constructor. Qed.
