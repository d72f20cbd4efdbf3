(** Lemmas for C60: the status file. *)
From Verif Require Import Base CpuList CpuListProps SafeIo SafeIoProofs SafeIoSpec.

(** The meaning of a text, with no reads: lines one after the other; a line of 1024 bytes
    or more loses its first 1024. *)
Fixpoint stat_spec (fuel : nat) (text : list Z) (m : mem_stats) : mem_stats :=
  match fuel with
  | O => m
  | S fuel =>
    match find_ch ch_newline (firstn stat_buf text) with
    | Some nl => stat_spec fuel (skipn (S nl) text) (stat_line (firstn nl text) m)
    | None => if Nat.leb stat_buf (length text) then stat_spec fuel (skipn stat_buf text) m else m
    end
  end.
Lemma stat_buf_1024 : stat_buf = 1024%nat.
Proof. reflexivity. Qed.
Lemma stat_buf_pos : (0 < stat_buf)%nat.
Proof. unfold stat_buf. lia. Qed.
#[global] Opaque stat_buf.

Lemma stat_spec_fuel f1 : forall f2 text m, (length text < f1)%nat -> (length text < f2)%nat -> stat_spec f1 text m = stat_spec f2 text m.
Proof.
  induction f1 as [|f1 IH]; intros f2 text m H1 H2; [lia|]. destruct f2 as [|f2]; [lia|]. cbn [stat_spec].
  destruct (find_ch ch_newline (firstn stat_buf text)) as [nl|] eqn:E.
  - apply find_ch_lt in E. rewrite firstn_length in E. apply IH; rewrite skipn_length; lia.
  - destruct (Nat.leb_spec stat_buf (length text)); [|reflexivity]. pose proof stat_buf_pos. apply IH; rewrite skipn_length; lia.
Qed.
Definition run_text (text : list Z) (m : mem_stats) : mem_stats := stat_spec (S (length text)) text m.
Lemma run_text_eq fuel text m : (length text < fuel)%nat -> stat_spec fuel text m = run_text text m.
Proof. intros. apply stat_spec_fuel; lia. Qed.
Lemma run_text_unfold text m : run_text text m =
  match find_ch ch_newline (firstn stat_buf text) with
  | Some nl => run_text (skipn (S nl) text) (stat_line (firstn nl text) m)
  | None => if Nat.leb stat_buf (length text) then run_text (skipn stat_buf text) m else m
  end.
Proof.
  unfold run_text at 1. cbn [stat_spec]. destruct (find_ch ch_newline (firstn stat_buf text)) as [nl|] eqn:E.
  - apply find_ch_lt in E. rewrite firstn_length in E. apply run_text_eq. rewrite skipn_length. lia.
  - destruct (Nat.leb_spec stat_buf (length text)); [|reflexivity]. pose proof stat_buf_pos. apply run_text_eq. rewrite skipn_length. lia.
Qed.

Lemma find_ch_app_l c l m n : find_ch c l = Some n -> find_ch c (l ++ m) = Some n.
Proof. apply find_ch_app_some. Qed.
(** A complete line at the front. *)
Lemma run_text_line l tail m nl : find_ch ch_newline l = Some nl -> (length l <= stat_buf)%nat ->
  run_text (l ++ tail) m = run_text (skipn (S nl) l ++ tail) (stat_line (firstn nl l) m).
Proof.
  intros E L. rewrite run_text_unfold. pose proof (find_ch_lt _ _ _ E) as Lt.
  replace (find_ch ch_newline (firstn stat_buf (l ++ tail))) with (Some nl).
  - rewrite skipn_app, firstn_app. replace (S nl - length l)%nat with O by lia. replace (nl - length l)%nat with O by lia. cbn [skipn firstn]. rewrite app_nil_r. reflexivity.
  - symmetry. rewrite firstn_app, firstn_all2 by exact L. now apply find_ch_app_l.
Qed.

Lemma stat_lines_spec fuel : forall contents m tail rest m', (length contents <= fuel)%nat -> (length contents <= stat_buf)%nat ->
  stat_lines fuel contents m = (rest, m') ->
  find_ch ch_newline rest = None /\ (length rest <= length contents)%nat /\
  run_text (contents ++ tail) m = run_text (rest ++ tail) m'.
Proof.
  induction fuel as [|fuel IH]; intros contents m tail rest m' Hf Hl E; cbn [stat_lines] in E.
  - injection E as <- <-. destruct contents; [|cbn in Hf; lia]. split; [reflexivity|]. split; [lia|reflexivity].
  - destruct (find_ch ch_newline contents) as [nl|] eqn:En.
    + pose proof (find_ch_lt _ _ _ En) as Lt. apply (IH _ _ tail) in E as (A & B & C).
      * rewrite skipn_length in B. split; [exact A|]. split; [lia|]. rewrite (run_text_line _ _ _ _ En Hl). exact C.
      * rewrite skipn_length. lia.
      * rewrite skipn_length. lia.
    + injection E as <- <-. split; [exact En|]. split; [lia|reflexivity].
Qed.

Lemma run_short rest m : find_ch ch_newline rest = None -> (length rest < stat_buf)%nat -> run_text rest m = m.
Proof.
  intros E L. rewrite run_text_unfold, firstn_all2 by lia. rewrite E. replace (Nat.leb stat_buf (length rest)) with false by (symmetry; apply Nat.leb_gt; exact L). reflexivity.
Qed.
Lemma run_full rest tail m : find_ch ch_newline rest = None -> length rest = stat_buf -> run_text (rest ++ tail) m = run_text tail m.
Proof.
  intros E L. rewrite run_text_unfold. rewrite firstn_app, <- L, firstn_all, Nat.sub_diag. cbn [firstn]. rewrite app_nil_r, E.
  rewrite app_length. replace (Nat.leb (length rest) (length rest + length tail)) with true by (symmetry; apply Nat.leb_le; lia).
  rewrite skipn_app, skipn_all, Nat.sub_diag. reflexivity.
Qed.

(** The loop computes the meaning of what it read; all of it if nothing fails. *)
Lemma stat_loop_spec fuel : forall w buf m, find_ch ch_newline buf = None -> (length buf < stat_buf)%nat -> (length (s_rest w) < fuel)%nat ->
  exists k, stat_loop fuel w buf m = Some (run_text (buf ++ firstn k (s_rest w)) m) /\
    ((forall e, In (RFail e) (s_reads w) -> e = EINTR) -> (forall e, ~ In (PFail e) (s_polls w)) -> k = length (s_rest w)).
Proof.
  induction fuel as [|fuel IH]; intros w buf m Hn Hb Hf; [lia|]. cbn [stat_loop].
  destruct (safe_read_spec w (stat_buf - length buf)) as (w1 & rc & got & cr & cp & E & K1 & K2 & K3 & K4 & K5). rewrite E. cbn [obind].
  destruct K5 as [(-> & F)|(-> & K6 & K7)].
  - exists O. cbn [firstn]. rewrite app_nil_r, run_short by assumption. split; [reflexivity|]. intros N1 N2. exfalso. destruct F as [(e & F1 & F2)|(e & F1)].
    + apply F1. apply N1. rewrite K3. apply in_or_app. now left.
    + apply (N2 e). rewrite K4. apply in_or_app. now left.
  - destruct got as [|g got].
    + exists O. cbn [length firstn]. rewrite app_nil_r, run_short by assumption. split; [reflexivity|]. intros _ _. destruct (K6 eq_refl) as [K|K]; [lia|now rewrite K].
    + remember (g :: got) as gs eqn:Eg. assert (Lg : (1 <= length gs)%nat) by (rewrite Eg; cbn; lia). destruct (length gs) as [|lg] eqn:El; [lia|].
      destruct (stat_lines stat_buf (buf ++ gs) m) as (rest & m') eqn:Es.
      assert (Lc : (length (buf ++ gs) <= stat_buf)%nat) by (rewrite app_length; lia).
      assert (Hrest : forall tail, find_ch ch_newline rest = None /\ (length rest <= length (buf ++ gs))%nat /\ run_text ((buf ++ gs) ++ tail) m = run_text (rest ++ tail) m').
      { intros tail. eapply stat_lines_spec; [exact Lc|exact Lc|exact Es]. }
      destruct (Hrest []) as (R1 & R2 & _).
      set (buf' := if Nat.eqb (length rest) stat_buf then [] else rest).
      assert (B1 : find_ch ch_newline buf' = None) by (unfold buf'; destruct (Nat.eqb _ _); [reflexivity|exact R1]).
      assert (B2 : (length buf' < stat_buf)%nat).
      { unfold buf'. pose proof stat_buf_pos. destruct (Nat.eqb_spec (length rest) stat_buf); [cbn; lia|lia]. }
      assert (B3 : forall tail, run_text ((buf ++ gs) ++ tail) m = run_text (buf' ++ tail) m').
      { intros tail. destruct (Hrest tail) as (_ & _ & ->). unfold buf'. destruct (Nat.eqb_spec (length rest) stat_buf) as [L|L]; [apply run_full; assumption|reflexivity]. }
      destruct (IH w1 buf' m' B1 B2) as (k & I1 & I2).
      { rewrite K1, app_length in Hf. lia. }
      exists (length gs + k)%nat. rewrite I1. split.
      * f_equal. rewrite K1, firstn_app_2. rewrite app_assoc. symmetry. apply B3.
      * intros N1 N2. rewrite K1, app_length. f_equal. apply I2.
        -- intros e He. apply N1. rewrite K3. apply in_or_app. now right.
        -- intros e He. apply (N2 e). rewrite K4. apply in_or_app. now right.
Qed.

(** ** Lines *)

Lemma eqs_eq a : forall b, eqs a b = true <-> a = b.
Proof.
  induction a as [|x a IH]; intros [|y b]; cbn; try (split; congruence). rewrite andb_true_iff, Z.eqb_eq, IH. split; [intros (-> & ->); reflexivity|intros H; injection H as -> ->; tauto].
Qed.
Lemma find_ch_at c l r : ~ In c l -> find_ch c (l ++ c :: r) = Some (length l).
Proof.
  induction l as [|x l IH]; intros H; cbn [app find_ch length].
  - now rewrite Z.eqb_refl.
  - destruct (Z.eqb_spec x c) as [->|]; [exfalso; apply H; now left|]. rewrite IH by (intros X; apply H; now right). reflexivity.
Qed.
Lemma find_ch_split c l n : find_ch c l = Some n -> l = firstn n l ++ c :: skipn (S n) l /\ ~ In c (firstn n l).
Proof.
  revert n. induction l as [|x l IH]; intros n H; [discriminate|]. cbn in H. destruct (Z.eqb_spec x c) as [->|N].
  - injection H as <-. split; [reflexivity|intros []].
  - destruct (find_ch c l) as [k|]; [|discriminate]. injection H as <-. destruct (IH k eq_refl) as (A & B). cbn [firstn skipn app]. split; [f_equal; exact A|].
    intros [X|X]; [congruence|contradiction].
Qed.
Lemma find_ch_none c l : ~ In c l -> find_ch c l = None.
Proof. induction l as [|x l IH]; intros H; [reflexivity|]. cbn. destruct (Z.eqb_spec x c) as [->|]; [exfalso; apply H; now left|]. rewrite IH by (intros X; apply H; now right). reflexivity. Qed.

Lemma names_no_colon name : In name names -> ~ In 58 name /\ ~ In 10 name.
Proof.
  intros H. assert (G : forallb (fun n => forallb (fun c => negb (c =? 58) && negb (c =? 10)) n) names = true) by reflexivity.
  rewrite forallb_forall in G. specialize (G name H). rewrite forallb_forall in G.
  split; intros X; specialize (G _ X); discriminate.
Qed.

(** The effect of a field of value [v] (in bytes). *)
Definition apply_field (name : list Z) (v : Z) (m : mem_stats) : mem_stats :=
  let 'mk_stats vss rss shared code data vmpte seen := m in
  if eqs name n_VmSize then mk_stats v rss shared code data vmpte (Z.lor seen 1)
  else if eqs name n_VmRSS then mk_stats vss v shared code data vmpte (Z.lor seen 2)
  else if eqs name n_RssFile || eqs name n_RssShmem then mk_stats vss rss (shared + v) code data vmpte (Z.lor seen 4)
  else if eqs name n_VmExe then mk_stats vss rss shared v data vmpte (Z.lor seen 8)
  else if eqs name n_VmData || eqs name n_VmStk then mk_stats vss rss shared code (data + v) vmpte (Z.lor seen 16)
  else if eqs name n_VmPTE then mk_stats vss rss shared code data v (Z.lor seen 32)
  else m.

Lemma lstrip_pad pad l : Forall (fun c => c = 32 \/ c = 9) pad -> lstrip (pad ++ l) = lstrip l.
Proof. induction 1 as [|c pad H F IH]; [reflexivity|]. cbn [app lstrip]. replace (is_space c) with true by (destruct H as [-> | ->]; reflexivity). exact IH. Qed.

Lemma strip_field pad t : Forall (fun c => c = 32 \/ c = 9) pad -> digits t -> strip (pad ++ t ++ n_kB) = t ++ n_kB.
Proof.
  intros Hp Ht. unfold strip. rewrite lstrip_pad by exact Hp.
  destruct Ht as (N & F). destruct t as [|c t]; [congruence|]. inversion F as [|? ? Fc Ft]; subst.
  rewrite (lstrip_id ((c :: t) ++ n_kB)) by (cbn; apply digit_not_space; exact Fc).
  rewrite rev_app_distr. change (rev n_kB) with [66; 107; 32]. cbn [app]. rewrite (lstrip_id (66 :: 107 :: 32 :: rev (c :: t))) by reflexivity.
  change (66 :: 107 :: 32 :: rev (c :: t)) with ([66; 107; 32] ++ rev (c :: t)). rewrite rev_app_distr, rev_involutive. reflexivity.
Qed.
Lemma ends_with_app a b : ends_with (a ++ b) b = true.
Proof. unfold ends_with. rewrite app_length. replace (length a + length b - length b)%nat with (length a) by lia. rewrite skipn_app, skipn_all, Nat.sub_diag. apply eqs_eq. reflexivity. Qed.

Lemma stat_line_field name pad t m : In name names -> Forall (fun c => c = 32 \/ c = 9) pad -> digits t -> value t * 1024 < 2 ^ 63 ->
  stat_line (line_text (Field name pad t)) m = apply_field name (value t * 1024) m.
Proof.
  intros Hn Hp Ht Hv. unfold line_text. change ([58] ++ pad ++ t ++ [32; 107; 66]) with (58 :: (pad ++ t ++ n_kB)).
  unfold stat_line. destruct (names_no_colon name Hn) as (Nc & _). unfold ch_colon. rewrite (find_ch_at 58 name _ Nc).
  rewrite firstn_app, firstn_all, Nat.sub_diag. cbn [firstn]. rewrite app_nil_r.
  replace (skipn (S (length name)) (name ++ 58 :: pad ++ t ++ n_kB)) with (pad ++ t ++ n_kB).
  2:{ rewrite skipn_app. rewrite skipn_all2 by lia. replace (S (length name) - length name)%nat with 1%nat by lia. reflexivity. }
  rewrite strip_field by assumption. rewrite ends_with_app.
  replace (firstn (length (t ++ n_kB) - length n_kB) (t ++ n_kB)) with t.
  2:{ rewrite app_length. replace (length t + length n_kB - length n_kB)%nat with (length t) by lia. rewrite firstn_app, firstn_all, Nat.sub_diag. cbn [firstn]. now rewrite app_nil_r. }
  assert (A : atou t = Some (value t)).
  { unfold atou. pose proof (strip_digits t [] Ht (or_introl eq_refl)) as S0. rewrite app_nil_r in S0. rewrite S0. pose proof Ht as (N & F).
    destruct t as [|c t]; [congruence|]. inversion F as [|? ? Fc Ft]; subst. replace (c =? 43) with false by lia. unfold digits_value. rewrite (forallb_digit _ F). cbn [obind].
    replace (value (c :: t) <? 2 ^ 64) with true by lia. reflexivity. }
  rewrite A. pose proof (value_nonneg t (proj2 Ht)) as V0. cbv zeta. replace (wrap64 (value t * 1024)) with (value t * 1024); [reflexivity|].
  unfold wrap64, two64. symmetry. apply Z.mod_small. lia.
Qed.
Lemma stat_line_other t m : (forall name rest, In name names -> t <> name ++ 58 :: rest) -> stat_line t m = m.
Proof.
  intros H. unfold stat_line. destruct (find_ch ch_colon t) as [n|] eqn:E; [|reflexivity]. apply find_ch_split in E as (E & _). cbv zeta.
  destruct (atou _) as [v|]; [|reflexivity]. destruct m as [vss rss shared code data vmpte seen].
  assert (G : forall name, In name names -> eqs (firstn n t) name = false).
  { intros name Hn. destruct (eqs (firstn n t) name) eqn:Eq; [|reflexivity]. apply eqs_eq in Eq. exfalso. rewrite Eq in E. exact (H name _ Hn E). }
  rewrite !G by (cbn; tauto). reflexivity.
Qed.

Lemma line_no_newline l : line_ok l -> ~ In 10 (line_text l).
Proof.
  intros (_ & H). destruct l as [name pad t|t]; [|tauto]. destruct H as (A & B & (_ & C) & _). cbn [line_text]. rewrite !in_app_iff. rewrite Forall_forall in B, C.
  intros [X|[X|[X|[X|X]]]].
  - now apply names_no_colon in X.
  - destruct X as [X|[]]. discriminate.
  - apply B in X. lia.
  - apply C in X. lia.
  - cbn in X. intuition discriminate.
Qed.
Lemma line_length l : line_ok l -> (length (line_text l ++ [10%Z]) <= stat_buf)%nat.
Proof. intros (A & _). rewrite app_length. rewrite stat_buf_1024. cbn [length]. lia. Qed.

Definition line_effect (m : mem_stats) (l : status_line) : mem_stats :=
  match l with Field name _ t => apply_field name (value t * 1024) m | Other _ => m end.
Lemma run_status ls : Forall line_ok ls -> forall m, run_text (status_text ls) m = fold_left line_effect ls m.
Proof.
  induction 1 as [|l ls H F IH]; intros m.
  - cbn [status_text flat_map fold_left]. apply run_short; [reflexivity|apply stat_buf_pos].
  - cbn [status_text flat_map fold_left]. fold (status_text ls).
    rewrite (run_text_line (line_text l ++ [10]) (status_text ls) m (length (line_text l))).
    + rewrite firstn_app, firstn_all, Nat.sub_diag. cbn [firstn]. rewrite app_nil_r.
      replace (skipn (S (length (line_text l))) (line_text l ++ [10])) with (@nil Z) by (symmetry; apply skipn_all2; rewrite app_length; cbn; lia).
      cbn [app]. rewrite IH. f_equal. destruct H as (_ & H). destruct l as [name pad t|t]; cbn [line_effect].
      * apply stat_line_field; tauto.
      * apply stat_line_other. apply H.
    + apply find_ch_at. now apply line_no_newline.
    + now apply line_length.
Qed.
