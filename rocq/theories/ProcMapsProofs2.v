(** Lemmas for C61: one line. *)
From Verif Require Import Base CpuList CpuListProps SafeIo SafeIoProofs2 ProcMaps ProcMapsSpec ProcMapsProofs.

Definition stops (p : Z -> bool) (r : list Z) : Prop := match r with [] => True | c :: _ => p c = false end.

Lemma span_while_app p a r : Forall (fun c => p c = true) a -> stops p r -> span_while p (a ++ r) = (a, r).
Proof.
  induction 1 as [|c a Hc _ IH]; intros St.
  - cbn [app]. destruct r as [|c r]; auto. cbn in *. rewrite St. reflexivity.
  - cbn [app span_while]. rewrite Hc, (IH St). reflexivity.
Qed.

Lemma skip_space_stop r : stops is_space r -> skip_space r = r.
Proof. intros H. unfold skip_space. change r with ([] ++ r) at 1. rewrite span_while_app; auto. Qed.

Lemma skip_space_app a r : Forall (fun c => c = 32) a -> stops is_space r -> skip_space (a ++ r) = r.
Proof.
  intros F St. unfold skip_space. rewrite span_while_app; auto.
  revert F. apply Forall_impl. intros c ->. reflexivity.
Qed.

Lemma skip_space_cons r : stops is_space r -> skip_space (32 :: r) = r.
Proof. intros H. apply (skip_space_app [32]); auto. Qed.

Lemma digit_char_hex d : 0 <= d < 16 -> is_hex (digit_char d) = true /\ hex_digit (digit_char d) = d /\ 48 <= digit_char d <= 102.
Proof.
  intros H. assert (E : In d (zseq 0 16)) by (apply zseq_In; lia).
  assert (G : forallb (fun d => is_hex (digit_char d) && (hex_digit (digit_char d) =? d) && (48 <=? digit_char d) && (digit_char d <=? 102)) (zseq 0 16) = true) by reflexivity.
  rewrite forallb_forall in G. specialize (G d E). rewrite !andb_true_iff, Z.eqb_eq, !Z.leb_le in G. intuition.
Qed.

Lemma digit_char_dec d : 0 <= d < 10 -> is_dec (digit_char d) = true.
Proof. intros H. unfold digit_char, is_dec. destruct (Z.ltb_spec d 10); [|lia]. apply andb_true_iff. split; apply Z.leb_le; lia. Qed.

Lemma written_chars b v s : b <= 16 -> written b v s -> s <> [] /\ Forall (fun c => 48 <= c <= 102) s.
Proof.
  intros Hb (ds & N & F & _ & ->). split. destruct ds; [congruence|discriminate].
  apply Forall_map. revert F. apply Forall_impl. intros d H. apply digit_char_hex. lia.
Qed.

Lemma written_value b v s : b <= 16 -> written b v s -> num_value b s = v.
Proof.
  intros Hb (ds & N & F & -> & ->). unfold num_value. generalize 0 as a. clear N.
  induction F as [|d ds H F IH]; intros a; [reflexivity|]. cbn [map fold_left].
  destruct (digit_char_hex d) as (_ & -> & _); [lia|]. apply IH.
Qed.

Lemma is_space_false c : 48 <= c -> is_space c = false.
Proof. intros H. unfold is_space. apply orb_false_iff. split. apply andb_false_iff. right. apply Z.leb_gt. lia. apply Z.eqb_neq. lia. Qed.

Lemma written_stops b v s r : b <= 16 -> written b v s -> stops is_space (s ++ r).
Proof.
  intros Hb W. destruct (written_chars _ _ _ Hb W) as (N & F). destruct s as [|c s]; [congruence|]. inversion F; subst.
  cbn. apply is_space_false. lia.
Qed.

Lemma scan_num_written p b v s r : b <= 16 -> written b v s -> Forall (fun c => p c = true) s -> stops p r ->
  scan_num p b (s ++ r) = Some (v, r).
Proof.
  intros Hb W F St. unfold scan_num. rewrite (skip_space_stop _ (written_stops _ _ _ _ Hb W)), (span_while_app _ _ _ F St).
  pose proof (written_value _ _ _ Hb W) as V. destruct (written_chars _ _ _ Hb W) as (N & _).
  destruct s; [congruence|]. rewrite V. reflexivity.
Qed.

Lemma written_hex v s : written 16 v s -> Forall (fun c => is_hex c = true) s.
Proof. intros (ds & N & F & _ & ->). apply Forall_map. revert F. apply Forall_impl. intros d H. apply digit_char_hex. lia. Qed.
Lemma written_dec v s : written 10 v s -> Forall (fun c => is_dec c = true) s.
Proof. intros (ds & N & F & _ & ->). apply Forall_map. revert F. apply Forall_impl. intros d H. apply digit_char_dec. lia. Qed.
Lemma written_nonneg b v s : 0 <= b -> written b v s -> 0 <= v.
Proof.
  intros Hb (ds & N & F & -> & _). clear N. assert (G : forall a, 0 <= a -> 0 <= fold_left (fun a d => a * b + d) ds a).
  { induction F as [|d ds H F IH]; intros a Ha; cbn [fold_left]; auto. apply IH. nia. }
  apply G. lia.
Qed.

Lemma scan_llx_written v s r : written 16 v s -> v < 2 ^ 64 -> stops is_hex r -> scan_llx (s ++ r) = Some (v, r).
Proof.
  intros W L St. unfold scan_llx. rewrite (scan_num_written is_hex 16 v s r ltac:(lia) W (written_hex _ _ W) St). cbn [obind].
  rewrite Z.min_l; auto. lia.
Qed.
Lemma scan_x_written v s r : written 16 v s -> v < 2 ^ 32 -> stops is_hex r -> scan_x (s ++ r) = Some (v, r).
Proof.
  intros W L St. unfold scan_x. rewrite (scan_num_written is_hex 16 v s r ltac:(lia) W (written_hex _ _ W) St). cbn [obind].
  rewrite Z.min_l, Z.mod_small; auto. split; auto. apply (written_nonneg 16 v s); [lia|]. exact W. lia.
Qed.
Lemma scan_lld_written v s r : written 10 v s -> v < 2 ^ 63 -> stops is_dec r -> scan_lld (s ++ r) = Some (v, r).
Proof.
  intros W L St. unfold scan_lld. rewrite (scan_num_written is_dec 10 v s r ltac:(lia) W (written_dec _ _ W) St). cbn [obind].
  rewrite Z.min_l; auto. lia.
Qed.

Lemma scan_4s_flags f r : length f = 4%nat -> Forall (fun c => is_space c = false) f -> scan_4s (f ++ r) = Some (f, r).
Proof.
  intros L F. unfold scan_4s.
  assert (St : stops is_space (f ++ r)).
  { destruct f as [|c f]; [discriminate|]. inversion F; subst. cbn. auto. }
  rewrite (skip_space_stop _ St).
  rewrite firstn_app, L, Nat.sub_diag. rewrite firstn_all2 by lia. cbn [firstn].
  rewrite span_while_app.
  - destruct f as [|c f]; [discriminate|]. f_equal. f_equal. rewrite skipn_app, skipn_all, Nat.sub_diag. reflexivity.
  - revert F. apply Forall_impl. intros c ->. reflexivity.
  - exact I.
Qed.

Lemma c_string_id l : ~ In 0 l -> c_string l = l.
Proof.
  intros N. unfold c_string. rewrite <- (app_nil_r l) at 1. rewrite span_while_app; auto.
  - apply Forall_forall. intros c Hc. apply negb_true_iff, Z.eqb_neq. intros ->. auto.
  - exact I.
Qed.

Lemma flags_chars f : Forall (fun c => In c [114; 119; 120; 112; 115; 45]) f -> Forall (fun c => 45 <= c <= 120) f.
Proof. apply Forall_impl. intros c H. cbn in H. lia. Qed.

Lemma not_in_range lo hi (x : Z) l : Forall (fun c => lo <= c <= hi) l -> x < lo -> ~ In x l.
Proof. intros F H I. rewrite Forall_forall in F. specialize (F x I). lia. Qed.

Lemma map_line_chars e line x : map_line e line -> x = 0 \/ x = 10 -> ~ In x line.
Proof.
  intros (s1 & s2 & s3 & s4 & s5 & s6 & bl & -> & W1 & W2 & W3 & W4 & W5 & W6 & L & F & B & _ & N1 & N2) Hx.
  assert (K : forall b v s, b <= 16 -> written b v s -> ~ In x s).
  { intros b v s Hb W. apply (not_in_range 48 102). apply (written_chars b v s); auto. lia. }
  assert (B2 : ~ In x bl).
  { apply (not_in_range 32 32); [|lia]. revert B. apply Forall_impl. intros; lia. }
  assert (F2 : ~ In x (e_flags e)) by (apply (not_in_range 45 120); [apply flags_chars; auto|lia]).
  assert (Nm : ~ In x (e_name e)) by (destruct Hx; subst; auto).
  assert (C : forall y, y = 45 \/ y = 32 \/ y = 58 -> ~ In x [y]).
  { intros y Hy [E|[]]. lia. }
  rewrite !in_app_iff.
  intros [I|[I|[I|[I|[I|[I|[I|[I|[I|[I|[I|[I|[I|[I|I]]]]]]]]]]]]]];
    first [ exact (K 16 _ _ ltac:(lia) W1 I) | exact (K 16 _ _ ltac:(lia) W2 I) | exact (K 16 _ _ ltac:(lia) W3 I)
          | exact (K 16 _ _ ltac:(lia) W4 I) | exact (K 16 _ _ ltac:(lia) W5 I) | exact (K 10 _ _ ltac:(lia) W6 I)
          | exact (B2 I) | exact (F2 I) | exact (Nm I) | exact (C 45 ltac:(auto) I) | exact (C 32 ltac:(auto) I) | exact (C 58 ltac:(auto) I)].
Qed.

Lemma scan_map_line e line : map_line e line -> entry_ok e -> scan_line line = Some e.
Proof.
  intros M (O1 & O2 & O3 & O4 & O5 & O6). pose proof (map_line_chars e line 0 M ltac:(auto)) as N0.
  unfold scan_line. rewrite (c_string_id _ N0).
  destruct M as (s1 & s2 & s3 & s4 & s5 & s6 & bl & -> & W1 & W2 & W3 & W4 & W5 & W6 & L & F & B & Nm & _).
  rewrite (scan_llx_written _ _ _ W1 O1) by reflexivity. cbn [obind app scan_lit]. change (45 =? 45) with true. cbn [obind].
  rewrite (scan_llx_written _ _ _ W2 O2) by reflexivity. cbn [obind].
  assert (F2 : Forall (fun c => is_space c = false) (e_flags e)).
  { revert F. apply Forall_impl. intros c Hc. cbn in Hc. intuition (subst; reflexivity). }
  assert (Sf : forall r, stops is_space (e_flags e ++ r)).
  { intros r. destruct (e_flags e); [discriminate|]. inversion F2; subst. cbn. auto. }
  rewrite skip_space_cons by auto.
  rewrite (scan_4s_flags _ _ L F2). cbn [obind].
  rewrite skip_space_cons by (eapply written_stops; [|eassumption]; lia).
  rewrite (scan_llx_written _ _ _ W3 O3) by reflexivity. cbn [obind].
  rewrite skip_space_cons by (eapply written_stops; [|eassumption]; lia).
  rewrite (scan_x_written _ _ _ W4 O4) by reflexivity. cbn [obind scan_lit]. change (58 =? 58) with true. cbn [obind].
  rewrite (scan_x_written _ _ _ W5 O5) by reflexivity. cbn [obind].
  rewrite skip_space_cons by (eapply written_stops; [|eassumption]; lia).
  rewrite (scan_lld_written _ _ _ W6 O6).
  2:{ destruct bl as [|c bl]. cbn. destruct (e_name e) as [|c r]; [exact I|]. destruct Nm as (X & _). congruence.
      inversion B; subst. reflexivity. }
  cbn [obind]. rewrite skip_space_app; auto.
  - destruct e; reflexivity.
  - destruct (e_name e) as [|c r]; [exact I|]. destruct Nm as (_ & N1 & N2). cbn. unfold is_space.
    apply orb_false_iff. split; [|apply Z.eqb_neq; exact N1]. apply andb_false_iff.
    destruct (Z.leb_spec 9 c), (Z.leb_spec c 13); auto. lia.
Qed.

Lemma entries_lines es ls : Forall2 map_line es ls -> Forall entry_ok es -> flat_map line_entries ls = es.
Proof.
  induction 1 as [|e l es ls M _ IH]; intros F; [reflexivity|]. inversion F; subst. cbn [flat_map].
  unfold line_entries at 1. rewrite (scan_map_line _ _ M) by auto. cbn. rewrite IH; auto.
Qed.
