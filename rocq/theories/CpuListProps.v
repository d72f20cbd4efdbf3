(** Property C35: parsing a CPU list does not depend on how reads split it. *)
From Verif Require Import Base CpuList.

(** ** Independence of the splitting into reads *)

(** The parse of a whole string, with no reads: the specification of the loop. *)
Fixpoint spec_loop (fuel : nat) (s : list Z) (from : Z) (set : cpuset) : option (option cpuset) :=
  match fuel with
  | O => None
  | S fuel =>
    if (match s with [] => true | [c] => c =? ch_newline | _ => false end) then Some (Some set)
    else match parse_buf (firstn buf_size s) true from set with
         | None => Some None
         | Some (used, from, set) => spec_loop fuel (skipn used s) from set
         end
  end.

Lemma find_ch_app_some c l m n : find_ch c l = Some n -> find_ch c (l ++ m) = Some n.
Proof.
  revert n. induction l as [|x l IH]; intros n H; [discriminate|]. cbn in *. destruct (x =? c); [assumption|].
  destruct (find_ch c l); [|discriminate]. rewrite (IH _ eq_refl). assumption.
Qed.
Lemma find_ch_app_none c l m : find_ch c l = None -> find_ch c (l ++ m) = option_map (fun n => (length l + n)%nat) (find_ch c m).
Proof.
  induction l as [|x l IH]; intros H; cbn in *; [destruct (find_ch c m); reflexivity|]. destruct (x =? c); [discriminate|].
  destruct (find_ch c l); [discriminate|]. rewrite IH by reflexivity. destruct (find_ch c m); reflexivity.
Qed.
Lemma find_ch_lt c l n : find_ch c l = Some n -> (n < length l)%nat.
Proof.
  revert n. induction l as [|x l IH]; intros n H; [discriminate|]. cbn in *. destruct (x =? c); [inversion H; lia|].
  destruct (find_ch c l); [|discriminate]. inversion H; subst. specialize (IH _ eq_refl). lia.
Qed.
Lemma firstn_app_lt {A} n (l m : list A) : (n <= length l)%nat -> firstn n (l ++ m) = firstn n l.
Proof. intros. rewrite firstn_app. replace (n - length l)%nat with O by lia. cbn. apply app_nil_r. Qed.

(** A buffer with a separator in it is parsed in the same way whatever follows. *)
Lemma parse_buf_more cur more e e' from s :
  find_ch ch_dash cur <> None \/ find_ch ch_comma cur <> None ->
  parse_buf (cur ++ more) e from s = parse_buf cur e' from s.
Proof.
  intros H. unfold parse_buf. destruct (find_ch ch_dash cur) as [d|] eqn:Ed; destruct (find_ch ch_comma cur) as [c|] eqn:Ec.
  - rewrite (find_ch_app_some _ _ more _ Ed), (find_ch_app_some _ _ more _ Ec). pose proof (find_ch_lt _ _ _ Ed). pose proof (find_ch_lt _ _ _ Ec).
    cbn [pos_lt]. destruct (Nat.ltb d c); [rewrite firstn_app_lt by lia; reflexivity|]. cbn [orb]. rewrite firstn_app_lt by lia. reflexivity.
  - rewrite (find_ch_app_some _ _ more _ Ed), (find_ch_app_none _ _ more Ec). pose proof (find_ch_lt _ _ _ Ed).
    cbn [pos_lt]. destruct (find_ch ch_comma more) as [m|]; cbn [option_map].
    + replace (Nat.ltb d (length cur + m)) with true by (symmetry; apply Nat.ltb_lt; lia). rewrite firstn_app_lt by lia. reflexivity.
    + rewrite firstn_app_lt by lia. reflexivity.
  - rewrite (find_ch_app_none _ _ more Ed), (find_ch_app_some _ _ more _ Ec). pose proof (find_ch_lt _ _ _ Ec).
    cbn [pos_lt]. destruct (find_ch ch_dash more) as [m|]; cbn [option_map pos_lt].
    + replace (Nat.ltb (length cur + m) c) with false by (symmetry; apply Nat.ltb_ge; lia). cbn [orb]. rewrite firstn_app_lt by lia. reflexivity.
    + cbn [orb]. rewrite firstn_app_lt by lia. reflexivity.
  - destruct H; congruence.
Qed.
Lemma parse_buf_none cur from s : find_ch ch_dash cur = None -> find_ch ch_comma cur = None -> parse_buf cur false from s = Some (O, from, s).
Proof. intros H1 H2. unfold parse_buf. rewrite H1, H2. reflexivity. Qed.
Lemma parse_buf_used cur e from s u f s' : parse_buf cur e from s = Some (u, f, s') -> cur <> [] -> (e = true \/ find_ch ch_dash cur <> None \/ find_ch ch_comma cur <> None) ->
  (1 <= u <= length cur)%nat.
Proof.
  intros E N H. unfold parse_buf in E. assert (L : (1 <= length cur)%nat) by (destruct cur; [congruence|cbn; lia]).
  destruct (find_ch ch_dash cur) as [d|] eqn:Ed; destruct (find_ch ch_comma cur) as [c|] eqn:Ec;
    try (pose proof (find_ch_lt _ _ _ Ed)); try (pose proof (find_ch_lt _ _ _ Ec)); cbn [pos_lt orb] in E.
  1: destruct (Nat.ltb d c).
  5: destruct e; cbn [orb] in E; [|destruct H as [H|[H|H]]; [discriminate|congruence|congruence]].
  1,2,3,4,5: unfold obind in E; destruct (atoi _) as [v|] in E; try discriminate; destruct (in_bounds v) in E; try discriminate;
    try (destruct (from =? -1) in E); inversion E; subst; lia.
Qed.

Lemma read_bytes_prefix rest n w : exists r, rest = read_bytes rest n w ++ r /\ skipn (length (read_bytes rest n w)) rest = r.
Proof.
  unfold read_bytes. set (k := Nat.min n (Nat.max 1 (Z.to_nat w))). exists (skipn k rest). split; [now rewrite firstn_skipn|].
  rewrite firstn_length. destruct (Nat.min_spec k (length rest)) as [(H & ->)|(H & ->)]; [reflexivity|]. rewrite !skipn_all2 by lia. reflexivity.
Qed.
Lemma read_bytes_len rest n w : (length (read_bytes rest n w) <= n)%nat.
Proof. unfold read_bytes. rewrite firstn_length. lia. Qed.
Lemma read_bytes_nil rest n w : read_bytes rest n w = [] -> n = O \/ rest = [].
Proof. unfold read_bytes. destruct rest; [tauto|]. destruct n; [tauto|].
  destruct (Nat.min (S n) (Nat.max 1 (Z.to_nat w))) eqn:E; [lia|discriminate]. Qed.

Lemma skipn_app_le {A} n (l m : list A) : (n <= length l)%nat -> skipn n (l ++ m) = skipn n l ++ m.
Proof. intros. rewrite skipn_app. replace (n - length l)%nat with O by lia. reflexivity. Qed.

Lemma loop_spec fuel : forall chunk i rest carry from s f, (forall j, 0 <= chunk j) ->
  (length carry <= buf_size)%nat -> (2 * length rest + length carry < fuel)%nat -> (length carry + length rest < f)%nat ->
  parse_loop fuel chunk i rest carry from s = spec_loop f (carry ++ rest) from s.
Proof.
  induction fuel as [|fuel IH]; intros chunk i rest carry from s f Hc Hl Hf Hf2; [lia|].
  cbn [parse_loop]. specialize (Hc i) as Hci. replace (chunk i <? 0) with false by lia. cbv zeta.
  pose proof (read_bytes_prefix rest (buf_size - length carry) (chunk i)) as (r & Er & Es).
  pose proof (read_bytes_len rest (buf_size - length carry) (chunk i)) as Lg.
  pose proof (read_bytes_nil rest (buf_size - length carry) (chunk i)) as Ln.
  rewrite Es. set (got := read_bytes rest (buf_size - length carry) (chunk i)) in *. clearbody got. clear Es.
  destruct f as [|f]; [lia|]. destruct got as [|g got].
  - rewrite app_nil_r. cbn [app] in Er. subst r. cbn [andb]. specialize (Ln eq_refl).
    assert (E16 : firstn buf_size (carry ++ rest) = carry).
    { destruct Ln as [Ln| ->]; [|rewrite app_nil_r; apply firstn_all2; lia]. rewrite firstn_app_lt by lia. apply firstn_all2. lia. }
    cbn [spec_loop]. rewrite E16. destruct carry as [|c0 carry].
    { destruct Ln as [Ln| ->]; [cbn in Ln; unfold buf_size in Ln; lia|]. reflexivity. }
    assert (G : match (c0 :: carry) ++ rest with [] => true | [c] => c =? ch_newline | _ => false end =
                match c0 :: carry with [c] => c =? ch_newline | _ => false end).
    { destruct carry as [|c1 carry]; [|reflexivity]. destruct Ln as [Ln| ->]; [cbn in Ln; unfold buf_size in Ln; lia|]. reflexivity. }
    rewrite G. destruct (match c0 :: carry with [c] => c =? ch_newline | _ => false end); [reflexivity|].
    destruct (parse_buf (c0 :: carry) true from s) as [((u & f') & s')|] eqn:Ep; [|reflexivity].
    pose proof (parse_buf_used _ _ _ _ _ _ _ Ep ltac:(discriminate) (or_introl eq_refl)) as Hu.
    pose proof (skipn_length u (c0 :: carry)) as Ls.
    rewrite skipn_app_le by lia. apply IH; [exact Hc|lia|lia|lia].
  - cbn [andb]. set (cur := carry ++ g :: got) in *.
    assert (Lc : length cur = (length carry + S (length got))%nat) by (unfold cur; rewrite app_length; reflexivity).
    assert (Lr : length rest = (S (length got) + length r)%nat) by (rewrite Er, app_length; reflexivity).
    cbn [length] in Lg. assert (Lb : (length cur <= buf_size)%nat) by lia.
    assert (ES : carry ++ rest = cur ++ r) by (unfold cur; rewrite Er, <- app_assoc; reflexivity). rewrite ES.
    assert (Hd : (find_ch ch_dash cur <> None \/ find_ch ch_comma cur <> None) \/ (find_ch ch_dash cur = None /\ find_ch ch_comma cur = None)).
    { destruct (find_ch ch_dash cur); [left; left; discriminate|]. destruct (find_ch ch_comma cur); [left; right; discriminate|right; split; reflexivity]. }
    destruct Hd as [Hd|(Hd1 & Hd2)].
    + cbn [spec_loop].
      assert (G : match cur ++ r with [] => true | [c] => c =? ch_newline | _ => false end = false).
      { destruct cur as [|c0 cur']; [cbn in Lc; lia|]. destruct cur' as [|c1 cur']; [|reflexivity]. destruct r; [|reflexivity]. cbn [app].
        destruct (Z.eqb_spec c0 ch_newline) as [->|]; [|reflexivity]. cbn in Hd. destruct Hd; congruence. }
      rewrite G. rewrite firstn_app, (firstn_all2 cur) by lia. rewrite (parse_buf_more cur _ true false from s Hd).
      destruct (parse_buf cur false from s) as [((u & f') & s')|] eqn:Ep; [|reflexivity].
      pose proof (parse_buf_used _ _ _ _ _ _ _ Ep ltac:(intros E; rewrite E in Lc; cbn in Lc; lia) (or_intror Hd)) as Hu.
      pose proof (skipn_length u cur) as Ls.
      rewrite skipn_app_le by lia. apply IH; [exact Hc|lia|lia|lia].
    + rewrite (parse_buf_none cur from s Hd1 Hd2). cbn [skipn]. apply IH; [exact Hc|lia|lia|lia].
Qed.

(** For every input, well formed or not, and every way of splitting it into reads:
    the parser terminates and its result is that of parsing the whole string. *)
Theorem cpulist_chunking : forall input chunk1 chunk2,
  (forall i, 0 <= chunk1 i) -> (forall i, 0 <= chunk2 i) ->
  parse_cpulist chunk1 input = parse_cpulist chunk2 input /\ parse_cpulist chunk1 input <> None.
Proof.
  intros input c1 c2 H1 H2. unfold parse_cpulist.
  rewrite (loop_spec _ c1 O input [] (-1) _ (S (length input)) H1) by (cbn; unfold buf_size; lia).
  rewrite (loop_spec _ c2 O input [] (-1) _ (S (length input)) H2) by (cbn; unfold buf_size; lia).
  split; [reflexivity|]. cbn [app].
  assert (G : forall f s from set, (length s < f)%nat -> spec_loop f s from set <> None); [|apply G; lia].
  induction f as [|f IH]; intros s from set Hf; [lia|]. cbn [spec_loop].
  destruct (match s with [] => true | [c] => c =? ch_newline | _ => false end) eqn:G; [discriminate|].
  destruct (parse_buf (firstn buf_size s) true from set) as [((u & f') & s')|] eqn:Ep; [|discriminate].
  apply IH. assert (N : firstn buf_size s <> []) by (destruct s; discriminate).
  pose proof (parse_buf_used _ _ _ _ _ _ _ Ep N (or_introl eq_refl)) as Hu. rewrite skipn_length. rewrite firstn_length in Hu. lia.
Qed.
Print Assumptions cpulist_chunking.

(** A failing read makes the parser fail; it never returns a partial list. *)
Theorem cpulist_read_error : forall input chunk1 chunk2 r,
  (forall i, 0 <= chunk2 i) -> parse_cpulist chunk1 input = Some (Some r) -> parse_cpulist chunk2 input = Some (Some r).
Proof.
  intros input c1 c2 r H2 E. unfold parse_cpulist in *.
  assert (G : forall fuel i rest carry from s c, parse_loop fuel c i rest carry from s = Some (Some r) ->
    parse_loop fuel (fun j => Z.max 0 (c j)) i rest carry from s = Some (Some r)).
  { clear. induction fuel as [|fuel IH]; intros i rest carry from s c E; [discriminate|]. cbn [parse_loop] in *.
    destruct (Z.ltb_spec (c i) 0); [discriminate|]. replace (Z.max 0 (c i)) with (c i) by lia. replace (c i <? 0) with false by lia.
    cbv zeta in *. destruct (_ && _); [assumption|]. destruct (_ && _); [assumption|].
    destruct (parse_buf _ _ from s) as [((u & f) & s')|]; [|assumption]. apply IH. assumption. }
  apply G in E. pose proof (cpulist_chunking input (fun j => Z.max 0 (c1 j)) c2 ltac:(intros; lia) H2) as (K & _).
  unfold parse_cpulist in K. rewrite <- K. exact E.
Qed.
Print Assumptions cpulist_read_error.

(** ** What is parsed *)

(** Specification: an input is a sequence of tokens, each followed by a dash ([true])
    or a comma, and a last token.  Tokens have at most 15 characters. *)
Definition token (t : list Z) : Prop := (length t <= 15)%nat /\ ~ In ch_dash t /\ ~ In ch_comma t.
Fixpoint render (ps : list (list Z * bool)) (last : list Z) : list Z :=
  match ps with
  | [] => last
  | (t, d) :: ps => t ++ (if d then ch_dash else ch_comma) :: render ps last
  end.
(** The number a token stands for, if it stands for a CPU. *)
Definition number (t : list Z) : option Z := let? v := atoi t in if in_bounds v then Some v else None.
Definition add (from v : Z) (s : cpuset) : cpuset := if from =? -1 then set_cpu s v else set_range s from v.
Definition blank (t : list Z) : bool := match t with [] => true | [c] => c =? ch_newline | _ => false end.
Fixpoint meaning (ps : list (list Z * bool)) (last : list Z) (from : Z) (s : cpuset) : option cpuset :=
  match ps with
  | [] => if blank last then Some s else let? v := number last in Some (add from v s)
  | (t, true) :: ps => let? v := number t in meaning ps last v s
  | (t, false) :: ps => let? v := number t in meaning ps last (-1) (add from v s)
  end.

Lemma find_ch_none c l : find_ch c l = None <-> ~ In c l.
Proof.
  induction l as [|x l IH]; cbn; [tauto|]. destruct (Z.eqb_spec x c) as [->|N]; [split; [discriminate|tauto]|].
  destruct IH as (I1 & I2). destruct (find_ch c l) as [n|]; cbn; split; try discriminate; try tauto. intros H. discriminate I2. tauto.
Qed.

Lemma firstn_token (t : list Z) c r : (length t <= 15)%nat -> exists r', firstn buf_size (t ++ c :: r) = t ++ c :: r'.
Proof.
  intros H. rewrite firstn_app, (firstn_all2 t) by (unfold buf_size; lia). unfold buf_size.
  destruct (16 - length t)%nat as [|k] eqn:E; [lia|]. cbn [firstn]. eexists. reflexivity.
Qed.
Lemma firstn_len_app {A} (t m : list A) : firstn (length t) (t ++ m) = t.
Proof. rewrite firstn_app_lt by lia. apply firstn_all. Qed.

Lemma parse_dash t r from s : token t ->
  parse_buf (firstn buf_size (t ++ ch_dash :: r)) true from s = let? v := number t in Some (S (length t), v, s).
Proof.
  intros (L & D & C). destruct (firstn_token t ch_dash r L) as (r' & ->). unfold parse_buf.
  rewrite (find_ch_app_none _ _ _ (proj2 (find_ch_none _ _) D)), (find_ch_app_none _ _ _ (proj2 (find_ch_none _ _) C)). cbn [find_ch]. rewrite Z.eqb_refl.
  replace (ch_dash =? ch_comma) with false by reflexivity. cbn [option_map]. rewrite Nat.add_0_r.
  assert (P : pos_lt (Some (length t)) (option_map (fun n => (length t + n)%nat) (option_map S (find_ch ch_comma r'))) = true).
  { destruct (find_ch ch_comma r'); cbn; [apply Nat.ltb_lt; lia|reflexivity]. }
  rewrite P, firstn_len_app. unfold number, obind. destruct (atoi t) as [v|]; [|reflexivity]. destruct (in_bounds v); reflexivity.
Qed.
Lemma parse_comma t r from s : token t ->
  parse_buf (firstn buf_size (t ++ ch_comma :: r)) true from s = let? v := number t in Some (S (length t), -1, add from v s).
Proof.
  intros (L & D & C). destruct (firstn_token t ch_comma r L) as (r' & ->). unfold parse_buf.
  rewrite (find_ch_app_none _ _ _ (proj2 (find_ch_none _ _) D)), (find_ch_app_none _ _ _ (proj2 (find_ch_none _ _) C)). cbn [find_ch]. rewrite Z.eqb_refl.
  replace (ch_comma =? ch_dash) with false by reflexivity. cbn [option_map]. rewrite Nat.add_0_r.
  assert (P : pos_lt (option_map (fun n => (length t + n)%nat) (option_map S (find_ch ch_dash r'))) (Some (length t)) = false).
  { destruct (find_ch ch_dash r'); cbn; [apply Nat.ltb_ge; lia|reflexivity]. }
  rewrite P, firstn_len_app. cbn [orb]. unfold number, obind, add. destruct (atoi t) as [v|]; [|reflexivity]. destruct (in_bounds v); [|reflexivity].
  destruct (Z.eqb_spec from (-1)) as [->|]; reflexivity.
Qed.
Lemma parse_last t from s : (length t <= 16)%nat -> ~ In ch_dash t -> ~ In ch_comma t ->
  parse_buf (firstn buf_size t) true from s = let? v := number t in Some (length t, -1, add from v s).
Proof.
  intros L D C. rewrite firstn_all2 by (unfold buf_size; lia). unfold parse_buf.
  rewrite (proj2 (find_ch_none _ _) D), (proj2 (find_ch_none _ _) C). cbn [pos_lt orb].
  unfold number, obind, add. destruct (atoi t) as [v|]; [|reflexivity]. destruct (in_bounds v); [|reflexivity].
  destruct (Z.eqb_spec from (-1)) as [->|]; reflexivity.
Qed.

Lemma skipn_len_app {A} (t m : list A) c : skipn (S (length t)) (t ++ c :: m) = m.
Proof. induction t; [reflexivity|exact IHt]. Qed.

(** Every input whose tokens have at most 15 characters (16 for the last): the exact
    result, for every splitting into reads. *)
Theorem cpulist_meaning : forall ps last chunk, (forall i, 0 <= chunk i) ->
  Forall (fun p => token (fst p)) ps -> (length last <= 16)%nat -> ~ In ch_dash last -> ~ In ch_comma last ->
  parse_cpulist chunk (render ps last) = Some (meaning ps last (-1) (fun _ => false)).
Proof.
  intros ps last chunk Hc F L D C. unfold parse_cpulist.
  rewrite (loop_spec _ chunk O (render ps last) [] (-1) _ (S (length (render ps last))) Hc) by (cbn; unfold buf_size; lia). cbn [app].
  assert (G : forall f from s, (length (render ps last) < f)%nat -> spec_loop f (render ps last) from s = Some (meaning ps last from s)); [|apply G; lia].
  induction F as [|(t & d) ps T F IH]; intros f from s Hf; (destruct f as [|f]; [lia|]).
  - cbn [render meaning spec_loop] in *. fold (blank last). destruct (blank last) eqn:Eb; [reflexivity|].
    rewrite (parse_last last from s L D C). destruct (number last) as [v|]; [|reflexivity]. cbn [obind].
    rewrite skipn_all2 by lia. destruct f as [|f]; [destruct last; [discriminate|cbn in Hf; lia]|reflexivity].
  - cbn [fst] in T. cbn [render] in *. rewrite app_length in Hf. cbn [length] in Hf. cbn [spec_loop].
    assert (B : match t ++ (if d then ch_dash else ch_comma) :: render ps last with [] => true | [c] => c =? ch_newline | _ => false end = false).
    { destruct t as [|c0 [|c1 t]]; [|reflexivity|reflexivity]. cbn [app]. destruct (render ps last); [destruct d; reflexivity|reflexivity]. }
    rewrite B. destruct d.
    + rewrite (parse_dash t _ from s T). cbn [meaning]. destruct (number t) as [v|]; [|reflexivity]. cbn [obind]. rewrite skipn_len_app. apply IH. lia.
    + rewrite (parse_comma t _ from s T). cbn [meaning]. destruct (number t) as [v|]; [|reflexivity]. cbn [obind]. rewrite skipn_len_app. apply IH. lia.
Qed.
Print Assumptions cpulist_meaning.

(** ** Numbers *)
Definition digits (t : list Z) : Prop := t <> [] /\ Forall (fun c => 48 <= c <= 57) t.

Lemma lstrip_id t : match t with [] => True | c :: _ => is_space c = false end -> lstrip t = t.
Proof. destruct t; [reflexivity|]. cbn. now intros ->. Qed.
Lemma digit_not_space c : 48 <= c <= 57 -> is_space c = false.
Proof. intros. unfold is_space. lia. Qed.
Lemma forallb_digit t : Forall (fun c => 48 <= c <= 57) t -> forallb is_digit t = true.
Proof. induction 1; cbn; [reflexivity|]. rewrite IHForall. unfold is_digit. lia. Qed.
Lemma value_nonneg t : Forall (fun c => 48 <= c <= 57) t -> 0 <= value t.
Proof.
  unfold value. assert (G : forall v, 0 <= v -> Forall (fun c => 48 <= c <= 57) t -> 0 <= fold_left (fun v c => 10 * v + (c - 48)) t v).
  { induction t as [|c t IH]; intros v Hv F; [exact Hv|]. inversion F; subst. cbn. apply IH; [lia|assumption]. }
  apply G. lia.
Qed.
Lemma rev_digits t : digits t -> exists c r, rev t = c :: r /\ 48 <= c <= 57.
Proof.
  intros (N & F). destruct (rev t) as [|c r] eqn:E.
  - exfalso. apply N. rewrite <- (rev_involutive t), E. reflexivity.
  - exists c, r. split; [reflexivity|]. rewrite Forall_forall in F. apply F. apply in_rev. rewrite E. now left.
Qed.
Lemma strip_digits t nl : digits t -> nl = [] \/ nl = [ch_newline] -> strip (t ++ nl) = t.
Proof.
  intros H Hn. pose proof H as (N & F). unfold strip. destruct t as [|c t]; [congruence|]. inversion F as [|? ? Fc Ft]; subst.
  rewrite (lstrip_id ((c :: t) ++ nl)) by (cbn; apply digit_not_space; assumption).
  destruct (rev_digits _ H) as (e & r & Er & He). rewrite rev_app_distr, Er.
  replace (lstrip (rev nl ++ e :: r)) with (e :: r).
  - rewrite <- Er. apply rev_involutive.
  - symmetry. destruct Hn as [-> | ->]; [apply (lstrip_id (e :: r)); apply digit_not_space; assumption|].
    change (lstrip (e :: r) = e :: r). apply lstrip_id. apply digit_not_space. assumption.
Qed.
Lemma atoi_digits t nl : digits t -> nl = [] \/ nl = [ch_newline] ->
  atoi (t ++ nl) = if value t <? 2 ^ 31 then Some (value t) else None.
Proof.
  intros H Hn. unfold atoi. rewrite (strip_digits t nl H Hn). destruct H as (N & F). destruct t as [|c t]; [congruence|]. inversion F as [|? ? Fc Ft]; subst.
  replace (c =? 43) with false by lia. replace (c =? 45) with false by lia. unfold digits_value. rewrite (forallb_digit _ F). cbn [obind].
  pose proof (value_nonneg _ F). replace (- 2 ^ 31 <=? value (c :: t)) with true by lia. reflexivity.
Qed.
Lemma number_digits t nl : digits t -> nl = [] \/ nl = [ch_newline] ->
  number (t ++ nl) = if value t <? k_max_cpus then Some (value t) else None.
Proof.
  intros H Hn. unfold number. rewrite (atoi_digits t nl H Hn). pose proof (value_nonneg _ (proj2 H)). unfold in_bounds, k_max_cpus.
  destruct (Z.ltb_spec (value t) (2 ^ 31)); cbn [obind].
  - replace (0 <=? value t) with true by lia. reflexivity.
  - replace (value t <? 2048) with false by lia. reflexivity.
Qed.

(** ** Well-formed lists *)

(** Specification: entries are numbers or ranges of numbers, separated by commas,
    with an optional newline at the end. *)
Inductive entry := One (t : list Z) | Range (t u : list Z).
Definition cpu_token (t : list Z) : Prop := digits t /\ (length t <= 15)%nat /\ value t < k_max_cpus.
Definition entry_ok (e : entry) : Prop :=
  match e with One t => cpu_token t | Range t u => cpu_token t /\ cpu_token u end.
Definition entry_text (e : entry) : list Z := match e with One t => t | Range t u => t ++ ch_dash :: u end.
Definition listed (e : entry) (c : Z) : Prop :=
  match e with One t => c = value t | Range t u => value t <= c <= value u end.
Fixpoint list_text (e : entry) (l : list entry) : list Z :=
  match l with [] => entry_text e | e' :: l => entry_text e ++ ch_comma :: list_text e' l end.

Lemma cpu_token_token t : cpu_token t -> token t.
Proof.
  intros ((N & F) & L & V). rewrite Forall_forall in F. split; [assumption|].
  split; intros H; apply F in H; unfold ch_dash, ch_comma in H; lia.
Qed.
Definition pieces (e : entry) (sep : bool) : list (list Z * bool) :=
  match e with One t => [(t, sep)] | Range t u => [(t, true); (u, sep)] end.
Fixpoint split_list (e : entry) (l : list entry) : list (list Z * bool) * list Z :=
  match l with
  | [] => match e with One t => ([], t) | Range t u => ([(t, true)], u) end
  | e' :: l => let (ps, last) := split_list e' l in (pieces e false ++ ps, last)
  end.
Lemma render_app ps qs last : render (ps ++ qs) last = render ps (render qs last).
Proof. induction ps as [|(t & d) ps IH]; cbn; [reflexivity|]. now rewrite IH. Qed.
Lemma split_render e l nl : render (fst (split_list e l)) (snd (split_list e l) ++ nl) = list_text e l ++ nl.
Proof.
  revert e. induction l as [|e' l IH]; intros e; cbn [split_list list_text].
  - destruct e; cbn; [reflexivity|]. now rewrite <- app_assoc.
  - specialize (IH e'). destruct (split_list e' l) as (ps & last). cbn [fst snd] in *. rewrite render_app, IH.
    destruct e; cbn [pieces render entry_text]; rewrite <- ?app_assoc; reflexivity.
Qed.
Lemma split_ok e l : Forall entry_ok (e :: l) -> Forall (fun p => token (fst p)) (fst (split_list e l)) /\ cpu_token (snd (split_list e l)).
Proof.
  revert e. induction l as [|e' l IH]; intros e F; inversion F as [|? ? Fe Fl]; subst; cbn [split_list].
  - destruct e; cbn in Fe; cbn [fst snd]; (split; [|tauto]); [constructor|constructor; [apply cpu_token_token; tauto|constructor]].
  - specialize (IH e' Fl). destruct (split_list e' l) as (ps & last). cbn [fst snd] in *. split; [|tauto]. apply Forall_app. split; [|tauto].
    destruct e; cbn in Fe; cbn [pieces]; [constructor; [|constructor]|constructor; [|constructor; [|constructor]]]; apply cpu_token_token; tauto.
Qed.

Lemma add_spec from v s c : from = -1 \/ 0 <= from -> 
  (add from v s c = true <-> (if from =? -1 then c = v else from <= c <= v) \/ s c = true).
Proof.
  intros H. unfold add, set_cpu, set_range. destruct (from =? -1).
  - rewrite orb_true_iff, Z.eqb_eq. tauto.
  - rewrite orb_true_iff, andb_true_iff, !Z.leb_le. tauto.
Qed.

Lemma meaning_list nl e l : nl = [] \/ nl = [ch_newline] -> Forall entry_ok (e :: l) -> forall s,
  exists r, meaning (fst (split_list e l)) (snd (split_list e l) ++ nl) (-1) s = Some r /\
    forall c, r c = true <-> (exists x, In x (e :: l) /\ listed x c) \/ s c = true.
Proof.
  intros Hn. revert e. induction l as [|e' l IH]; intros e F s; inversion F as [|? ? Fe Fl]; subst.
  - assert (NB : forall u, cpu_token u -> blank (u ++ nl) = false).
    { intros u ((N & Fu) & _). destruct u as [|c [|c' u]]; [congruence| |reflexivity]. inversion Fu; subst.
      destruct Hn as [-> | ->]; [cbn; unfold ch_newline; lia|reflexivity]. }
    cbn [split_list]. destruct e as [t|t u]; cbn [fst snd meaning]; cbn in Fe.
    + rewrite NB by assumption. destruct Fe as (D & L & V). rewrite (number_digits t nl D Hn). replace (value t <? k_max_cpus) with true by lia.
      cbn [obind]. eexists. split; [reflexivity|]. intros c. rewrite add_spec by tauto. cbn [Z.eqb]. split.
      * intros [E|E]; [left; exists (One t); split; [now left|exact E]|now right].
      * intros [(x & [<-|[]] & E)|E]; [left; exact E|now right].
    + destruct Fe as (Ft & Fu). pose proof Ft as (D & L & V). pose proof (number_digits t [] D (or_introl eq_refl)) as Nt. rewrite app_nil_r in Nt.
      rewrite Nt. replace (value t <? k_max_cpus) with true by lia. cbn [obind]. rewrite NB by assumption.
      destruct Fu as (Du & Lu & Vu). rewrite (number_digits u nl Du Hn). replace (value u <? k_max_cpus) with true by lia.
      cbn [obind]. eexists. split; [reflexivity|]. pose proof (value_nonneg _ (proj2 D)) as Vn. intros c. rewrite add_spec by lia. replace (value t =? -1) with false by lia. split.
      * intros [E|E]; [left; exists (Range t u); split; [now left|exact E]|now right].
      * intros [(x & [<-|[]] & E)|E]; [left; exact E|now right].
  - specialize (IH e' Fl). cbn [split_list]. destruct (split_list e' l) as (ps & last). cbn [fst snd] in *.
    destruct e as [t|t u]; cbn [pieces app meaning]; cbn in Fe.
    + destruct Fe as (D & L & V). pose proof (number_digits t [] D (or_introl eq_refl)) as Nt. rewrite app_nil_r in Nt.
      rewrite Nt. replace (value t <? k_max_cpus) with true by lia. cbn [obind].
      destruct (IH (add (-1) (value t) s)) as (r & Er & Hr). exists r. split; [exact Er|]. intros c. rewrite Hr, add_spec by tauto. cbn [Z.eqb]. split.
      * intros [(x & Hx & E)|[E|E]]; [left; exists x; split; [now right|exact E]|left; exists (One t); split; [now left|exact E]|now right].
      * intros [(x & [<-|Hx] & E)|E]; [right; left; exact E|left; exists x; now split|tauto].
    + destruct Fe as (Ft & Fu). pose proof Ft as (D & L & V). pose proof (number_digits t [] D (or_introl eq_refl)) as Nt. rewrite app_nil_r in Nt.
      rewrite Nt. replace (value t <? k_max_cpus) with true by lia. cbn [obind].
      destruct Fu as (Du & Lu & Vu). pose proof (number_digits u [] Du (or_introl eq_refl)) as Nu. rewrite app_nil_r in Nu.
      rewrite Nu. replace (value u <? k_max_cpus) with true by lia. cbn [obind]. pose proof (value_nonneg _ (proj2 D)) as Vn.
      destruct (IH (add (value t) (value u) s)) as (r & Er & Hr). exists r. split; [exact Er|]. intros c. rewrite Hr, add_spec by lia. replace (value t =? -1) with false by lia. split.
      * intros [(x & Hx & E)|[E|E]]; [left; exists x; split; [now right|exact E]|left; exists (Range t u); split; [now left|exact E]|now right].
      * intros [(x & [<-|Hx] & E)|E]; [right; left; exact E|left; exists x; now split|tauto].
Qed.

(** Every well-formed list, every splitting into reads: exactly the listed CPUs. *)
Theorem cpulist_well_formed : forall e l nl chunk, (forall i, 0 <= chunk i) ->
  Forall entry_ok (e :: l) -> nl = [] \/ nl = [ch_newline] ->
  exists s, parse_cpulist chunk (list_text e l ++ nl) = Some (Some s) /\
    forall c, s c = true <-> exists x, In x (e :: l) /\ listed x c.
Proof.
  intros e l nl chunk Hc F Hn. destruct (split_ok e l F) as (F1 & F2). rewrite <- split_render.
  pose proof (cpu_token_token _ F2) as (L & D & C). destruct F2 as (_ & L2 & _).
  rewrite cpulist_meaning; [|exact Hc|exact F1| | |].
  - destruct (meaning_list nl e l Hn F (fun _ => false)) as (r & Er & Hr). exists r. split; [now rewrite Er|].
    intros c. rewrite Hr. split; [intros [H|H]; [exact H|discriminate]|tauto].
  - rewrite app_length. destruct Hn as [-> | ->]; cbn; lia.
  - intros H. apply in_app_or in H as [H|H]; [tauto|]. destruct Hn as [-> | ->]; [destruct H|]. destruct H as [H|[]]. discriminate.
  - intros H. apply in_app_or in H as [H|H]; [tauto|]. destruct Hn as [-> | ->]; [destruct H|]. destruct H as [H|[]]. discriminate.
Qed.
Print Assumptions cpulist_well_formed.

(** ** Rejection *)
Lemma meaning_none ps last : (exists t d, In (t, d) ps /\ number t = None) \/ (number last = None /\ blank last = false) ->
  forall from s, meaning ps last from s = None.
Proof.
  induction ps as [|(t & d) ps IH]; intros H from s; cbn [meaning].
  - destruct H as [(t & d & [] & _)|(H & B)]. rewrite B, H. reflexivity.
  - destruct (number t) as [v|] eqn:E; [|destruct d; reflexivity].
    assert (H' : (exists t d, In (t, d) ps /\ number t = None) \/ (number last = None /\ blank last = false)).
    { destruct H as [(t' & d' & [E'|H] & Hn)|H]; [inversion E'; subst; congruence|left; eauto|right; assumption]. }
    destruct d; cbn [obind]; apply IH; assumption.
Qed.

(** A token that holds a character which is neither a digit, nor white space, nor a
    sign, or no digit at all, or only digits with a value out of range, makes the whole
    parse fail. *)
Definition bad_token (t : list Z) : Prop :=
  (exists c, In c t /\ is_digit c = false /\ is_space c = false /\ c <> 43 /\ c <> 45) \/
  (forall c, In c t -> is_digit c = false) \/
  (digits t /\ k_max_cpus <= value t).

Lemma lstrip_incl t c : In c (lstrip t) -> In c t.
Proof. induction t as [|x t IH]; cbn; [tauto|]. destruct (is_space x); cbn; tauto. Qed.
Lemma lstrip_keep t c : In c t -> is_space c = false -> In c (lstrip t).
Proof. induction t as [|x t IH]; cbn; [tauto|]. intros [->|H] E; [rewrite E; now left|]. destruct (is_space x); [tauto|now right]. Qed.
Lemma strip_keep t c : In c t -> is_space c = false -> In c (strip t).
Proof. intros H E. unfold strip. apply -> in_rev. apply lstrip_keep; [|assumption]. apply -> in_rev. apply lstrip_keep; assumption. Qed.
Lemma strip_incl t c : In c (strip t) -> In c t.
Proof. unfold strip. intros H. apply in_rev in H. apply lstrip_incl in H. apply in_rev in H. apply lstrip_incl in H. assumption. Qed.
Lemma digits_value_some l v : digits_value l = Some v -> l <> [] /\ forall c, In c l -> is_digit c = true.
Proof.
  unfold digits_value. destruct l as [|x l]; [discriminate|]. destruct (forallb is_digit (x :: l)) eqn:E; [|discriminate].
  intros _. split; [discriminate|]. now apply forallb_forall.
Qed.
Lemma bad_number t : bad_token t -> number t = None.
Proof.
  intros [(c & Hc & Nd & Ns & N1 & N2)|[Nd|(D & V)]].
  - unfold number, atoi. pose proof (strip_keep _ _ Hc Ns) as Hs. destruct (strip t) as [|x r]; [destruct Hs|].
    assert (G : forall l v, digits_value l = Some v -> In c l -> False).
    { intros l v E Hi. apply digits_value_some in E as (_ & E). rewrite (E _ Hi) in Nd. discriminate. }
    destruct (Z.eqb_spec x 43); [|destruct (Z.eqb_spec x 45)]; [destruct Hs as [Hs|Hs]; [congruence|]..|];
      (destruct (digits_value _) as [v|] eqn:E; [exfalso; eapply G; eassumption|reflexivity]).
  - unfold number, atoi. assert (G : forall l v, digits_value l = Some v -> (forall c, In c l -> In c (strip t)) -> False).
    { intros l v E Hi. apply digits_value_some in E as (Hn & E). destruct l as [|y l]; [congruence|]. specialize (E y (or_introl eq_refl)).
      specialize (Nd y (strip_incl _ _ (Hi y (or_introl eq_refl)))). congruence. }
    destruct (strip t) as [|x r]; [reflexivity|].
    destruct (x =? 43); [|destruct (x =? 45)]; (destruct (digits_value _) as [v|] eqn:E; [exfalso; eapply G; [eassumption|cbn; tauto]|reflexivity]).
  - pose proof (number_digits t [] D (or_introl eq_refl)) as N. rewrite app_nil_r in N. rewrite N. replace (value t <? k_max_cpus) with false by lia. reflexivity.
Qed.

Theorem cpulist_rejects : forall ps last chunk, (forall i, 0 <= chunk i) ->
  Forall (fun p => token (fst p)) ps -> token last ->
  (exists t d, In (t, d) ps /\ bad_token t) \/ (bad_token last /\ last <> [] /\ last <> [ch_newline]) ->
  parse_cpulist chunk (render ps last) = Some None.
Proof.
  intros ps last chunk Hc F (L & D & C) H. rewrite cpulist_meaning; [|assumption|assumption|lia|assumption|assumption].
  f_equal. apply meaning_none. destruct H as [(t & d & Hi & B)|(B & N1 & N2)].
  - left. exists t, d. split; [assumption|]. apply bad_number. assumption.
  - right. split; [apply bad_number; assumption|]. unfold blank. destruct last as [|c [|c' l]]; [congruence| |reflexivity].
    destruct (Z.eqb_spec c ch_newline) as [->|]; [congruence|reflexivity].
Qed.
Print Assumptions cpulist_rejects.

(** Finding: three malformed lists are accepted.  "7-" (a range with no end) gives the
    empty set, "5-2" gives the empty set, and "1-3-5" drops the 1 and gives 3..5. *)
Theorem cpulist_dangling_range_refuted : exists t : list Z, cpu_token t /\ forall chunk, (forall i, 0 <= chunk i) ->
  parse_cpulist chunk (t ++ [ch_dash; ch_newline]) = Some (Some (fun _ => false)).
Proof.
  exists [55]. split; [split; [split; [discriminate|repeat constructor; lia]|split; [cbn; lia|reflexivity]]|]. intros chunk Hc.
  apply (cpulist_meaning [([55], true)] [ch_newline] chunk Hc).
  - constructor; [|constructor]. apply cpu_token_token. split; [split; [discriminate|repeat constructor; lia]|split; [cbn; lia|reflexivity]].
  - cbn. lia.
  - intros [H|[]]; discriminate.
  - intros [H|[]]; discriminate.
Qed.
Print Assumptions cpulist_dangling_range_refuted.

Example ex_reversed : option_map (option_map (fun s : cpuset => filter s (zseq 0 10))) (parse_cpulist (fun _ => 1) [53; 45; 50]) = Some (Some []).
Proof. reflexivity. Qed.
Example ex_double : option_map (option_map (fun s : cpuset => filter s (zseq 0 10))) (parse_cpulist (fun _ => 3) [49; 45; 51; 45; 53]) = Some (Some [3; 4; 5]).
Proof. reflexivity. Qed.

(** ** The number of possible CPUs *)

Theorem num_possible_spec : forall s : cpuset,
  match num_possible s with
  | Some n => 1 <= n <= k_max_cpus /\ s (n - 1) = true /\ (forall c, 0 <= c < k_max_cpus -> s c = true -> c < n)
  | None => forall c, 0 <= c < k_max_cpus -> s c = false
  end.
Proof.
  intros s. unfold num_possible.
  assert (G : forall n, match fold_left (fun (m : option Z) i => if s i then Some (Z.max i (match m with Some m => m | None => -1 end)) else m) (zseq 0 n) None with
    | Some m => 0 <= m < Z.of_nat n /\ s m = true /\ (forall c, 0 <= c < Z.of_nat n -> s c = true -> c <= m)
    | None => forall c, 0 <= c < Z.of_nat n -> s c = false end).
  { induction n as [|n IH]; [cbn; lia|]. replace (S n) with (n + 1)%nat by lia. rewrite zseq_app, fold_left_app. cbn [zseq fold_left]. rewrite Z.add_0_l.
    destruct (fold_left _ (zseq 0 n) None) as [m|].
    - destruct IH as (I1 & I2 & I3). destruct (s (Z.of_nat n)) eqn:E.
      + rewrite Z.max_l by lia. split; [lia|]. split; [assumption|]. intros c Hc Sc. lia.
      + split; [lia|]. split; [assumption|]. intros c Hc Sc. destruct (Z.eq_dec c (Z.of_nat n)) as [->|]; [congruence|]. apply I3; [lia|assumption].
    - destruct (s (Z.of_nat n)) eqn:E.
      + rewrite Z.max_l by lia. split; [lia|]. split; [assumption|]. intros c Hc Sc. lia.
      + intros c Hc. destruct (Z.eq_dec c (Z.of_nat n)) as [->|]; [assumption|]. apply IH. lia. }
  specialize (G (Z.to_nat k_max_cpus)). destruct (fold_left _ _ None) as [m|].
  - destruct G as (G1 & G2 & G3). rewrite Z2Nat.id in * by (unfold k_max_cpus; lia). split; [lia|]. replace (m + 1 - 1) with m by lia. split; [assumption|].
    intros c Hc Sc. specialize (G3 c Hc Sc). lia.
  - intros c Hc. apply G. rewrite Z2Nat.id by (unfold k_max_cpus; lia). assumption.
Qed.
Print Assumptions num_possible_spec.

(** A concrete list, "0-2,15,2047\n", read in chunks of 1, 5 or 100 bytes. *)
Definition ex_e : entry := Range [48] [50].
Definition ex_l : list entry := [One [49; 53]; One [50; 48; 52; 55]].
Example ex_ok : Forall entry_ok (ex_e :: ex_l).
Proof.
  assert (D : forall t, t <> [] -> forallb is_digit t = true -> Nat.leb (length t) 15 = true -> value t <? k_max_cpus = true -> cpu_token t).
  { intros t N H L V. split; [split; [assumption|]|split; [now apply Nat.leb_le|lia]].
    apply Forall_forall. intros c Hc. rewrite forallb_forall in H. specialize (H c Hc). unfold is_digit in H. lia. }
  constructor; [split; apply D; (discriminate || reflexivity)|].
  constructor; [apply D; (discriminate || reflexivity)|]. constructor; [apply D; (discriminate || reflexivity)|constructor].
Qed.
Example ex_parse : map (fun k => option_map (option_map (fun s : cpuset => filter s (zseq 0 20 ++ [2046; 2047])))
    (parse_cpulist (fun _ => k) (list_text ex_e ex_l ++ [ch_newline]))) [1; 5; 100] =
  [Some (Some [0; 1; 2; 15; 2047]); Some (Some [0; 1; 2; 15; 2047]); Some (Some [0; 1; 2; 15; 2047])].
Proof. reflexivity. Qed.
