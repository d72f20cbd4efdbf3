(** Lemmas for C62. *)
From Coq Require Import String.
From Verif Require Import Base CpuList CpuListProps SafeIoProofs2 Experiment ExperimentSpec.

Lemma eqb_str_eq a : forall b, eqb_str a b = true <-> a = b.
Proof.
  induction a as [|x a IH]; intros [|y b]; cbn; try (split; congruence).
  rewrite andb_true_iff, Z.eqb_eq, IH. split; [intros (-> & ->); auto|intros E; injection E; auto].
Qed.

(** ** The environment *)

Lemma starts_with_spec l var : starts_with l var = true <-> exists r, l = var ++ r.
Proof.
  revert l; induction var as [|x var IH]; intros l.
  - split; [intros _; exists l; reflexivity|destruct l; reflexivity].
  - destruct l as [|y l]; [split; [discriminate|intros (r & H); discriminate]|].
    cbn [starts_with]. rewrite andb_true_iff, Z.eqb_eq, IH. split.
    + intros (-> & r & ->). exists r. reflexivity.
    + intros (r & H). injection H as -> ->. eauto.
Qed.

Lemma env_match s var : starts_with s var && (match skipn (length var) s with c :: _ => c =? 61 | [] => false end) = true <->
  exists t, s = var ++ [61] ++ t.
Proof.
  rewrite andb_true_iff, starts_with_spec. split.
  - intros ((r & ->) & H). rewrite skipn_app, skipn_all, Nat.sub_diag in H. cbn in H. destruct r as [|c r]; [discriminate|].
    apply Z.eqb_eq in H. subst. exists r. reflexivity.
  - intros (t & ->). split; [eauto|]. rewrite skipn_app, skipn_all, Nat.sub_diag. reflexivity.
Qed.

Lemma skip_var var t : skipn (S (length var)) (var ++ [61] ++ t) = t.
Proof. rewrite skipn_app. rewrite skipn_all2 by lia. replace (S (length var) - length var)%nat with 1%nat by lia. reflexivity. Qed.

Lemma get_env_cases environ var :
  match get_env environ var with Some v => env_is environ var v | None => env_unset environ var end.
Proof.
  induction environ as [|s r IH]; cbn [get_env]. intros x t [].
  pose proof (env_match s var) as M.
  destruct (starts_with s var && match skipn (length var) s with [] => false | c :: _ => c =? 61 end).
  - destruct M as (M & _). destruct (M eq_refl) as (t & ->). rewrite skip_var. exists [], r. split; auto.
  - assert (N : forall t, s <> var ++ [61] ++ t). { intros t E. destruct M as (_ & M). discriminate M. eauto. }
    destruct (get_env r var) as [v|].
    + destruct IH as (b & a & -> & H). exists (s :: b), a. split; auto. intros x t [<-|I]; auto.
    + intros x t [<-|I]; auto.
Qed.

Lemma env_is_fun environ var v w : env_is environ var v -> env_is environ var w -> v = w.
Proof.
  intros (b1 & a1 & E1 & H1) (b2 & a2 & E2 & H2). subst environ. revert b2 E2 H2.
  induction b1 as [|x b1 IH]; intros [|y b2] E2 H2; cbn [app] in E2.
  - injection E2 as E2 _. apply app_inv_head in E2. injection E2; auto.
  - injection E2 as E2 _. elim (H2 y v). left; auto. rewrite <- E2. reflexivity.
  - injection E2 as E2 _. elim (H1 x w). left; auto. rewrite E2. reflexivity.
  - injection E2 as E2 E3. apply IH with b2; auto. intros z t I. apply H1. right; auto. intros z t I. apply H2. right; auto.
Qed.
Lemma env_is_unset environ var v : env_is environ var v -> env_unset environ var -> False.
Proof. intros (b & a & -> & _) U. eapply U; [|reflexivity]. apply in_or_app. right. left. reflexivity. Qed.

(** ** Labels *)

Fixpoint tokens (l : list Z) : list (list Z) :=
  match l with
  | [] => [[]]
  | c :: r => if c =? 44 then [] :: tokens r else match tokens r with t :: ts => (c :: t) :: ts | [] => [[c]] end
  end.

Lemma tokens_none l : find_ch 44 l = None -> tokens l = [l].
Proof.
  induction l as [|c l IH]; [reflexivity|]. cbn [find_ch tokens]. destruct (Z.eqb_spec c 44) as [->|N].
  - rewrite ?Z.eqb_refl. discriminate.
  - destruct (find_ch 44 l); [discriminate|]. intros _. rewrite IH by auto. reflexivity.
Qed.

Lemma tokens_some l k : find_ch 44 l = Some k -> tokens l = firstn k l :: tokens (skipn (S k) l).
Proof.
  revert k; induction l as [|c l IH]; intros k; [discriminate|]. cbn [find_ch tokens]. destruct (Z.eqb_spec c 44) as [->|N].
  - intros E. injection E as <-. reflexivity.
  - destruct (find_ch 44 l) as [j|]; [|discriminate]. intros E. injection E as <-. rewrite (IH j) by auto. reflexivity.
Qed.

Lemma skipn_twice {A} (l : list A) : forall a b, skipn a (skipn b l) = skipn (b + a) l.
Proof.
  intros a b. revert l; induction b as [|b IH]; intros l; [reflexivity|]. destruct l; [rewrite !skipn_nil; reflexivity|]. apply IH.
Qed.

Lemma parse_fold {A} (f : list Z -> A -> A) fuel : forall labels pos a, (length labels < fuel + pos)%nat -> (pos <= length labels)%nat ->
  parse_experiments fuel labels pos f a = Some (fold_left (fun a t => f t a) (tokens (skipn pos labels)) a).
Proof.
  induction fuel as [|fuel IH]; intros labels pos a H1 H2; [lia|]. cbn [parse_experiments].
  change ch_comma with 44. destruct (find_ch 44 (skipn pos labels)) as [k|] eqn:F.
  - pose proof (find_ch_lt _ _ _ F) as L. rewrite skipn_length in L. rewrite IH by lia. rewrite (tokens_some _ _ F). cbn [fold_left].
    do 3 f_equal. rewrite skipn_twice. f_equal. lia.
  - rewrite (tokens_none _ F). reflexivity.
Qed.

Lemma parse_all_fold {A} (f : list Z -> A -> A) labels a : parse_all labels f a = Some (fold_left (fun a t => f t a) (tokens labels) a).
Proof. unfold parse_all. rewrite parse_fold by lia. reflexivity. Qed.

Lemma in_tokens n : forall s t, (length s <= n)%nat -> In t (tokens s) <-> listed t s.
Proof.
  induction n as [|n IH]; intros s t Hn.
  - destruct s; [|cbn in Hn; lia]. cbn. split.
    + intros [<-|[]]. exists [], []. cbn. auto.
    + intros (a & b & E & _). left. symmetry in E. apply app_eq_nil in E as (_ & E). apply app_eq_nil in E as (-> & _). reflexivity.
  - destruct (find_ch 44 s) as [k|] eqn:F.
    + rewrite (tokens_some _ _ F). destruct (find_ch_split _ _ _ F) as (E & N).
      pose proof (find_ch_lt _ _ _ F) as L.
      assert (IHs : In t (tokens (skipn (S k) s)) <-> listed t (skipn (S k) s)) by (apply IH; rewrite skipn_length; lia).
      cbn [In]. rewrite IHs. remember (firstn k s) as p. remember (skipn (S k) s) as s'. split.
      * intros [<-|(a & b & E2 & Ha & Hb & Nt)].
        -- exists [], (44 :: s'). split; [exact E|]. split; auto. split; eauto.
        -- exists (p ++ 44 :: a), b. split. rewrite E, E2, <- app_assoc. reflexivity. split; auto. right.
           destruct Ha as [->|(a' & ->)]; [exists p; reflexivity|]. exists (p ++ 44 :: a'). rewrite <- app_assoc. reflexivity.
      * intros (a & b & E2 & Ha & Hb & Nt). destruct Ha as [->|(a' & ->)].
        -- left. cbn [app] in E2. destruct Hb as [->|(b' & ->)].
           ++ rewrite app_nil_r in E2. subst t. elim Nt. rewrite E. apply in_or_app. right. left. reflexivity.
           ++ pose proof (find_ch_at 44 t b' Nt) as G. rewrite <- E2 in G. rewrite F in G. injection G as ->.
              rewrite Heqp, E2, firstn_app, Nat.sub_diag, firstn_all. cbn. apply app_nil_r.
        -- right. rewrite <- !app_assoc in E2. cbn [app] in E2. destruct (find_ch 44 a') as [j|] eqn:F2.
           ++ pose proof (find_ch_app_l 44 a' (44 :: t ++ b) j F2) as G. rewrite <- E2, F in G. injection G as ->.
              pose proof (find_ch_lt _ _ _ F2) as L2.
              exists (skipn (S j) a' ++ [44]), b. split; [|split; [right; eauto|split; auto]].
              rewrite Heqs', E2, skipn_app. replace (S j - length a')%nat with 0%nat by lia. cbn [skipn]. rewrite <- !app_assoc. reflexivity.
           ++ assert (N2 : ~ In 44 a') by (apply CpuListProps.find_ch_none; auto).
              pose proof (find_ch_at 44 a' (t ++ b) N2) as G. rewrite <- E2, F in G. injection G as ->.
              exists [], b. split; [|split; [left; auto|split; auto]].
              rewrite Heqs', E2, skipn_app. rewrite skipn_all2 by lia. replace (S (length a') - length a')%nat with 1%nat by lia. reflexivity.
    + rewrite (tokens_none _ F). apply CpuListProps.find_ch_none in F. split.
      * intros [<-|[]]. exists [], []. rewrite app_nil_r. auto.
      * intros (a & b & E & [->|(a' & ->)] & [->|(b' & ->)] & _).
        -- left. rewrite app_nil_r in E. auto.
        -- elim F. rewrite E. cbn. apply in_or_app. right. left. reflexivity.
        -- elim F. rewrite E. rewrite !in_app_iff. left. right. left. reflexivity.
        -- elim F. rewrite E. rewrite !in_app_iff. left. right. left. reflexivity.
Qed.

Lemma tokens_listed s t : In t (tokens s) <-> listed t s.
Proof. apply (in_tokens (length s)). lia. Qed.

(** ** The table *)

Lemma lookup_in cfgs label i : lookup_id cfgs label = Some i -> exists c, In c cfgs /\ c_name c = label /\ c_id c = i.
Proof.
  induction cfgs as [|c r IH]; cbn; [discriminate|]. destruct (eqb_str (c_name c) label) eqn:E.
  - apply eqb_str_eq in E. intros H. injection H as <-. eauto.
  - intros H. destruct (IH H) as (d & A & B). eauto.
Qed.
Lemma lookup_none cfgs label : lookup_id cfgs label = None -> forall c, In c cfgs -> c_name c <> label.
Proof.
  induction cfgs as [|c r IH]; cbn; [intros _ ? []|]. destruct (eqb_str (c_name c) label) eqn:E; [discriminate|].
  intros H d [<-|I]; auto. intros N. apply eqb_str_eq in N. congruence.
Qed.
Lemma NoDup_map_inj {A B} (f : A -> B) l x y : NoDup (map f l) -> In x l -> In y l -> f x = f y -> x = y.
Proof.
  induction l as [|a l IH]; cbn; [intros _ []|]. intros N. inversion N as [|? ? Ni Nd]; subst.
  intros [->|Ix] [->|Iy] E; auto.
  - elim Ni. rewrite E. apply in_map; auto.
  - elim Ni. rewrite <- E. apply in_map; auto.
Qed.
Lemma lookup_name cfgs c : table_ok cfgs -> In c cfgs -> lookup_id cfgs (c_name c) = Some (c_id c).
Proof.
  intros (Ni & Nn & _) I. destruct (lookup_id cfgs (c_name c)) as [i|] eqn:E.
  - destruct (lookup_in _ _ _ E) as (d & Id & En & <-). f_equal. f_equal. apply (NoDup_map_inj c_name cfgs); auto.
  - elim (lookup_none _ _ E c I). reflexivity.
Qed.
Lemma lookup_id_name cfgs c t : table_ok cfgs -> In c cfgs -> lookup_id cfgs t = Some (c_id c) <-> t = c_name c.
Proof.
  intros T I. split; [|intros ->; apply lookup_name; auto].
  intros E. destruct (lookup_in _ _ _ E) as (d & Id & <- & Ei). f_equal. apply (NoDup_map_inj c_id cfgs); [apply (proj1 T)| | |]; auto.
Qed.

Lemma fold_set cfgs v ts : forall (b : Z -> bool) i,
  fold_left (fun b t => match lookup_id cfgs t with Some j => upd b j v | None => b end) ts b i =
  if existsb (fun t => match lookup_id cfgs t with Some j => j =? i | None => false end) ts then v else b i.
Proof.
  induction ts as [|t ts IH]; intros b i; [reflexivity|]. cbn [fold_left existsb]. rewrite IH.
  destruct (existsb _ ts); [rewrite orb_true_r; reflexivity|]. rewrite orb_false_r.
  destruct (lookup_id cfgs t) as [j|]; [|reflexivity]. unfold upd. rewrite Z.eqb_sym. destruct (j =? i); reflexivity.
Qed.

Lemma exists_listed cfgs c s : table_ok cfgs -> In c cfgs ->
  existsb (fun t => match lookup_id cfgs t with Some j => j =? c_id c | None => false end) (tokens s) = true <-> listed (c_name c) s.
Proof.
  intros T I. rewrite existsb_exists. split.
  - intros (t & It & H). destruct (lookup_id cfgs t) as [j|] eqn:E; [|discriminate]. apply Z.eqb_eq in H. subst j.
    apply (lookup_id_name cfgs c t T I) in E. subst t. apply tokens_listed; auto.
  - intros L. exists (c_name c). split. apply tokens_listed; auto. rewrite (lookup_name _ _ T I). apply Z.eqb_refl.
Qed.

Lemma fold_table (p : config -> bool) v cfgs : forall (b : Z -> bool) i,
  fold_left (fun b c => if p c then upd b (c_id c) v else b) cfgs b i =
  if existsb (fun c => p c && (c_id c =? i)) cfgs then v else b i.
Proof.
  induction cfgs as [|c r IH]; intros b i; [reflexivity|]. cbn [fold_left existsb]. rewrite IH.
  destruct (existsb _ r); [rewrite orb_true_r; reflexivity|]. rewrite orb_false_r.
  destruct (p c); [|reflexivity]. cbn [andb]. unfold upd. rewrite Z.eqb_sym. destruct (c_id c =? i); reflexivity.
Qed.

Lemma exists_config (p : config -> bool) cfgs c : table_ok cfgs -> In c cfgs ->
  existsb (fun d => p d && (c_id d =? c_id c)) cfgs = p c.
Proof.
  intros T I. destruct (p c) eqn:P.
  - apply existsb_exists. exists c. rewrite P, Z.eqb_refl. auto.
  - apply not_true_iff_false. intros H. apply existsb_exists in H as (d & Id & H). apply andb_true_iff in H as (H1 & H2).
    apply Z.eqb_eq in H2. assert (d = c) by (apply (NoDup_map_inj c_id cfgs); [apply (proj1 T)| | |]; auto). congruence.
Qed.

Lemma rollout_off c h : rollout_enabled c h = false. Proof. destruct h; reflexivity. Qed.

(** The buffer before the choice for tests. *)
Definition base_buf (cfgs : list config) (active disabled : list Z) : Z -> bool :=
  fun i => let b := (if eqb_str active k_enable_all then (0 <=? i) && (i <? num_experiments) else false) ||
                    existsb (fun t => match lookup_id cfgs t with Some j => j =? i | None => false end) (tokens active) in
           b && negb (existsb (fun t => match lookup_id cfgs t with Some j => j =? i | None => false end) (tokens disabled)) &&
           negb (eqb_str disabled k_disable_all && existsb (fun c => c_id c =? i) cfgs).

Lemma select_unfold cfgs target active disabled unset host th nh :
  exists b, (forall i, b i = base_buf cfgs active disabled i) /\
  select_experiments cfgs target active disabled unset host th nh =
  let? buf := (if unset && negb (eqb_str target []) then
                 if eqb_str active [] && eqb_str disabled [] then test_select cfgs th nh b else None
               else Some b) in
  Some (fold_left (fun b c => if c_force c then upd b (c_id c) false else b) cfgs buf).
Proof.
  unfold select_experiments. rewrite !parse_all_fold. cbn [obind]. rewrite parse_all_fold. cbn [obind].
  eexists. split; [|reflexivity]. intros i. rewrite fold_set. unfold base_buf.
  set (ed := existsb _ (tokens disabled)). set (ea := existsb _ (tokens active)).
  assert (B0 : forall i, fold_left (fun b c => if c_rollout c && rollout_enabled c host then upd b (c_id c) true else b) cfgs
     (if eqb_str active k_enable_all then fun i0 => (0 <=? i0) && (i0 <? num_experiments) else fun _ => false) i =
     if eqb_str active k_enable_all then (0 <=? i) && (i <? num_experiments) else false).
  { intros j. rewrite (fold_table (fun c => c_rollout c && rollout_enabled c host)).
    replace (existsb _ cfgs) with false; [destruct (eqb_str active k_enable_all); reflexivity|].
    symmetry. apply not_true_iff_false. intros H. apply existsb_exists in H as (d & _ & H). rewrite rollout_off, andb_false_r in H. discriminate. }
  destruct (eqb_str disabled k_disable_all).
  - rewrite (fold_table (fun _ => true)). rewrite fold_set, B0. fold ea. cbn [andb].
    destruct ed, (existsb (fun c => c_id c =? i) cfgs), ea, (if eqb_str active k_enable_all then _ else _); reflexivity.
  - rewrite fold_set, B0. fold ea. cbn [andb negb]. rewrite andb_true_r.
    destruct ed, ea, (if eqb_str active k_enable_all then _ else _); reflexivity.
Qed.

Lemma base_buf_spec cfgs active disabled c : table_ok cfgs -> In c cfgs ->
  base_buf cfgs active disabled (c_id c) = true <-> asked active (c_name c) /\ ~ refused disabled (c_name c).
Proof.
  intros T I. unfold base_buf, asked, refused. rewrite !andb_true_iff, orb_true_iff, !negb_true_iff.
  rewrite (exists_listed cfgs c active T I). rewrite <- not_true_iff_false, (exists_listed cfgs c disabled T I).
  assert (R : (0 <=? c_id c) && (c_id c <? num_experiments) = true).
  { destruct T as (_ & _ & F). rewrite Forall_forall in F. specialize (F c I). rewrite andb_true_iff, Z.leb_le, Z.ltb_lt. exact F. }
  rewrite R. assert (X : existsb (fun d => c_id d =? c_id c) cfgs = true).
  { apply existsb_exists. exists c. rewrite Z.eqb_refl. auto. }
  rewrite X, andb_true_r.
  change (str "all") with k_disable_all. change (str "enable-all-known-experiments") with k_enable_all.
  pose proof (eqb_str_eq active k_enable_all) as E1. pose proof (eqb_str_eq disabled k_disable_all) as E2.
  destruct (eqb_str active k_enable_all), (eqb_str disabled k_disable_all); intuition congruence.
Qed.

(** The choice for tests. *)
Lemma test_fold th nh cfgs : forall b num last b' num' last',
  NoDup (map c_id cfgs) -> (forall c, In c cfgs -> b (c_id c) = false) -> 0 <= num ->
  fold_left (test_step th nh) cfgs (b, num, last) = (b', num', last') ->
  (forall c, In c cfgs -> b' (c_id c) = negb (c_brittle c) && (Z.lxor th (nh (c_name c)) mod 3 =? 0)) /\
  (forall i, ~ In i (map c_id cfgs) -> b' i = b i) /\ num <= num' /\
  (num' = num <-> forall c, In c cfgs -> b' (c_id c) = false) /\
  (last' = last \/ exists c, In c cfgs /\ c_brittle c = false /\ last' = c_id c) /\
  ((exists c, In c cfgs /\ c_brittle c = false) -> exists c, In c cfgs /\ c_brittle c = false /\ last' = c_id c).
Proof.
  induction cfgs as [|c r IH]; intros b num last b' num' last' N B Hn E.
  - cbn in E. injection E as <- <- <-. split; [intros c []|]. split; [auto|]. split; [lia|]. split; [split; [intros _ c []|auto]|]. split; [left; auto|]. intros (c & [] & _).
  - cbn [map] in N. inversion N as [|? ? Ni Nd]; subst. cbn [fold_left test_step] in E.
    destruct (c_brittle c) eqn:Br.
    + destruct (IH b num last b' num' last' Nd ltac:(intros d Id; apply B; right; auto) Hn E) as (A1 & A2 & A3 & A4 & A5 & A6).
      assert (Bc : b' (c_id c) = false). { rewrite A2 by auto. apply B. left; auto. }
      split; [|split; [|split; [|split; [|split]]]].
      * intros d [<-|Id]; [rewrite Br; exact Bc|auto].
      * intros i Hi. apply A2. intros K. apply Hi. right. auto.
      * exact A3.
      * rewrite A4. split; [intros H d [<-|Id]; auto|intros H d Id; apply H; right; auto].
      * destruct A5 as [A5|(d & D1 & D2)]; [left; auto|right; exists d; split; [right|]; auto].
      * intros (d & [<-|Id] & Bd); [congruence|]. destruct A6 as (e & E1 & E2); [eauto|]. exists e. split; [right|]; auto.
    + set (en := Z.lxor th (nh (c_name c)) mod 3 =? 0) in *.
      assert (Bc : b (c_id c) = false) by (apply B; left; auto).
      rewrite Bc in E. cbn [orb] in E.
      destruct (IH (upd b (c_id c) en) (if en then num + 1 else num) (c_id c) b' num' last' Nd) as (A1 & A2 & A3 & A4 & A5 & A6); auto.
      { intros d Id. rewrite upd_other. apply B; right; auto. intros K. apply Ni. rewrite <- K. apply in_map; auto. }
      { destruct en; lia. }
      assert (Bc2 : b' (c_id c) = en) by (rewrite A2 by auto; apply upd_same).
      assert (L : exists d, In d (c :: r) /\ c_brittle d = false /\ last' = c_id d).
      { destruct A5 as [A5|(d & D1 & D2)]; [exists c; split; [left|]; auto|exists d; split; [right|]; auto]. }
      split; [|split; [|split; [|split; [|split]]]].
      * intros d [<-|Id]; [rewrite Br; exact Bc2|auto].
      * intros i Hi. rewrite A2. apply upd_other. intros K. apply Hi. left. auto. intros K. apply Hi. right. auto.
      * destruct en; lia.
      * split.
        -- intros H d [<-|Id]. rewrite Bc2. destruct en; [lia|reflexivity]. apply A4; auto. destruct en; lia.
        -- intros H. assert (en = false) as Ee by (rewrite <- Bc2; apply H; left; auto). rewrite Ee in A4. apply A4. intros d Id. apply H. right; auto.
      * right. exact L.
      * intros _. exact L.
Qed.

Lemma test_select_spec cfgs th nh b : table_ok cfgs -> (forall i, b i = false) ->
  exists b', test_select cfgs th nh b = Some b' /\
  (forall c, In c cfgs -> c_brittle c = true -> b' (c_id c) = false) /\
  (th mod 11 = 0 -> forall i, b' i = false) /\
  (th mod 11 <> 0 -> (exists c, In c cfgs /\ c_brittle c = false) -> exists c, In c cfgs /\ b' (c_id c) = true).
Proof.
  intros T B. unfold test_select. destruct (Z.eqb_spec (th mod 11) 0) as [E|E].
  - exists b. split; auto. split; auto. split; auto. intros; contradiction.
  - destruct (fold_left (test_step th nh) cfgs (b, 0, num_experiments)) as ((b' & num) & last) eqn:F.
    destruct (test_fold th nh cfgs b 0 num_experiments b' num last) as (A1 & A2 & A3 & A4 & A5 & A6); auto. apply T. lia.
    assert (Rg : forall c, In c cfgs -> c_id c <> num_experiments).
    { intros c I. destruct T as (_ & _ & Fr). rewrite Forall_forall in Fr. specialize (Fr c I). lia. }
    destruct (Z.eqb_spec num 0) as [En|En].
    + assert (Z0 : forall c, In c cfgs -> b' (c_id c) = false) by (apply A4; auto).
      destruct (Z.eqb_spec last num_experiments) as [El|El]; cbn [andb negb].
      * exists b'. split; auto. split. auto. split; [intros; contradiction|].
        intros _ X. destruct (A6 X) as (d & I & _ & Ed). elim (Rg d I). congruence.
      * destruct A5 as [A5|(d & I & Bd & Ed)]; [contradiction|]. rewrite Ed, (Z0 d I).
        eexists. split; [reflexivity|]. split; [|split].
        -- intros c Ic Bc. rewrite upd_other; auto. intros K. assert (c = d) by (apply (NoDup_map_inj c_id cfgs); [apply (proj1 T)| | |]; auto). congruence.
        -- intros; contradiction.
        -- intros _ _. exists d. split; auto. apply upd_same.
    + cbn [andb]. exists b'. split; auto. split; [|split].
      * intros c I Bc. rewrite A1, Bc by auto. reflexivity.
      * intros; contradiction.
      * intros _ _. destruct (existsb (fun c => b' (c_id c)) cfgs) eqn:X.
        -- apply existsb_exists in X as (c & I & X). eauto.
        -- elim En. apply A4. intros c I. destruct (b' (c_id c)) eqn:Y; auto. exfalso. rewrite <- not_true_iff_false in X. apply X. apply existsb_exists. eauto.
Qed.

Lemma force_buf cfgs (b : Z -> bool) c : table_ok cfgs -> In c cfgs ->
  fold_left (fun b c => if c_force c then upd b (c_id c) false else b) cfgs b (c_id c) = negb (c_force c) && b (c_id c).
Proof. intros T I. rewrite fold_table, (exists_config c_force cfgs c T I). destruct (c_force c); reflexivity. Qed.

Lemma experiments_table : table_ok experiments.
Proof.
  split; [|split].
  - repeat (constructor; [cbn; lia|]). constructor.
  - repeat (constructor; [intros H; repeat (destruct H as [H|H]; [vm_compute in H; discriminate|]); exact H|]). constructor.
  - repeat (constructor; [cbn; unfold num_experiments; lia|]). constructor.
Qed.
