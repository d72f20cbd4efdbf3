(** Property C67: what a profile says of each sampled object. *)
From Verif Require Import Base Sampler SamplerProps Figures.

(** ** Specification *)

(** A trace of an object there can be: sizes and weights as in property C28 (below
    2^62) and the estimate within range. *)
Definition trace_ok (t : trace) : Prop :=
  0 <= t_req t < 2 ^ 62 /\ 0 <= t_alloc t < 2 ^ 62 /\ 0 <= t_weight t /\ t_weight t * t_alloc t < 2 ^ 62 * (t_req t + 1).

Lemma wrap_small x : 0 <= x < 2 ^ 64 -> wrap64 x = x.
Proof. intros. unfold wrap64, two64. apply Z.mod_small. lia. Qed.

(** [b] is the whole number nearest to [n / d]. *)
Definition nearest (b n d : Z) : Prop := 2 * Z.abs (d * b - n) <= d.

Lemma div_nearest n d : 0 < d -> nearest ((2 * n + d) / (2 * d)) n d.
Proof.
  intros. unfold nearest. pose proof (Z.div_mod (2 * n + d) (2 * d) ltac:(lia)). pose proof (Z.mod_pos_bound (2 * n + d) (2 * d) ltac:(lia)).
  set (q := (2 * n + d) / (2 * d)) in *. nia.
Qed.

Lemma to_bytes_ok t : trace_ok t -> exists b, to_bytes (allocated_bytes t) = Some b /\ 0 <= b <= 2 ^ 62 /\
  nearest b (t_weight t * t_alloc t) (t_req t + 1).
Proof.
  intros (R & A & W & B). unfold to_bytes, allocated_bytes. rewrite wrap_small by lia.
  replace (t_req t + 1 =? 0) with false by lia. set (n := t_weight t * t_alloc t) in *. set (d := t_req t + 1) in *.
  assert (0 <= n) by (unfold n; nia).
  assert (N : nearest ((2 * n + d) / (2 * d)) n d) by (apply div_nearest; unfold d; lia).
  assert (L : (2 * n + d) / (2 * d) <= 2 ^ 62).
  { apply Z.lt_succ_r. apply Z.div_lt_upper_bound; unfold d in *; lia. }
  assert (0 <= (2 * n + d) / (2 * d)) by (apply Z.div_pos; unfold d in *; lia).
  exists ((2 * n + d) / (2 * d)). replace (_ <? two64) with true by (unfold two64; lia). auto.
Qed.

Lemma count_ok t : trace_ok t -> 0 < t_alloc t -> exists b c, count_of t = Some c /\ 0 <= c /\ 0 <= c * t_alloc t < 2 ^ 64 /\
  0 <= b /\ nearest b (t_weight t * t_alloc t) (t_req t + 1) /\ - t_alloc t < 2 * (c * t_alloc t - b) <= t_alloc t.
Proof.
  intros K P. destruct (to_bytes_ok t K) as (b & E & L & N). destruct K as (R & A & W & B).
  unfold count_of. replace (t_alloc t =? 0) with false by lia. rewrite E. cbn [obind].
  set (a := t_alloc t) in *. pose proof (Z.div_mod a 2 ltac:(lia)). pose proof (Z.mod_pos_bound a 2 ltac:(lia)).
  set (h := a / 2) in *. rewrite wrap_small by lia.
  pose proof (Z.div_mod (b + h) a ltac:(lia)) as D. pose proof (Z.mod_pos_bound (b + h) a ltac:(lia)).
  assert (0 <= (b + h) / a) by (apply Z.div_pos; lia). set (c := (b + h) / a) in *.
  exists b, c. split; [reflexivity|]. repeat split; try lia; try exact N.
Qed.

(** ** Theorems *)

(** The figures of a sampled object: the bytes given are the count times the size of
    the object, and the count is such that no multiple of the size is nearer to the
    estimate weight * allocated / (requested + 1), rounded to a whole number. *)
Theorem figures_nearest : forall t, trace_ok t -> 0 < t_alloc t ->
  exists s estimate, sample_of t = Some s /\
    nearest estimate (t_weight t * t_alloc t) (t_req t + 1) /\
    0 <= s_count s /\ s_sum s = s_count s * t_alloc t /\
    (forall m, Z.abs (s_sum s - estimate) <= Z.abs (m * t_alloc t - estimate)).
Proof.
  intros t K P. destruct (count_ok t K P) as (b & c & E & C & S & B & N & H). unfold sample_of. rewrite E. cbn [obind].
  eexists. exists b. split; [reflexivity|]. cbn. rewrite wrap_small by exact S.
  split; [exact N|]. split; [exact C|]. split; [reflexivity|]. intros m.
  destruct (Z.eq_dec m c) as [->|D]; [lia|]. set (a := t_alloc t) in *.
  destruct (Z_lt_le_dec m c); [assert (m * a <= c * a - a) by nia|assert (c * a + a <= m * a) by nia]; lia.
Qed.
Print Assumptions figures_nearest.

(** An object without bytes of its own counts as one. *)
Theorem figures_empty : forall t, t_alloc t = 0 -> exists s, sample_of t = Some s /\ s_count s = 1 /\ s_sum s = 0.
Proof.
  intros t E. unfold sample_of, count_of. rewrite E. cbn. eexists. split; [reflexivity|]. now cbn.
Qed.
Print Assumptions figures_empty.

Lemma iterate_from_eq l : forall seen, iterate_from l seen = rev seen ++ l.
Proof.
  induction l as [|s l IH]; intros; cbn; [now rewrite app_nil_r|]. rewrite IH. cbn. now rewrite <- app_assoc.
Qed.

Lemma add_traces_eq l : forall b b', add_traces b l = Some b' ->
  exists ss, Forall2 (fun t s => sample_of t = Some s) l ss /\ tab_all b' = rev ss ++ tab_all b /\
    tab_depth b' = tab_depth b + zsum (map t_depth l).
Proof.
  induction l as [|t l IH]; intros b b' E; cbn [add_traces] in E.
  - injection E as <-. exists []. cbn. repeat split; [constructor|lia].
  - unfold add_trace in E. destruct (sample_of t) as [s|] eqn:Es; [|discriminate]. cbn [obind] in E.
    destruct (IH _ _ E) as (ss & F & A & D). exists (s :: ss). cbn [tab_all tab_depth map zsum] in *.
    split; [now constructor|]. split; [rewrite A; cbn; now rewrite <- app_assoc|lia].
Qed.

(** A profile made of any traces lists one sample for each, newest first, with the
    sizes, the attributes and exactly the frames in use of its trace; adding a trace
    that can be never fails. *)
Theorem figures_listed : forall l, (forall t, In t l -> trace_ok t) ->
  exists b, add_traces table0 l = Some b /\ tab_depth b = zsum (map t_depth l) /\
    Forall2 (fun t s => sample_of t = Some s /\ s_req s = t_req t /\ s_alloc s = t_alloc t /\ s_depth s = t_depth t /\
      s_stack s = firstn (Z.to_nat (t_depth t)) (t_stack t) /\ s_attrs s = t_attrs t /\
      (s_access s = ACold <-> t_cold t = true)) l (rev (iterate b)).
Proof.
  intros l K.
  assert (T : forall l, (forall t, In t l -> trace_ok t) -> forall b, exists b', add_traces b l = Some b').
  { clear. induction l as [|t l IH]; intros K b; cbn [add_traces]; [now exists b|].
    assert (exists s, sample_of t = Some s) as (s & Es).
    { destruct (Z.eq_dec (t_alloc t) 0) as [E|N]; [destruct (figures_empty t E) as (s & -> & _); eauto|].
      assert (trace_ok t) as Kt by (apply K; now left). destruct (figures_nearest t Kt) as (s & _ & -> & _); [destruct Kt; lia|eauto]. }
    unfold add_trace. rewrite Es. cbn [obind]. apply IH. intros. apply K. now right. }
  destruct (T l K table0) as (b & E). exists b. split; [exact E|]. destruct (add_traces_eq _ _ _ E) as (ss & F & A & D).
  cbn in D, A. rewrite app_nil_r in A. split; [exact D|]. unfold iterate. rewrite iterate_from_eq, A. cbn [rev app].
  rewrite rev_involutive. clear - F. induction F as [|t s l ss Es F IH]; constructor; [|exact IH]. split; [exact Es|].
  unfold sample_of in Es. destruct (count_of t) as [c|]; [|discriminate]. cbn [obind] in Es. injection Es as <-. cbn.
  repeat split; destruct (t_cold t); congruence.
Qed.
Print Assumptions figures_listed.

(** ** From allocations to profiles *)

(** The allocations [l], of which the [i]-th got [snd] bytes, and the weights the
    sampler returned for them: the traces of those sampled.  Frames and attributes
    are of no concern here. *)
Fixpoint traces_of (l : list (alloc * Z)) (ws : list Z) : list trace :=
  match l, ws with
  | (a, n) :: l, w :: ws => (if w =? 0 then [] else [Tr (size_of a) n w 0 [] false 0]) ++ traces_of l ws
  | _, _ => []
  end.

(** With a sampling interval of 1 a profile is exact: every allocation is in it, as one
    object of the size it got. *)
Theorem figures_exact : forall l ws ds s, Forall every (map fst l) -> (forall a n, In (a, n) l -> 0 <= n < 2 ^ 62) ->
  go sampler0 (map fst l) [] [] = (ws, ds, s) ->
  exists b, add_traces table0 (traces_of l (rev ws)) = Some b /\
    map (fun x => (s_req x, s_alloc x, s_count x, s_sum x)) (rev (iterate b)) =
    map (fun p => (size_of (fst p), snd p, 1, snd p)) l.
Proof.
  intros l ws ds s F B E. rewrite (sampler_interval_one _ _ _ _ F E). clear E ws ds s.
  assert (S : forall a n, In (a, n) l -> 0 <= size_of a < 2 ^ 62).
  { intros a n H. rewrite Forall_forall in F. assert (In a (map fst l)) as I by (apply (in_map fst) in H; exact H). apply F in I.
    destruct I as ((I & _) & _). exact I. }
  set (tr := fun p : alloc * Z => Tr (size_of (fst p)) (snd p) (size_of (fst p) + 1) 0 [] false 0).
  assert (T : traces_of l (map (fun a => size_of a + 1) (map fst l)) = map tr l).
  { clear F B. induction l as [|(a & n) l IH]; [reflexivity|]. cbn [traces_of map fst]. rewrite IH by (intros; eapply S; right; eauto).
    replace (size_of a + 1 =? 0) with false; [reflexivity|]. pose proof (S a n ltac:(now left)). lia. }
  rewrite T. clear T.
  assert (K : forall t, In t (map tr l) -> trace_ok t).
  { intros t I. apply in_map_iff in I. destruct I as ((a & n) & <- & I). pose proof (S _ _ I). pose proof (B _ _ I).
    unfold trace_ok, tr. cbn. nia. }
  destruct (figures_listed _ K) as (b & E & _ & L). exists b. split; [exact E|]. revert L. generalize (rev (iterate b)). clear E b F K.
  induction l as [|(a & n) l IH]; intros ss L; inversion L as [|? x ? ss' (Es & _) L']; subst; [reflexivity|]. cbn [map].
  rewrite (IH ltac:(intros; eapply B; right; eauto) ltac:(intros; eapply S; right; eauto) _ L'). f_equal. clear L L' IH.
  pose proof (S a n ltac:(now left)) as R. pose proof (B a n ltac:(now left)) as N. unfold sample_of, count_of, tr in Es. cbn in Es.
  destruct (n =? 0) eqn:Z0.
  - cbn in Es. injection Es as <-. cbn. repeat f_equal; rewrite ?wrap_small; try destruct n; lia.
  - unfold to_bytes, allocated_bytes in Es. cbn [t_weight t_alloc t_req] in Es. rewrite (wrap_small (size_of a + 1)) in Es by lia.
    replace (size_of a + 1 =? 0) with false in Es by lia.
    replace ((2 * ((size_of a + 1) * n) + (size_of a + 1)) / (2 * (size_of a + 1))) with n in Es
      by (apply Z.div_unique with (r := size_of a + 1); lia).
    replace (n <? two64) with true in Es by (unfold two64; lia). cbn [obind] in Es.
    assert (n / 2 < n /\ 0 <= n / 2) as H by (split; [apply Z.div_lt; lia|apply Z.div_pos; lia]).
    rewrite (wrap_small (n + n / 2)) in Es by lia. replace ((n + n / 2) / n) with 1 in Es by (apply Z.div_unique with (r := n / 2); lia).
    injection Es as <-. cbn [s_req s_alloc s_count s_sum]. replace (1 * n) with n by lia. now rewrite wrap_small by lia.
Qed.
Print Assumptions figures_exact.

Lemma do_alloc_nonneg s a : 0 <= fst (fst (do_alloc s a)).
Proof.
  assert (H : forall s k e, 0 <= fst (fst (record_slow s k e))).
  { clear. intros. unfold record_slow. destruct (if s_init s then _ else _) as ((early & d1) & s1). destruct early; cbn; [lia|].
    destruct (e_int3 e <=? 0); [lia|]. unfold wrap64, two64. apply Z.mod_pos_bound. lia. }
  destruct a as [k m e|k e]; unfold do_alloc, record_small, record, recorded_fast; destruct (try_fast s k) as (ok & s1).
  - destruct (negb ok || m); [destruct (s_bytes s1 <? 0); [apply H|cbn; lia]|cbn; lia].
  - destruct ok; [cbn; lia|apply H].
Qed.

Lemma go_weights l : forall s ws ds ws' ds' s', go s l ws ds = (ws', ds', s') ->
  length ws' = (length l + length ws)%nat /\ (Forall (fun w => 0 <= w) ws -> Forall (fun w => 0 <= w) ws').
Proof.
  induction l as [|a l IH]; intros s ws ds ws' ds' s' E; cbn [go] in E.
  - injection E as <- _ _. split; auto.
  - pose proof (do_alloc_nonneg s a) as N. destruct (do_alloc s a) as ((w & d) & s1). destruct (IH _ _ _ _ _ _ E) as (L & F).
    cbn [length] in *. split; [lia|]. intros. apply F. constructor; [exact N|assumption].
Qed.

Lemma zsum_rev l : zsum (rev l) = zsum l.
Proof. induction l as [|x l IH]; [reflexivity|]. cbn [rev zsum]. rewrite zsum_app, IH. cbn. lia. Qed.

Lemma traces_weights n l : forall ws, length ws = length l ->
  zsum (map t_weight (traces_of (map (fun x => (x, n)) l) ws)) = zsum ws.
Proof.
  induction l as [|a l IH]; intros [|w ws] L; try discriminate; [reflexivity|]. cbn [map traces_of zsum]. injection L as L.
  rewrite map_app, zsum_app, (IH _ L). destruct (w =? 0) eqn:E; cbn; lia.
Qed.

Lemma traces_in r n l : (forall x, In x l -> size_of x = r) -> forall ws t, In t (traces_of (map (fun x => (x, n)) l) ws) ->
  t_req t = r /\ t_alloc t = n /\ In (t_weight t) ws.
Proof.
  induction l as [|a l IH]; intros S [|w ws] t I; try (cbn in I; contradiction). cbn [map traces_of] in I. apply in_app_iff in I.
  destruct I as [I|I].
  - destruct (w =? 0); cbn in I; [contradiction|]. destruct I as [<-|[]]. cbn. split; [apply S; now left|]. auto.
  - destruct (IH ltac:(intros; apply S; now right) _ _ I) as (A & B & C). cbn. auto.
Qed.

(** A program that makes any number of allocations of [r] bytes, which get [n] bytes
    each: however the sampling points fall and the interval changes, the bytes in its
    allocation profile are those it was given, all of them, up to the luck of the draws
    ([drift], with mean zero, and the bytes since the last draw, property C28) and to
    (n + 1) / 2 bytes for each sample. *)
Theorem figures_uniform : forall r n a0 l ws ds s, Forall alloc_ok (a0 :: l) -> (forall x, In x (a0 :: l) -> size_of x = r) ->
  0 < n < 2 ^ 62 -> go sampler0 (a0 :: l) [] [] = (ws, ds, s) -> (forall w, In w ws -> w * n < 2 ^ 62 * (r + 1)) ->
  exists b T gap done, add_traces table0 (traces_of (map (fun x => (x, n)) (a0 :: l)) (rev ws)) = Some b /\
    ds = (T, gap) :: done /\
    2 * Z.abs ((r + 1) * zsum (map s_sum (iterate b)) -
               n * ((r + 1) * Z.of_nat (length (a0 :: l)) + drift done - (gap - s_bytes s)))
    <= Z.of_nat (length (iterate b)) * ((r + 1) * (n + 1)).
Proof.
  intros r n a0 l ws ds s F S N E W. destruct (sampler_accounts _ _ _ _ _ F E) as (T & gap & done & D & _ & _ & A).
  destruct (go_weights _ _ _ _ _ _ _ E) as (L & P). specialize (P (Forall_nil _)). rewrite Forall_forall in P.
  assert (R : 0 <= r < 2 ^ 62).
  { inversion F as [|? ? (H & _) _]; subst. rewrite (S a0) in H by now left. exact H. }
  remember (a0 :: l) as al. cbn [length] in L. rewrite Nat.add_0_r in L.
  assert (C : counted al = (r + 1) * Z.of_nat (length al)).
  { unfold counted. clear - S. induction al as [|x al IH]; [cbn; lia|]. cbn [map zsum length]. rewrite IH by (intros; apply S; now right).
    rewrite (S x) by now left. lia. }
  set (tl := traces_of (map (fun x => (x, n)) al) (rev ws)).
  assert (Q : zsum (map t_weight tl) = zsum ws).
  { unfold tl. rewrite traces_weights by (rewrite rev_length; exact L). apply zsum_rev. }
  assert (I : forall t, In t tl -> t_req t = r /\ t_alloc t = n /\ 0 <= t_weight t /\ t_weight t * n < 2 ^ 62 * (r + 1)).
  { intros t H. destruct (traces_in r n al S _ _ H) as (H1 & H2 & H3). rewrite <- in_rev in H3. auto. }
  assert (K : forall t, In t tl -> trace_ok t).
  { intros t H. destruct (I t H) as (H1 & H2 & H3 & H4). unfold trace_ok. rewrite H1, H2. lia. }
  destruct (figures_listed tl K) as (b & Eb & _ & L2). exists b, T, gap, done. split; [exact Eb|]. split; [exact D|].
  rewrite <- C. replace (counted al + drift done - (gap - s_bytes s)) with (zsum ws) by lia.
  assert (Z1 : zsum (map s_sum (iterate b)) = zsum (map s_sum (rev (iterate b)))) by (rewrite map_rev, zsum_rev; reflexivity).
  rewrite Z1, <- (rev_length (iterate b)), <- Q. clear Z1 Q Eb D E A. revert L2 I K. generalize (rev (iterate b)) as ss. generalize tl as tt.
  clear - N R. induction tt as [|t tt IH]; intros ss L2 I K; inversion L2 as [|? x ? ss' (Es & _) L2']; subst; [cbn; lia|].
  specialize (IH ss' L2' ltac:(intros; apply I; now right) ltac:(intros; apply K; now right)). cbn [map zsum length].
  destruct (I t ltac:(now left)) as (H1 & H2 & H3 & H4). destruct (count_ok t (K t ltac:(now left)) ltac:(lia)) as (e & c & Ec & C & Sc & _ & Ne & H).
  unfold sample_of in Es. rewrite Ec in Es. cbn [obind] in Es. injection Es as <-. cbn [s_sum]. rewrite wrap_small by exact Sc.
  rewrite H1, H2 in *. unfold nearest in Ne. set (cn := c * n) in *. set (w := t_weight t) in *.
  assert (2 * Z.abs ((r + 1) * cn - n * w) <= (r + 1) * (n + 1)).
  { assert (2 * Z.abs ((r + 1) * cn - (r + 1) * e) <= (r + 1) * n).
    { rewrite <- Z.mul_sub_distr_l, Z.abs_mul, (Z.abs_eq (r + 1)) by lia. nia. }
    lia. }
  rewrite Nat2Z.inj_succ. set (X := zsum (map s_sum ss')) in *. set (Y := zsum (map t_weight tt)) in *.
  replace ((r + 1) * (cn + X) - n * (w + Y)) with (((r + 1) * cn - n * w) + ((r + 1) * X - n * Y)) by lia.
  set (U := (r + 1) * (n + 1)) in *. lia.
Qed.
Print Assumptions figures_uniform.

(** The rounding does not even out: there are histories of any length in which every
    sample stands for 1.4 objects and is reported as one. *)
Definition ex_round (i : nat) : list alloc := repeat (ALarge 9 (SEnv 5 1 5 1 5)) i.
Theorem figures_rounding_refuted : forall i, exists ws ds s b, go sampler0 (ex_round i) [] [] = (ws, ds, s) /\
  Forall alloc_ok (ex_round i) /\ zsum ws = 14 * Z.of_nat i /\
  add_traces table0 (traces_of (map (fun x => (x, 10)) (ex_round i)) (rev ws)) = Some b /\
  zsum (map s_sum (iterate b)) = 10 * Z.of_nat i.
Proof.
  intros i.
  assert (G : forall j s ws ds, ready s -> s_interval s = 5 -> s_bytes s = 0 -> exists ds' s', go s (ex_round j) ws ds = (repeat 14 j ++ ws, ds', s')).
  { clear. induction j as [|j IH]; intros s ws ds R H1 H2; [cbn; eauto|]. cbn [ex_round repeat go].
    rewrite do_alloc_ready; [|exact R|unfold alloc_ok, env_ok, ssize_max; cbn; lia]. cbn [size_of env_of e_int2 e_geo2]. rewrite H1, H2.
    change (0 <? 9 + 1) with true. cbn iota. change (pick 5 1) with 0.
    destruct (IH (Sampler 5 true 0) (5 + 9 - 0 :: ws) ([(5, 0)] ++ ds)) as (ds' & s' & E);
      [unfold ready, ssize_max; cbn; lia|reflexivity|reflexivity|]. unfold ex_round in E. rewrite E. exists ds', s'.
    f_equal. f_equal. change (5 + 9 - 0) with 14. clear. induction j as [|j IH]; [reflexivity|]. cbn. now rewrite IH. }
  assert (G0 : exists ds s, go sampler0 (ex_round i) [] [] = (repeat 14 i, ds, s)).
  { destruct i as [|i]; [cbn; eauto|]. cbn [ex_round repeat go].
    change (do_alloc sampler0 (ALarge 9 (SEnv 5 1 5 1 5))) with (14, [(5, 0); (5, 0)], Sampler 5 true 0).
    destruct (G i (Sampler 5 true 0) [14] ([(5, 0); (5, 0)] ++ [])) as (ds' & s' & E); [unfold ready, ssize_max; cbn; lia|reflexivity|reflexivity|].
    unfold ex_round in E. rewrite E. exists ds', s'. f_equal. f_equal. clear. induction i as [|i IH]; [reflexivity|]. cbn. now rewrite IH. }
  destruct G0 as (ds & s & E). exists (repeat 14 i), ds, s.
  assert (RV : rev (repeat 14 i) = repeat 14 i).
  { clear. assert (H : forall j, repeat 14 j ++ [14] = 14 :: repeat 14 j) by (induction j as [|j IH]; [reflexivity|]; cbn; now rewrite IH).
    induction i as [|i IH]; [reflexivity|]. cbn [repeat rev]. rewrite IH. apply H. }
  rewrite RV. set (t := Tr 9 10 14 0 [] false 0).
  assert (TR : traces_of (map (fun x => (x, 10)) (ex_round i)) (repeat 14 i) = repeat t i).
  { clear. induction i as [|i IH]; [reflexivity|]. unfold ex_round in *. cbn [repeat map traces_of]. rewrite IH. reflexivity. }
  rewrite TR.
  destruct (figures_listed (repeat t i)) as (b & Eb & _ & L).
  { intros x I. apply repeat_spec in I. subst. unfold trace_ok. cbn. lia. }
  exists b. split; [exact E|]. split.
  { apply Forall_forall. intros x I. apply repeat_spec in I. subst. unfold alloc_ok, env_ok, ssize_max. cbn. lia. }
  split. { clear. induction i as [|i IH]; [reflexivity|]. cbn [repeat zsum]. rewrite IH. lia. }
  split; [exact Eb|]. rewrite <- (zsum_rev (map s_sum (iterate b))), <- map_rev. revert L. generalize (rev (iterate b)). clear.
  induction i as [|i IH]; intros ss L; inversion L as [|? x ? ss' (Es & _) L']; subst; [reflexivity|]. cbn [map zsum]. rewrite (IH _ L').
  assert (s_sum x = 10) as -> by (vm_compute in Es; injection Es as <-; reflexivity). lia.
Qed.
Print Assumptions figures_rounding_refuted.

(** ** Concrete cases *)
(** 100 bytes requested, 112 given, weight 524388 (interval 512 KiB): 5192 objects. *)
Example ex_sample : option_map (fun s => (s_count s, s_sum s)) (sample_of (Tr 100 112 524388 3 [7; 8; 9; 0; 0] true 4)) = Some (5192, 581504).
Proof. reflexivity. Qed.
Example ex_trace_ok : trace_ok (Tr 100 112 524388 3 [7; 8; 9; 0; 0] true 4).
Proof. unfold trace_ok. cbn. lia. Qed.
Example ex_table : option_map (fun b => map (fun s => (s_req s, s_count s, s_stack s, s_access s)) (iterate b))
  (add_traces table0 [Tr 100 112 524388 3 [7; 8; 9; 0; 0] true 4; Tr 0 0 524289 2 [7; 1; 0; 0; 0] false 5]) =
  Some [(0, 1, [7; 1], AHot); (100, 5192, [7; 8; 9], ACold)].
Proof. reflexivity. Qed.
(** Three allocations at interval 1. *)
Definition ex_every : list (alloc * Z) :=
  [(ALarge 100 (SEnv 1 0 1 0 1), 112); (ASmall 8 false (SEnv 1 0 1 0 1), 8); (ASmall 0 true (SEnv 1 0 1 0 1), 0)].
Example ex_every_ok : Forall every (map fst ex_every).
Proof. repeat constructor; cbn; unfold ssize_max; lia. Qed.
(** Five allocations of 9 bytes with changing intervals; two are sampled. *)
Definition ex_uni : list alloc :=
  [ALarge 9 (SEnv 16 13 20 25 20); ASmall 9 false (SEnv 20 0 20 25 20); ASmall 9 true (SEnv 20 0 20 25 20); ALarge 9 (SEnv 20 0 20 25 20); ALarge 9 (SEnv 20 0 20 25 20)].
Example ex_uni_weights : fst (fst (go sampler0 ex_uni [] [])) = [25; 0; 0; 23; 0].
Proof. reflexivity. Qed.
Example ex_uni_ok : Forall alloc_ok ex_uni.
Proof. repeat constructor; cbn; unfold ssize_max; lia. Qed.
