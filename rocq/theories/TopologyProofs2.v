(** Lemmas for C59: the L3 caches. *)
From Verif Require Import Base CpuList CpuListProps Topology TopologySpec TopologyProofs.

Lemma find_first_none s : find_first s = -1 -> forall c, 0 <= c < k_max_cpus -> s c = false.
Proof.
  unfold find_first. destruct (find s all_cpus) as [x|] eqn:E.
  - intros ->. apply find_some in E as (E & _). apply all_cpus_In in E. lia.
  - intros _ c Hc. apply (find_none s all_cpus E). apply all_cpus_In. exact Hc.
Qed.
Lemma find_first_some s : find_first s <> -1 -> 0 <= find_first s < k_max_cpus /\ s (find_first s) = true.
Proof.
  unfold find_first. destruct (find s all_cpus) as [x|] eqn:E; [|congruence]. intros _. apply find_some in E as (E & T). apply all_cpus_In in E. tauto.
Qed.

(** The number of CPUs in a set. *)
Definition card (s : cpuset) : nat := length (filter s all_cpus).
Lemma filter_le {A} (f g : A -> bool) l : (forall x, f x = true -> g x = true) -> (length (filter f l) <= length (filter g l))%nat.
Proof.
  intros H. induction l as [|x l IH]; [reflexivity|]. cbn. destruct (f x) eqn:E; [rewrite (H x E); cbn; lia|]. destruct (g x); cbn; lia.
Qed.
Lemma filter_lt {A} (f g : A -> bool) l y : (forall x, f x = true -> g x = true) -> In y l -> f y = false -> g y = true ->
  (length (filter f l) < length (filter g l))%nat.
Proof.
  intros H. induction l as [|x l IH]; intros Hy Fy Gy; [destruct Hy|]. cbn. destruct Hy as [->|Hy].
  - rewrite Fy, Gy. cbn. pose proof (filter_le f g l H). lia.
  - specialize (IH Hy Fy Gy). destruct (f x) eqn:E; [rewrite (H x E); cbn; lia|]. destruct (g x); cbn; lia.
Qed.
Lemma card_bound s : (card s < cpu_fuel)%nat.
Proof.
  unfold card. apply Nat.le_lt_trans with (length all_cpus); [|unfold all_cpus; rewrite zseq_length; unfold k_max_cpus, cpu_fuel; lia].
  generalize all_cpus. intros l. induction l as [|x l IH]; [reflexivity|]. cbn. destruct (s x); cbn; lia.
Qed.
Lemma card_clear s c (s' : cpuset) : 0 <= c < k_max_cpus -> s c = true -> s' c = false -> (forall x, s' x = true -> s x = true) ->
  (card s' < card s)%nat.
Proof. intros Hc T F H. apply (filter_lt s' s all_cpus c); [exact H|apply all_cpus_In; exact Hc|exact F|exact T]. Qed.
Lemma clear_cpu_spec s c x : clear_cpu s c x = true <-> x <> c /\ s x = true.
Proof. unfold clear_cpu. rewrite andb_true_iff, negb_true_iff, Z.eqb_neq. reflexivity. Qed.

Lemma share_loop_spec fuel : forall first shared todo idx, shared first = false -> (card shared < fuel)%nat ->
  exists todo' idx', share_loop fuel first shared todo idx = Some (todo', idx') /\
    (forall c, todo' c = todo c && negb ((0 <=? c) && (c <? k_max_cpus) && shared c)) /\
    (forall c, idx' c = if (0 <=? c) && (c <? k_max_cpus) && shared c then idx first else idx c).
Proof.
  induction fuel as [|fuel IH]; intros first shared todo idx Hf Hc; [lia|]. cbn [share_loop].
  destruct (Z.eqb_spec (find_first shared) (-1)) as [E|E].
  - exists todo, idx. split; [reflexivity|]. pose proof (find_first_none _ E) as N.
    assert (F : forall c, (0 <=? c) && (c <? k_max_cpus) && shared c = false).
    { intros c. destruct ((0 <=? c) && (c <? k_max_cpus)) eqn:B; [|reflexivity]. cbn. apply N. lia. }
    split; intros c; rewrite F; [cbn; now rewrite andb_true_r|reflexivity].
  - pose proof (find_first_some _ E) as (B & T). set (n := find_first shared) in *. clearbody n.
    assert (Nf : n <> first) by congruence.
    destruct (IH first (clear_cpu shared n) (clear_cpu todo n) (upd idx n (idx first))) as (todo' & idx' & R & P & Q).
    + unfold clear_cpu. rewrite Hf. apply andb_false_r.
    + apply Nat.lt_le_trans with (card shared); [|lia]. apply (card_clear shared n); [exact B|exact T| |].
      * unfold clear_cpu. now rewrite Z.eqb_refl.
      * intros x Hx. apply clear_cpu_spec in Hx. tauto.
    + exists todo', idx'. split; [exact R|]. assert (Uo : upd idx n (idx first) first = idx first) by (apply upd_other; congruence). rewrite Uo in Q. split; intros c; [rewrite P|rewrite Q]; unfold clear_cpu.
      * destruct (Z.eqb_spec c n) as [->|]; cbn [negb andb]; [|reflexivity]. rewrite T.
        replace (0 <=? n) with true by lia. replace (n <? k_max_cpus) with true by lia. cbn. now rewrite andb_false_r.
      * destruct (Z.eqb_spec c n) as [->|Nc]; cbn [negb andb].
        -- rewrite andb_false_r. rewrite upd_same, T. replace (0 <=? n) with true by lia. replace (n <? k_max_cpus) with true by lia. reflexivity.
        -- destruct (_ && shared c); [reflexivity|]. apply upd_other. congruence.
Qed.

Lemma l3_loop_S fuel aarch64 opn todo t : l3_loop (S fuel) aarch64 opn todo t =
    if find_first todo =? -1 then Some t
    else
      match opn (find_first todo) with
      | Enoent => Some (if aarch64 && (cc_count t =? 0) then mk_caches (cc_cpus t) 1 (cc_index t) else t)
      | Open_error => None
      | File text chunk =>
        let? shared := parse_checked text chunk in
        let? (todo, idx) := share_loop cpu_fuel (find_first todo) (clear_cpu shared (find_first todo)) (clear_cpu todo (find_first todo))
          (upd (cc_index t) (find_first todo) (cc_count t mod 256)) in
        l3_loop fuel aarch64 opn todo (mk_caches (cc_cpus t) (cc_count t + 1) idx)
      end.
Proof. reflexivity. Qed.
#[global] Opaque share_loop l3_loop.

(** ** Robustness: whatever the files say *)
Lemma l3_loop_bound fuel aarch64 opn : forall todo t t', 0 <= cc_count t -> (forall c, 0 <= cc_index t c < Z.max 1 (cc_count t)) ->
  l3_loop fuel aarch64 opn todo t = Some t' -> (forall c, 0 <= cc_index t' c < Z.max 1 (cc_count t')) /\ cc_cpus t' = cc_cpus t /\ 0 <= cc_count t'.
Proof.
  induction fuel as [|fuel IH]; intros todo t t' H0 H E; [discriminate|]. rewrite l3_loop_S in E.
  destruct (Z.eqb_spec (find_first todo) (-1)); [injection E as <-; tauto|].
  destruct (opn (find_first todo)) as [| |text chunk]; [|discriminate|].
  - injection E as <-. destruct (aarch64 && (cc_count t =? 0)) eqn:Ea; [|tauto]. cbn. apply andb_true_iff in Ea as (_ & Ea). 
    split; [|split; [reflexivity|lia]]. intros c. specialize (H c). lia.
  - destruct (parse_checked text chunk) as [shared|]; [|discriminate]. cbn [obind] in E.
    destruct (share_loop_spec cpu_fuel (find_first todo) (clear_cpu shared (find_first todo)) (clear_cpu todo (find_first todo))
      (upd (cc_index t) (find_first todo) (cc_count t mod 256))) as (todo' & idx' & R & P & Q).
    + unfold clear_cpu. now rewrite Z.eqb_refl.
    + apply card_bound.
    + rewrite R in E. cbn [obind] in E. apply IH in E; [exact E|cbn; lia|]. cbn [cc_index cc_count]. intros c. rewrite Q.
      pose proof (Z.mod_pos_bound (cc_count t) 256 eq_refl) as Mb. pose proof (Z.mod_le (cc_count t) 256 H0 eq_refl) as Ml.
      assert (G : forall x, 0 <= upd (cc_index t) (find_first todo) (cc_count t mod 256) x < Z.max 1 (cc_count t + 1)).
      { intros x. unfold upd. destruct (_ =? _); [lia|]. specialize (H x). lia. }
      destruct (_ && _); apply G.
Qed.

(** ** A machine whose files are all there *)
Section Machine.
Context (opn : Z -> opened) (aarch64 : bool) (n : Z) (cache : Z -> Z).
Hypothesis Hn : n <= k_max_cpus.
Hypothesis Hc : caches_are opn n cache.
Hypothesis Few : forall l, NoDup l -> (forall v, In v l -> exists c, 0 <= c < n /\ cache c = v) -> Z.of_nat (length l) <= 256.

Definition cinv (todo : cpuset) (t : caches) : Prop :=
  cc_cpus t = n /\
  (forall c, todo c = true -> 0 <= c < n) /\
  (forall a b, 0 <= b < n -> todo a = true -> cache a = cache b -> todo b = true) /\
  (forall a b, 0 <= a < n -> 0 <= b < n -> todo a = false -> todo b = false -> (cc_index t a = cc_index t b <-> cache a = cache b)) /\
  (forall a, 0 <= a < n -> todo a = false -> 0 <= cc_index t a < cc_count t) /\
  exists l, NoDup l /\ (forall v, In v l <-> exists a, 0 <= a < n /\ todo a = false /\ cache a = v) /\ cc_count t = Z.of_nat (length l).

Lemma l3_loop_ok fuel : forall todo t, (card todo < fuel)%nat -> cinv todo t ->
  exists t', l3_loop fuel aarch64 opn todo t = Some t' /\ cinv (fun _ => false) t'.
Proof.
  induction fuel as [|fuel IH]; intros todo t Hf I; [lia|]. destruct I as (I0 & I1 & I2 & I3 & I4 & l & L1 & L2 & L3). rewrite l3_loop_S.
  destruct (Z.eqb_spec (find_first todo) (-1)) as [E|E].
  - exists t. split; [reflexivity|]. pose proof (find_first_none _ E) as N.
    assert (N' : forall c, 0 <= c < n -> todo c = false) by (intros; apply N; lia).
    split; [exact I0|]. split; [discriminate|]. split; [discriminate|]. split; [intros a b Ha Hb _ _; apply I3; auto|].
    split; [intros a Ha _; apply I4; auto|]. exists l. split; [exact L1|]. split; [|exact L3].
    intros v. rewrite L2. split; intros (a & A & B & C); exists a; auto.
  - pose proof (find_first_some _ E) as (B & T). set (f := find_first todo) in *. clearbody f. pose proof (I1 f T) as Hfn.
    destruct (parse_lists _ _ (Hc f Hfn)) as (text & chunk & s & Eo & Ep & Hs & Hb). rewrite Eo, Ep. cbn [obind].
    destruct (share_loop_spec cpu_fuel f (clear_cpu s f) (clear_cpu todo f) (upd (cc_index t) f (cc_count t mod 256))) as (todo' & idx' & R & P & Q).
    { unfold clear_cpu. now rewrite Z.eqb_refl. }
    { apply card_bound. }
    rewrite R. cbn [obind].
    assert (Td : forall c, 0 <= c < n -> todo' c = true <-> todo c = true /\ cache c <> cache f).
    { intros c Hcn. rewrite P. rewrite andb_true_iff, negb_true_iff, clear_cpu_spec. 
      replace (0 <=? c) with true by lia. replace (c <? k_max_cpus) with true by lia. cbn [andb].
      split.
      - intros ((N1 & N2) & N3). split; [exact N2|]. intros Ec. apply not_true_iff_false in N3. apply N3. apply clear_cpu_spec. split; [exact N1|]. apply Hs. tauto.
      - intros (N1 & N2). assert (Ncf : c <> f) by (intros ->; auto). split; [split; assumption|]. apply not_true_iff_false. intros X.
        apply clear_cpu_spec in X as (_ & X). apply Hs in X. tauto. }
    assert (Tr : forall c, todo' c = true -> 0 <= c < n).
    { intros c X. rewrite P in X. apply andb_true_iff in X as (X & _). apply clear_cpu_spec in X as (_ & X). auto. }
    assert (Fr : ~ In (cache f) l).
    { rewrite L2. intros (a & A1 & A2 & A3). pose proof (I2 f a A1 T (eq_sym A3)). congruence. }
    assert (Cnt : Z.of_nat (length (cache f :: l)) <= 256).
    { apply Few; [constructor; assumption|]. intros v [<-|Hv]; [exists f; tauto|]. apply L2 in Hv as (a & A1 & A2 & A3). exists a. tauto. }
    cbn [length] in Cnt.
    assert (Ix : forall c, 0 <= c < n -> idx' c = if cache c =? cache f then cc_count t else cc_index t c).
    { intros c Hcn. rewrite Q. rewrite upd_same. replace (cc_count t mod 256) with (cc_count t) by (symmetry; apply Z.mod_small; lia).
      destruct (Z.eqb_spec (cache c) (cache f)) as [Ec|Ec].
      - destruct (clear_cpu s f c) eqn:Ecl.
        + replace (0 <=? c) with true by lia. replace (c <? k_max_cpus) with true by lia. reflexivity.
        + rewrite andb_false_r. unfold upd. destruct (Z.eqb_spec c f); [reflexivity|]. exfalso. apply not_true_iff_false in Ecl. apply Ecl.
          apply clear_cpu_spec. split; [assumption|]. apply Hs. tauto.
      - replace (clear_cpu s f c) with false; [rewrite andb_false_r; apply upd_other; congruence|]. symmetry. apply not_true_iff_false. intros X.
        apply clear_cpu_spec in X as (_ & X). apply Hs in X. tauto. }
    assert (Done : forall c, 0 <= c < n -> todo' c = false -> cache c <> cache f -> todo c = false).
    { intros c Hcn X Nc. destruct (todo c) eqn:Et; [|reflexivity]. assert (todo' c = true) by (apply Td; [exact Hcn|split; [exact Et|exact Nc]]). congruence. }
    apply IH.
    + apply Nat.lt_le_trans with (card todo); [|lia]. apply (card_clear todo f); [lia|exact T| |].
      * apply not_true_iff_false. intros X. apply Td in X; [|exact Hfn]. tauto.
      * intros x X. pose proof (Tr x X) as Hx. apply Td in X; tauto.
    + split; [exact I0|]. split; [exact Tr|]. split; [|split; [|split]]; cbn [cc_index cc_count].
      * intros a b Hbn Ta Ec. pose proof (Tr a Ta) as Ha. apply Td in Ta; [|exact Ha]. apply Td; [exact Hbn|]. destruct Ta as (Ta & Na). split; [apply (I2 a b); assumption|congruence].
      * intros a b Ha Hbn Ta Tb. rewrite (Ix a Ha), (Ix b Hbn). destruct (Z.eqb_spec (cache a) (cache f)) as [Ea|Ea]; destruct (Z.eqb_spec (cache b) (cache f)) as [Eb|Eb].
        -- split; congruence.
        -- pose proof (I4 b Hbn (Done b Hbn Tb Eb)). split; [lia|congruence].
        -- pose proof (I4 a Ha (Done a Ha Ta Ea)). split; [lia|congruence].
        -- apply I3; [assumption|assumption|apply Done; assumption|apply Done; assumption].
      * intros a Ha Ta. rewrite (Ix a Ha). destruct (Z.eqb_spec (cache a) (cache f)) as [Ea|Ea]; [lia|]. pose proof (I4 a Ha (Done a Ha Ta Ea)). lia.
      * exists (cache f :: l). split; [constructor; assumption|]. split; [|cbn [length]; lia].
        intros v. cbn [In]. rewrite L2. split.
        -- intros [<-|(a & A1 & A2 & A3)].
           ++ exists f. split; [exact Hfn|]. split; [|reflexivity]. apply not_true_iff_false. intros X. apply Td in X; [|exact Hfn]. tauto.
           ++ exists a. split; [exact A1|]. split; [|exact A3]. apply not_true_iff_false. intros X. apply Td in X; [|exact A1]. destruct X. congruence.
        -- intros (a & A1 & A2 & A3). destruct (Z.eq_dec (cache a) (cache f)) as [Ea|Ea]; [left; congruence|]. right. exists a. split; [exact A1|]. split; [apply Done; assumption|exact A3].
Qed.
End Machine.
