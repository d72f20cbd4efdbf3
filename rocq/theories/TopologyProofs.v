(** Lemmas for C59. *)
From Coq Require Import String.
From Verif Require Import Base CpuList CpuListProps Topology TopologySpec.

Lemma all_cpus_In c : In c all_cpus <-> 0 <= c < k_max_cpus.
Proof. unfold all_cpus. rewrite zseq_In. unfold k_max_cpus. lia. Qed.
Lemma all_cpus_opaque : exists l, l = all_cpus.
Proof. eauto. Qed.

Lemma parse_lists f cpus : lists f cpus -> exists text chunk s, f = File text chunk /\ parse_checked text chunk = Some s /\
  (forall c, s c = true <-> cpus c) /\ (forall c, cpus c -> 0 <= c < k_max_cpus).
Proof.
  intros (text & chunk & -> & Hc & [(Ht & No)|(e & l & nl & -> & Hn & F & Hl)]); exists text, chunk || exists (list_text e l ++ nl)%list, chunk.
  - exists (fun _ => false). split; [reflexivity|]. split; [|split; [|intros c H; now apply No in H]].
    + unfold parse_checked. pose proof (cpulist_meaning [] text chunk Hc (Forall_nil _)) as M. cbn [render] in M.
      destruct Ht as [-> | ->]; rewrite M; try reflexivity; cbn; try lia; intros [H|[]]; discriminate.
    + intros c. split; [discriminate|]. intros H. now apply No in H.
  - destruct (cpulist_well_formed e l nl chunk Hc F Hn) as (s & P & Hs). exists s. split; [reflexivity|].
    unfold parse_checked. rewrite P. split; [reflexivity|]. split; [intros c; rewrite Hs, Hl; reflexivity|].
    intros c H. apply Hl in H as (x & Hx & Lx). rewrite Forall_forall in F. specialize (F x Hx).
    destruct x as [t|t u]; cbn in F, Lx.
    + destruct F as ((_ & Fd) & _ & V). pose proof (value_nonneg _ Fd). lia.
    + destruct F as (((_ & Fd) & _ & V) & (_ & _ & W)). pose proof (value_nonneg _ Fd). lia.
Qed.

Lemma assign_spec (s : cpuset) (v : Z) l (m : Z -> Z) c : NoDup l ->
  fold_left (fun m cpu => if s cpu then upd m (cpu + fudge) v else m) l m (c + fudge) =
  if existsb (Z.eqb c) l && s c then v else m (c + fudge).
Proof.
  revert m. induction l as [|x l IH]; intros m N; [reflexivity|]. inversion N as [|? ? Nx Nl]; subst. cbn [fold_left existsb].
  rewrite IH by assumption. destruct (Z.eqb_spec c x) as [->|E].
  - replace (existsb (Z.eqb x) l) with false.
    + cbn. destruct (s x); [now rewrite upd_same|reflexivity].
    + symmetry. apply not_true_iff_false. intros H. apply existsb_exists in H as (y & Hy & Ey). apply Z.eqb_eq in Ey. subst. contradiction.
  - cbn [orb]. destruct (existsb (Z.eqb c) l && s c); [reflexivity|]. destruct (s x); [|reflexivity]. apply upd_other. lia.
Qed.
Lemma assign_cpus_spec s v m c : assign_cpus s v m (c + fudge) = if (0 <=? c) && (c <? k_max_cpus) && s c then v else m (c + fudge).
Proof.
  unfold assign_cpus. rewrite assign_spec by (apply zseq_NoDup).
  replace (existsb (Z.eqb c) all_cpus) with ((0 <=? c) && (c <? k_max_cpus)); [reflexivity|].
  destruct (existsb (Z.eqb c) all_cpus) eqn:E.
  - apply existsb_exists in E as (y & Hy & Ey). apply Z.eqb_eq in Ey. subst. apply all_cpus_In in Hy. unfold k_max_cpus in *. lia.
  - apply not_true_iff_false in E. destruct ((0 <=? c) && (c <? k_max_cpus)) eqn:B; [|reflexivity]. exfalso. apply E.
    apply existsb_exists. exists c. split; [apply all_cpus_In; lia|apply Z.eqb_refl].
Qed.
Lemma any_cpu_spec s : any_cpu s = true <-> exists c, 0 <= c < k_max_cpus /\ s c = true.
Proof.
  unfold any_cpu. rewrite existsb_exists. split; intros (c & H & E); exists c; (split; [|exact E]); apply all_cpus_In; assumption.
Qed.

(** ** Robustness of the NUMA table: whatever the files say *)
Definition parts_ok (num scale : Z) (m : Z -> Z) : Prop := forall i, exists p, 0 <= p < num /\ m i = p * scale.
Lemma upd_parts num scale m i p : parts_ok num scale m -> 0 <= p < num -> parts_ok num scale (upd m i (p * scale)).
Proof. intros H Hp j. unfold upd. destruct (_ =? _); [exists p; tauto|apply H]. Qed.
Lemma assign_parts num scale s p m : 0 <= p < num -> parts_ok num scale m -> parts_ok num scale (assign_cpus s (p * scale) m).
Proof.
  intros Hp. unfold assign_cpus. generalize all_cpus. intros l. revert m. induction l as [|x l IH]; intros m H; [exact H|]. cbn [fold_left].
  apply IH. destruct (s x); [apply upd_parts; assumption|assumption].
Qed.
Lemma node_loop_parts fuel opn num scale : 0 < num -> forall node t t', 
  parts_ok num scale (nt_part t) -> node_loop fuel opn num scale node t = Some t' -> parts_ok num scale (nt_part t').
Proof.
  intros Hn. induction fuel as [|fuel IH]; intros node t t' H E; [discriminate|]. cbn [node_loop] in E.
  destruct (opn node) as [| |text chunk]; [injection E as <-; exact H|discriminate|].
  cbv zeta in E. destruct (shift_one node) as [b|]; [|discriminate]. cbn [obind] in E.
  destruct (_ =? 0).
  - eapply IH; [|exact E]. exact H.
  - destruct (parse_checked text chunk) as [s|]; [|discriminate]. cbn [obind] in E. eapply IH; [|exact E].
    cbn [nt_part]. apply assign_parts; [|exact H]. unfold node_to_partition. apply Z.mod_pos_bound. exact Hn.
Qed.

(** ** A machine of [n] nodes *)
Definition loop_inv (num scale n : Z) (cpus : Z -> Z -> Prop) (bind : bind_mode) (node : Z) (t : numa) : Prop :=
  (forall i c, 0 <= i < node -> cpus i c -> nt_part t (c + fudge) = node_to_partition i num * scale) /\
  (forall c, (forall i, 0 <= i < node -> ~ cpus i c) -> nt_part t (c + fudge) = 0) /\
  (forall p i, 0 <= p < num -> 0 <= i -> Z.testbit (nt_nodes t p) i = ((i <? Z.max 1 node) && (i mod num =? p))) /\
  nt_bind t = bind /\
  (nt_aware t = true <-> exists i c, 0 <= i < node /\ cpus i c /\ i mod num <> 0).

Lemma node_step num scale n (cpus : Z -> Z -> Prop) bind node t text chunk (s : cpuset) :
  2 <= num -> 0 <= node < n -> node < 31 ->
  (forall i j c, 0 <= i < n -> 0 <= j < n -> cpus i c -> cpus j c -> i = j) ->
  loop_inv num scale n cpus bind node t ->
  (forall c, s c = true <-> cpus node c) -> (forall c, cpus node c -> 0 <= c < k_max_cpus) ->
  parse_checked text chunk = Some s ->
  exists t', loop_inv num scale n cpus bind (node + 1) t' /\ 
    forall fuel opn, opn node = File text chunk -> node_loop (S fuel) opn num scale node t = node_loop fuel opn num scale (node + 1) t'.
Proof.
  intros Hnum Hi H31 Dj (I1 & I2 & I3 & I4 & I5) Hs Hb Hp.
  set (nodes := upd (nt_nodes t) (node_to_partition node num) (Z.lor (nt_nodes t (node_to_partition node num)) (2 ^ node))).
  assert (Hnodes : forall p i, 0 <= p < num -> 0 <= i -> Z.testbit (nodes p) i = ((i <? Z.max 1 (node + 1)) && (i mod num =? p))).
  { intros p i Hpp Hii. unfold nodes, node_to_partition, upd. destruct (Z.eqb_spec p (node mod num)) as [->|E].
    - rewrite Z.lor_spec, I3 by lia. rewrite Z.pow2_bits_eqb by lia. destruct (Z.eqb_spec node i) as [->|E].
      + rewrite Z.eqb_refl. replace (i <? Z.max 1 (i + 1)) with true by lia. rewrite orb_true_r. reflexivity.
      + rewrite orb_false_r. destruct (Z.ltb_spec i (Z.max 1 node)); destruct (Z.ltb_spec i (Z.max 1 (node + 1))); try lia; reflexivity.
    - rewrite I3 by lia. destruct (Z.ltb_spec i (Z.max 1 node)); destruct (Z.ltb_spec i (Z.max 1 (node + 1))); try lia; try reflexivity.
      assert (i = node) by lia. subst i. cbn [andb]. symmetry. apply Z.eqb_neq. congruence. }
  assert (Sh : shift_one node = Some (2 ^ node)) by (unfold shift_one; replace (node <? 31) with true by lia; reflexivity).
  destruct (Z.eqb_spec (node_to_partition node num) 0) as [Z0|NZ].
  - exists (mk_numa (nt_part t) nodes (nt_bind t) (nt_aware t) (nt_num t)). split.
    + split; [|split; [|split; [exact Hnodes|split; [exact I4|]]]]; cbn [nt_part nt_aware].
      * intros i c Hic Hc. destruct (Z.eq_dec i node) as [->|]; [|apply I1; [lia|assumption]].
        rewrite Z0. rewrite I2; [lia|]. intros j Hj Hjc. assert (j = node) by (apply (Dj j node c); lia || assumption). lia.
      * intros c Hc. apply I2. intros i Hic. apply Hc. lia.
      * rewrite I5. split; intros (i & c & A & B & C); exists i, c; (split; [|split; assumption]); [lia|].
        destruct (Z.eq_dec i node) as [->|]; [|lia]. unfold node_to_partition in Z0. congruence.
    + intros fuel opn Eo. cbn [node_loop]. rewrite Eo. cbv zeta. rewrite Sh. cbn [obind]. rewrite Z0. cbn [Z.eqb]. unfold nodes. rewrite Z0. reflexivity.
  - exists (mk_numa (assign_cpus s (node_to_partition node num * scale) (nt_part t)) nodes (nt_bind t) (nt_aware t || any_cpu s) (nt_num t)). split.
    + split; [|split; [|split; [exact Hnodes|split; [exact I4|]]]]; cbn [nt_part nt_aware].
      * intros i c Hic Hc. rewrite assign_cpus_spec. destruct (Z.eq_dec i node) as [->|Ne].
        -- pose proof (Hb c Hc). apply Hs in Hc. rewrite Hc. replace (0 <=? c) with true by lia. replace (c <? k_max_cpus) with true by lia. reflexivity.
        -- replace (s c) with false; [rewrite andb_false_r; apply I1; [lia|assumption]|]. symmetry. apply not_true_iff_false. intros Sc. apply Hs in Sc.
           apply Ne. apply (Dj i node c); lia || assumption.
      * intros c Hc. rewrite assign_cpus_spec. replace (s c) with false; [rewrite andb_false_r; apply I2; intros i Hic; apply Hc; lia|].
        symmetry. apply not_true_iff_false. intros Sc. apply Hs in Sc. revert Sc. apply Hc. lia.
      * rewrite orb_true_iff, I5, any_cpu_spec. split.
        -- intros [(i & c & A & B & C)|(c & A & B)]; [exists i, c; split; [lia|tauto]|]. exists node, c. split; [lia|]. split; [apply Hs; assumption|exact NZ].
        -- intros (i & c & A & B & C). destruct (Z.eq_dec i node) as [->|].
           ++ right. exists c. split; [apply Hb; assumption|apply Hs; assumption].
           ++ left. exists i, c. split; [lia|tauto].
    + intros fuel opn Eo. cbn [node_loop]. rewrite Eo. cbv zeta. rewrite Sh. cbn [obind]. destruct (Z.eqb_spec (node_to_partition node num) 0); [contradiction|].
      rewrite Hp. reflexivity.
Qed.

Lemma node_loop_ok num scale n cpus bind opn : 2 <= num -> nodes_are opn n cpus -> n <= 31 ->
  forall k fuel t, Z.of_nat k <= n -> (k < fuel)%nat -> loop_inv num scale n cpus bind (n - Z.of_nat k) t ->
  exists t', node_loop fuel opn num scale (n - Z.of_nat k) t = Some t' /\ loop_inv num scale n cpus bind n t' /\ nt_num t' = n.
Proof.
  intros Hnum (Hn & Hl & He & Dj) H31. induction k as [|k IH]; intros fuel t Hk Hf I; (destruct fuel as [|fuel]; [lia|]).
  - cbn [node_loop]. replace (n - Z.of_nat 0) with n in * by lia. rewrite He. eexists. split; [reflexivity|]. split; [exact I|reflexivity].
  - destruct (parse_lists _ _ (Hl (n - Z.of_nat (S k)) ltac:(lia))) as (text & chunk & s & Eo & Ep & Hs & Hb).
    destruct (node_step num scale n cpus bind (n - Z.of_nat (S k)) t text chunk s Hnum ltac:(lia) ltac:(lia) Dj I Hs Hb Ep) as (t' & I' & St).
    rewrite (St fuel opn Eo). replace (n - Z.of_nat (S k) + 1) with (n - Z.of_nat k) in * by lia. apply IH; [lia|lia|exact I'].
Qed.
