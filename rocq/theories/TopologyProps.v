(** Property C59: the NUMA partition and the L3 cache of every CPU are those sysfs
    describes. *)
From Coq Require Import String.
From Verif Require Import Base CpuList CpuListProps Topology TopologySpec TopologyProofs TopologyProofs2.

Lemma asks_env e want on bind : asks e want on bind -> numa_env e want BindAdvisory = Some (on, bind).
Proof. intros []; reflexivity. Qed.

(** On a machine with up to 31 nodes, each with any CPUs (or none), however the reads of
    its files are split: the partition of a CPU is its node's number modulo the number of
    partitions; a CPU of no node, and the two pseudo-CPUs -1 and -2 that stand for "no rseq",
    are in partition 0; the nodes of a partition are those whose number has that remainder
    (and always node 0 for partition 0); awareness is on exactly if it was asked for and
    some node outside partition 0 has a CPU; and then, and only then, does an
    allocation's partition depend on its CPU. *)
Theorem numa_topology : forall num scale opn n cpus e want on bind ncpu,
  1 <= num -> 1 <= scale -> nodes_are opn n cpus -> n <= 31 -> asks e want on bind -> ncpu <= 2048 ->
  exists t, topology_init num scale opn true (Some ncpu) e want = Some t /\
    let parts := Z.max 2 num in
    (forall i c, 0 <= i < n -> cpus i c -> cpu_partition t c = i mod parts /\ cpu_scaled_partition t c = (i mod parts) * scale) /\
    (forall c, (forall i, 0 <= i < n -> ~ cpus i c) -> cpu_partition t c = 0) /\
    (forall p i, 0 <= p < parts -> 0 <= i -> Z.testbit (partition_nodes t p) i = true <-> (i = 0 \/ i < n) /\ i mod parts = p) /\
    nt_num (tp_numa t) = n /\ nt_bind (tp_numa t) = bind /\
    (numa_aware t = true <-> 2 <= num /\ on = true /\ exists i c, 0 <= i < n /\ cpus i c /\ i mod parts <> 0) /\
    active_partitions t = (if numa_aware t then parts else 1) /\
    (forall c, current_partition t c = if numa_aware t then cpu_partition t c else 0) /\
    (forall c, current_scaled_partition t c = if numa_aware t then cpu_scaled_partition t c else 0).
Proof.
  intros num scale opn n cpus e want on bind ncpu Hnum Hsc Hm H31 Ha Hcpu. pose proof Hm as (H0 & _).
  set (P := internal_partitions num). assert (HP : 2 <= P) by (unfold P, internal_partitions; lia).
  destruct (node_loop_ok P scale n cpus bind opn HP Hm H31 (Z.to_nat n) 40
    (mk_numa (fun _ => 0) (upd (fun _ => 0) (node_to_partition 0 P) 1) bind false 1)) as (t & E & (I1 & I2 & I3 & I4 & I5) & I6); [lia|lia| |].
  { replace (n - Z.of_nat (Z.to_nat n)) with 0 by lia. split; [intros; lia|]. split; [reflexivity|]. split; [|split; [reflexivity|]].
    - intros p i Hp Hi. cbn [nt_nodes]. unfold node_to_partition, upd. rewrite Z.mod_0_l by lia.
      destruct (Z.eqb_spec p 0) as [->|Np].
      + replace (Z.max 1 0) with 1 by lia. destruct (Z.eq_dec i 0) as [->|Ni]; [rewrite Z.mod_0_l by lia; reflexivity|].
        replace (i <? 1) with false by lia. change 1 with (2 ^ 0). rewrite Z.pow2_bits_eqb by lia. cbn [andb]. lia.
      + rewrite Z.bits_0. destruct (Z.ltb_spec i (Z.max 1 0)); [|reflexivity]. replace i with 0 by lia. rewrite Z.mod_0_l by lia. cbn [andb]. lia.
    - cbn. split; [discriminate|]. intros (i & c & A & _). lia. }
  replace (n - Z.of_nat (Z.to_nat n)) with 0 in E by lia.
  unfold topology_init, init_numa. fold P. cbn [negb]. rewrite (asks_env _ _ _ _ Ha). cbn [obind].
  replace (ncpu <=? k_max_cpus) with true by (unfold k_max_cpus; lia). rewrite E. cbn [obind nt_aware nt_part nt_nodes nt_bind nt_num].
  eexists. split; [reflexivity|]. cbv zeta. change (Z.max 2 num) with P.
  assert (Sc : forall i, node_to_partition i P * scale / scale = i mod P) by (intros i; unfold node_to_partition; apply Z.div_mul; lia).
  unfold cpu_partition, cpu_scaled_partition, partition_nodes, numa_aware, active_partitions, current_partition, current_scaled_partition, numa_aware.
  cbn [tp_num tp_scale tp_numa tp_gated nt_part nt_nodes nt_bind nt_num nt_aware]. fold P.
  split; [|split; [|split; [|split; [|split; [|split; [|split; [|split]]]]]]].
  - intros i c Hi Hc. rewrite (I1 i c Hi Hc). split; [apply Sc|reflexivity].
  - intros c Hc. rewrite (I2 c Hc). reflexivity.
  - intros p i Hp Hi. rewrite (I3 p i Hp Hi). rewrite andb_true_iff, Z.ltb_lt, Z.eqb_eq. split; intros (A & B); (split; [lia|exact B]).
  - exact I6.
  - exact I4.
  - rewrite !andb_true_iff, I5, Z.ltb_lt. split; intros (A & B & C); (split; [lia|]); (split; [exact B|exact C]).
  - reflexivity.
  - intros c. destruct (Z.eqb_spec num 1) as [->|]; [reflexivity|]. destruct (_ && _); [reflexivity|]. apply Z.div_0_l. lia.
  - intros c. destruct (Z.eqb_spec num 1) as [->|]; [reflexivity|]. destruct (_ && _); reflexivity.
Qed.
Print Assumptions numa_topology.

(** Whatever the files contain, if initialization returns then no CPU gets a partition
    that does not exist, nor one that is not active. *)
Theorem numa_partitions_exist : forall num scale opn fast ncpu e want t,
  1 <= num -> 1 <= scale -> topology_init num scale opn fast ncpu e want = Some t ->
  forall c, 0 <= cpu_partition t c < Z.max 2 num /\ cpu_scaled_partition t c = cpu_partition t c * scale /\
    0 <= current_partition t c < active_partitions t /\ current_scaled_partition t c = current_partition t c * scale.
Proof.
  intros num scale opn fast ncpu e want t Hnum Hsc E c. unfold topology_init in E.
  destruct (init_numa opn fast ncpu e want (internal_partitions num) scale) as [u|] eqn:Ei; [|discriminate]. cbn [obind] in E. injection E as <-.
  assert (HP : parts_ok (internal_partitions num) scale (nt_part u)).
  { assert (Z0 : parts_ok (internal_partitions num) scale (fun _ => 0)) by (intros i; exists 0; unfold internal_partitions; split; lia).
    unfold init_numa in Ei. destruct fast; cbn [negb] in Ei; [|injection Ei as <-; exact Z0].
    destruct (numa_env e want BindAdvisory) as [(on & bind)|]; [|discriminate]. cbn [obind] in Ei. destruct ncpu as [k|]; [|discriminate]. cbn [obind] in Ei.
    destruct (k <=? k_max_cpus); [|discriminate].
    destruct (node_loop _ _ _ _ _ _) as [v|] eqn:El; [|discriminate]. cbn [obind] in Ei. injection Ei as <-. cbn [nt_part].
    refine (node_loop_parts _ _ _ _ _ _ _ _ _ El); [unfold internal_partitions; lia|exact Z0]. }
  destruct (HP (c + fudge)) as (p & Bp & Ep).
  unfold cpu_partition, cpu_scaled_partition, active_partitions, current_partition, current_scaled_partition, numa_aware.
  cbn [tp_num tp_scale tp_numa tp_gated]. rewrite Ep, Z.div_mul by lia. unfold internal_partitions in *.
  split; [exact Bp|]. split; [reflexivity|].
  destruct (Z.eqb_spec num 1) as [->|N]; [cbn [Z.ltb Z.compare Pos.compare Pos.compare_cont andb]; lia|]. replace (1 <? num) with true by lia. cbn [andb].
  destruct (nt_aware u); [rewrite Ep, Z.div_mul by lia; lia|]. rewrite Z.div_0_l by lia. lia.
Qed.
Print Assumptions numa_partitions_exist.

(** Finding: with 32 nodes (numbers 0 to 31) partition 1 claims all the nodes from 31 to
    63, because [1 << 31] is a negative [int]; from 33 nodes on the shift is undefined. *)
Theorem numa_many_nodes_refuted :
  (exists opn cpus t, nodes_are opn 32 cpus /\
     topology_init 2 1 opn true (Some 1) None true = Some t /\ Z.testbit (partition_nodes t 1) 40 = true /\ nt_num (tp_numa t) = 32) /\
  (exists opn cpus, nodes_are opn 33 cpus /\ topology_init 2 1 opn true (Some 1) None true = None).
Proof.
  assert (L : forall k, 0 <= k -> nodes_are (fun i => if i <? k then File [] (fun _ => 0) else Enoent) k (fun _ _ => False)).
  { intros k Hk. split; [exact Hk|]. split; [|split; [|tauto]].
    - intros i Hi. cbv beta. replace (i <? k) with true by lia. exists [], (fun _ => 0). split; [reflexivity|]. split; [intros; lia|]. left. tauto.
    - cbv beta. replace (k <? k) with false by lia. reflexivity. }
  split.
  - do 3 eexists. split; [apply (L 32); lia|]. split; [vm_compute; reflexivity|]. split; reflexivity.
  - do 2 eexists. split; [apply (L 33); lia|]. vm_compute. reflexivity.
Qed.
Print Assumptions numa_many_nodes_refuted.

(** On a machine with up to 256 L3 caches whose files are all present: two CPUs have the
    same index exactly if they share their L3 cache, every index is below the number of
    caches, and that number is right. *)
Theorem cache_topology : forall aarch64 opn n cache, 0 <= n <= 2048 -> caches_are opn n cache ->
  (forall l, NoDup l -> (forall v, In v l -> exists c, 0 <= c < n /\ cache c = v) -> Z.of_nat (length l) <= 256) ->
  exists t, init_caches aarch64 opn (Some n) = Some t /\
    (forall c, 0 <= c < n -> exists i, l3_of_cpu t c = Some i /\ 0 <= i < cc_count t) /\
    (forall a b, 0 <= a < n -> 0 <= b < n -> l3_of_cpu t a = l3_of_cpu t b <-> cache a = cache b) /\
    (exists l, NoDup l /\ (forall v, In v l <-> exists c, 0 <= c < n /\ cache c = v) /\ cc_count t = Z.of_nat (length l)).
Proof.
  intros aarch64 opn n cache Hn Hc Few.
  destruct (l3_loop_ok opn aarch64 n cache ltac:(unfold k_max_cpus; lia) Hc Few cpu_fuel (fun c => (0 <=? c) && (c <? n)) (mk_caches n 0 (fun _ => 0)))
    as (t & E & (I0 & _ & _ & I3 & I4 & l & L1 & L2 & L3)).
  { apply card_bound. }
  { split; [reflexivity|]. split; [intros c; lia|]. split; [intros a b; lia|]. split; [intros a b; lia|]. split; [intros a; lia|].
    exists []. split; [constructor|]. split; [|reflexivity]. intros v. split; [intros []|]. intros (a & A1 & A2 & _). lia. }
  exists t. split; [exact E|].
  assert (G : forall c, 0 <= c < n -> l3_of_cpu t c = Some (cc_index t c)).
  { intros c Hcn. unfold l3_of_cpu. pose proof (I4 c Hcn eq_refl). rewrite I0. replace (0 <=? c) with true by lia. replace (c <? n) with true by lia.
    replace (cc_index t c <? cc_count t) with true by lia. reflexivity. }
  split; [|split].
  - intros c Hcn. exists (cc_index t c). split; [apply G; exact Hcn|apply I4; [exact Hcn|reflexivity]].
  - intros a b Ha Hb. rewrite (G a Ha), (G b Hb), <- (I3 a b Ha Hb eq_refl eq_refl). split; congruence.
  - exists l. split; [exact L1|]. split; [|exact L3]. intros v. rewrite L2. split; intros (a & A); exists a; tauto.
Qed.
Print Assumptions cache_topology.

(** Whatever the files contain, if initialization returns then every index is below the
    number of caches, provided that number is not 0. *)
Theorem cache_index_bound : forall aarch64 opn ncpu t, init_caches aarch64 opn ncpu = Some t ->
  1 <= cc_count t -> forall c, 0 <= cc_index t c < cc_count t.
Proof.
  intros aarch64 opn [n|] t E H1 c; cbn [init_caches] in E.
  - apply l3_loop_bound in E; [|cbn; lia|cbn; intros; lia]. destruct E as (E & _ & _). specialize (E c). lia.
  - injection E as <-. cbn in *. lia.
Qed.
Print Assumptions cache_index_bound.

(** The text of a number below 1000, in three digits. *)
Definition three_digits (c : Z) : list Z := [48 + c / 100; 48 + (c / 10) mod 10; 48 + c mod 10].
Lemma lists_one c : 0 <= c < 1000 -> lists (File (three_digits c) (fun _ => 16)) (fun d => d = c).
Proof.
  intros Hc. exists (three_digits c), (fun _ => 16). split; [reflexivity|]. split; [intros; lia|]. right.
  assert (V : value (three_digits c) = c).
  { unfold value, three_digits. cbn [fold_left]. pose proof (Z.div_mod c 10 ltac:(lia)). pose proof (Z.div_mod (c / 10) 10 ltac:(lia)).
    rewrite Z.div_div in H0 by lia. change (10 * 10) with 100 in H0. lia. }
  exists (One (three_digits c)), [], []. split; [reflexivity|]. split; [left; reflexivity|]. split.
  - constructor; [|constructor]. split; [split; [discriminate|]|].
    + pose proof (Z.mod_pos_bound c 10 eq_refl). pose proof (Z.mod_pos_bound (c / 10) 10 eq_refl).
      assert (0 <= c / 100 <= 9) by (split; [apply Z.div_pos; lia|apply Z.lt_succ_r, Z.div_lt_upper_bound; lia]).
      unfold three_digits. constructor; [lia|]. constructor; [lia|]. constructor; [lia|]. constructor.
    + split; [cbn; lia|]. rewrite V. unfold k_max_cpus. lia.
  - intros d. cbn [In]. split; [intros ->; exists (One (three_digits c)); cbn [listed]; rewrite V; tauto|].
    intros (x & [<-|[]] & H). cbn [listed] in H. rewrite V in H. exact H.
Qed.

Definition same_l3 (t : caches) (a b : Z) : bool :=
  match l3_of_cpu t a, l3_of_cpu t b with Some x, Some y => x =? y | _, _ => false end.
Lemma run_same o a b : (match o with Some t => same_l3 t a b | None => false end) = true -> exists t, o = Some t /\ l3_of_cpu t a = l3_of_cpu t b.
Proof.
  destruct o as [t|]; [|discriminate]. intros H. exists t. split; [reflexivity|]. unfold same_l3 in H.
  destruct (l3_of_cpu t a), (l3_of_cpu t b); try discriminate. apply Z.eqb_eq in H. congruence.
Qed.

(** Findings.  With 257 caches the 8-bit index wraps and two CPUs that share no cache get
    the same index.  When the file of one CPU is missing (CPUs that are offline have
    none), the CPUs after it keep index 0.  When that of CPU 0 is missing (and the
    processor is not an AArch64) the number of caches is 0 and no CPU has an index. *)
Theorem cache_topology_refuted :
  (exists opn t, caches_are opn 257 (fun c => c) /\ init_caches false opn (Some 257) = Some t /\ l3_of_cpu t 0 = l3_of_cpu t 256) /\
  (exists opn t, (forall c, c = 0 \/ c = 2 -> lists (opn c) (fun d => d = c)) /\ opn 1 = Enoent /\
     init_caches false opn (Some 3) = Some t /\ l3_of_cpu t 0 = l3_of_cpu t 2) /\
  (exists t, init_caches false (fun _ => Enoent) (Some 4) = Some t /\ cc_count t = 0 /\ forall c, l3_of_cpu t c = None).
Proof.
  split; [|split].
  - destruct (run_same (init_caches false (fun c => File (three_digits c) (fun _ => 16)) (Some 257)) 0 256) as (t & E1 & E2); [vm_compute; reflexivity|].
    exists (fun c => File (three_digits c) (fun _ => 16)), t. split; [|split; [exact E1|exact E2]].
    intros c Hc. cbv beta. destruct (lists_one c ltac:(lia)) as (text & chunk & A & B & [(_ & D)|(e & l & nl & D1 & D2 & D3 & D4)]); [exfalso; now apply (D c)|].
    exists text, chunk. split; [exact A|]. split; [exact B|]. right. exists e, l, nl. split; [exact D1|]. split; [exact D2|]. split; [exact D3|].
    intros d. rewrite <- D4. split; [tauto|]. intros ->. split; [lia|reflexivity].
  - destruct (run_same (init_caches false (fun c => if c =? 1 then Enoent else File (three_digits c) (fun _ => 16)) (Some 3)) 0 2) as (t & E1 & E2); [vm_compute; reflexivity|].
    exists (fun c => if c =? 1 then Enoent else File (three_digits c) (fun _ => 16)), t.
    split; [intros c [-> | ->]; apply lists_one; lia|]. split; [reflexivity|]. split; [exact E1|exact E2].
  - eexists. split; [vm_compute; reflexivity|]. split; [reflexivity|]. intros c. unfold l3_of_cpu. cbn [cc_cpus cc_count cc_index].
    rewrite Z.ltb_irrefl. apply andb_false_r || (rewrite andb_false_r; reflexivity).
Qed.
Print Assumptions cache_topology_refuted.

(** Two nodes with four CPUs in two caches: "0,2" and "1,3". *)
Definition ex_open (i : Z) : opened :=
  if i =? 0 then File [48; 44; 50; 10] (fun _ => 1) else if i =? 1 then File [49; 44; 51; 10] (fun _ => 3) else Enoent.
Example ex_nodes : nodes_are ex_open 2 (fun i c => c = i \/ c = i + 2).
Proof.
  split; [lia|]. split; [|split; [reflexivity|intros i j c; lia]].
  assert (T : forall d, 48 <= d <= 57 -> cpu_token [d]).
  { intros d Hd. split; [split; [discriminate|constructor; [exact Hd|constructor]]|]. split; [cbn; lia|]. unfold value, k_max_cpus. cbn [fold_left]. lia. }
  intros i Hi. assert (i = 0 \/ i = 1) as [-> | ->] by lia.
  - exists [48; 44; 50; 10], (fun _ => 1). split; [reflexivity|]. split; [intros; lia|]. right. exists (One [48]), [One [50]], [10].
    split; [reflexivity|]. split; [now right|]. split; [constructor; [apply T; lia|constructor; [apply T; lia|constructor]]|].
    intros c. split; [intros [-> | ->]; [exists (One [48])|exists (One [50])]; cbn; tauto|]. intros (x & [<-|[<-|[]]] & H); cbn in H; lia.
  - exists [49; 44; 51; 10], (fun _ => 3). split; [reflexivity|]. split; [intros; lia|]. right. exists (One [49]), [One [51]], [10].
    split; [reflexivity|]. split; [now right|]. split; [constructor; [apply T; lia|constructor; [apply T; lia|constructor]]|].
    intros c. split; [intros [-> | ->]; [exists (One [49])|exists (One [51])]; cbn; tauto|]. intros (x & [<-|[<-|[]]] & H); cbn in H; lia.
Qed.
Example ex_numa : option_map (fun t => (map (current_partition t) [-2; -1; 0; 1; 2; 3; 4], map (partition_nodes t) [0; 1], active_partitions t))
  (topology_init 2 46 ex_open true (Some 4) (Some "1"%string) false) = Some ([0; 0; 0; 1; 0; 1; 0], [1; 2], 2).
Proof. vm_compute. reflexivity. Qed.
Definition ex_cache_open (i : Z) : opened := ex_open (i mod 2).
Example ex_cache_machine : caches_are ex_cache_open 4 (fun c => c mod 2).
Proof.
  intros c Hc. unfold ex_cache_open. destruct ex_nodes as (_ & L & _).
  destruct (L (c mod 2) ltac:(apply Z.mod_pos_bound; lia)) as (text & chunk & A & B & [(_ & D)|(e & l & nl & D1 & D2 & D3 & D4)]); [exfalso; now apply (D (c mod 2)); left|].
  exists text, chunk. split; [exact A|]. split; [exact B|]. right. exists e, l, nl. split; [exact D1|]. split; [exact D2|]. split; [exact D3|].
  intros d. rewrite <- D4. assert (c = 0 \/ c = 1 \/ c = 2 \/ c = 3) as [-> |[-> |[-> | ->]]] by lia; cbn -[Z.modulo]; split;
    try (intros (R & M); assert (d = 0 \/ d = 1 \/ d = 2 \/ d = 3) as [-> |[-> |[-> | ->]]] by lia; cbn in *; lia);
    intros H; cbn in H; assert (d = 0 \/ d = 1 \/ d = 2 \/ d = 3) as [-> |[-> |[-> | ->]]] by lia; cbn in *; lia.
Qed.
Example ex_caches : option_map (fun t => (map (l3_of_cpu t) [0; 1; 2; 3; 4], cc_count t)) (init_caches false ex_cache_open (Some 4)) =
  Some ([Some 0; Some 1; Some 0; Some 1; None], 2).
Proof. vm_compute. reflexivity. Qed.
