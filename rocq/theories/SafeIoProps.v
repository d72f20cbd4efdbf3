(** Property C60: interrupted and short reads and writes lose and repeat nothing, memory
    that may have gone is copied without a fault, and the process's memory statistics are
    those of its status file. *)
From Verif Require Import Base CpuList CpuListProps SafeIo SafeIoProofs SafeIoProofs2 SafeIoSpec.

(** Specification: no call really fails (an interruption is not a failure). *)
Definition no_failure (w : source) : Prop :=
  (forall e, In (RFail e) (s_reads w) -> e = EINTR) /\ (forall e, ~ In (PFail e) (s_polls w)).

(** Reading: whatever interruptions, short reads and failures happen, the call returns; the
    bytes stored are the next bytes of the file and those after them remain to be read;
    the result is their number, or -1 after a real failure; it is 0 only at the end of
    the file (or if no bytes were asked for), and less than asked for only if the file is
    at its end or a poll found no data. *)
Theorem safe_read_exact : forall w count, exists w' rc got, safe_read w count = Some (w', rc, got) /\
  s_rest w = got ++ s_rest w' /\ (length got <= count)%nat /\
  (rc = None \/ rc = Some (length got)) /\
  (no_failure w -> rc = Some (length got) /\
     (got = [] -> count = O \/ s_rest w = []) /\
     ((length got < count)%nat -> ~ In PNone (s_polls w) -> s_rest w' = [])).
Proof.
  intros w count. destruct (safe_read_spec w count) as (w' & rc & got & cr & cp & E & K1 & K2 & K3 & K4 & K5).
  exists w', rc, got. split; [exact E|]. split; [exact K1|]. split; [exact K2|]. split; [tauto|]. intros (N1 & N2).
  assert (Np : ~ failed_poll cp) by (intros (e & He); apply (N2 e); rewrite K4; apply in_or_app; now left).
  destruct K5 as [(_ & [(e & F1 & F2)|F])|(R & K6 & K7)]; [|contradiction|].
  - exfalso. apply F1, N1. rewrite K3. apply in_or_app. now left.
  - split; [exact R|]. split; [exact K6|]. intros Hl Hp. destruct (K7 Hl) as [H|[H|H]]; [exact H| |contradiction]. exfalso. apply Hp. rewrite K4. apply in_or_app. now left.
Qed.
Print Assumptions safe_read_exact.

(** Finding: a poll that fails after an interrupted read replaces [errno], and the bytes
    already read are reported as a failure of the read, although no read failed. *)
Theorem safe_read_poll_refuted : exists w w', (forall e, In (RFail e) (s_reads w) -> e = EINTR) /\
  safe_read w 4 = Some (w', None, [7]) /\ s_rest w = 7 :: s_rest w' /\ s_rest w' <> [].
Proof.
  exists (mk_source [7; 8; 9] [RGive 1; RIntr] [PReady; PFail 12]), (mk_source [8; 9] [] []).
  split; [cbn; intuition discriminate|]. split; [reflexivity|]. split; [reflexivity|discriminate].
Qed.
Print Assumptions safe_read_poll_refuted.

(** Writing: what reaches the file is a prefix of the buffer, once and in order, and the
    reported total is its length; a positive result means that all of it was written. *)
Theorem safe_write_exact : forall out events buf, exists out' rc total, signal_safe_write out events buf = Some (out', rc, total) /\
  out' = out ++ firstn total buf /\ (total <= length buf)%nat /\
  ((forall e, In (WFail e) events -> e = EINTR) -> ~ In (WTake 0) events -> rc <> None /\ total = length buf).
Proof.
  intros out events buf. destruct (safe_write_spec (length events + 2) out events buf O) as (out' & rc & total & E & A & B & C); [lia|lia|].
  exists out', rc, total. split; [exact E|]. rewrite Nat.sub_0_r in A. split; [exact A|]. split; [lia|]. intros N1 N2.
  destruct rc as [[|k]|]; [split; [discriminate|tauto]|split; [discriminate|exact C]|]. exfalso. destruct C as (e & C1 & C2). apply C1, N1, C2.
Qed.
Print Assumptions safe_write_exact.
Theorem safe_write_positive : forall out events buf out' k total,
  signal_safe_write out events buf = Some (out', Some (S k), total) -> total = length buf /\ out' = out ++ buf.
Proof.
  intros out events buf out' k total E0. destruct (safe_write_spec (length events + 2) out events buf O) as (o & rc & t & E & A & B & C); [lia|lia|].
  unfold signal_safe_write in E0. rewrite E in E0. injection E0 as -> -> ->. split; [exact C|]. rewrite A, Nat.sub_0_r, C. cbn [skipn]. now rewrite firstn_all.
Qed.
Print Assumptions safe_write_positive.

(** Finding: the result is documented as the number of bytes written, but it is that of the
    last write only: five bytes written in two parts give 2. *)
Theorem safe_write_result_refuted : exists events buf out, signal_safe_write [] events buf = Some (out, Some 2%nat, 5%nat) /\ out = buf.
Proof. exists [WTake 3], [1; 2; 3; 4; 5], [1; 2; 3; 4; 5]. split; reflexivity. Qed.
Print Assumptions safe_write_result_refuted.

(** Copying memory that may not be mapped: it succeeds exactly if there is something to copy
    and every byte is mapped, and then the destination holds those bytes in order. *)
Theorem safe_copy_exact : forall mem part chunks null, exists dst ok, safe_copy mem part chunks null = Some (dst, ok) /\
  (ok = true <-> null = false /\ chunks <> [] /\ forall a n x, In (a, n) chunks -> a <= x < a + Z.of_nat n -> mem x <> None) /\
  (ok = true -> map Some dst = flat_map (fun c => map mem (zseq (fst c) (snd c))) chunks).
Proof.
  intros mem part chunks null. unfold safe_copy.
  destruct null; cbn [orb]; [exists [], false; split; [reflexivity|]; split; [split; [discriminate|intros (A & _); discriminate]|discriminate]|].
  destruct chunks as [|c l]; [exists [], false; split; [reflexivity|]; split; [split; [discriminate|intros (_ & A & _); congruence]|discriminate]|].
  set (all := c :: l). destruct (copy_batches_spec (S (length all)) mem part all []) as (dst & ok & E & A & B); [lia|].
  exists dst, ok. split; [exact E|]. split; [split|].
  - intros ->. split; [reflexivity|]. split; [discriminate|]. intros a n x Hi Hx Hm. destruct (A eq_refl) as (bytes & _ & Hb).
    assert (Hin : In None (map Some bytes)).
    { rewrite Hb. apply in_flat_map. exists (a, n). split; [exact Hi|]. unfold chunk_bytes. rewrite <- Hm. apply in_map. apply zseq_In. cbn. lia. }
    apply in_map_iff in Hin as (y & Hy & _). discriminate.
  - intros (_ & _ & H). apply (B (map (fun b => match b with Some v => v | None => 0 end) (flat_map (chunk_bytes mem) all))). apply all_mapped.
    apply forallb_forall. intros b Hb. apply in_flat_map in Hb as ((a & n) & Hi & Hb). unfold chunk_bytes in Hb. apply in_map_iff in Hb as (x & <- & Hx). apply zseq_In in Hx.
    cbn in Hx. specialize (H a n x Hi ltac:(lia)). destruct (mem x); [reflexivity|congruence].
  - intros ->. destruct (A eq_refl) as (bytes & -> & Hb). exact Hb.
Qed.
Print Assumptions safe_copy_exact.

(** ** The status file *)

(** The statistics do not depend on how the reads are split and interrupted. *)
Theorem memory_stats_chunking : forall w1 w2, s_rest w1 = s_rest w2 -> no_failure w1 -> no_failure w2 ->
  get_memory_stats w1 = get_memory_stats w2 /\ get_memory_stats w1 <> None.
Proof.
  intros w1 w2 E (A1 & B1) (A2 & B2). unfold get_memory_stats.
  destruct (stat_loop_spec (S (length (s_rest w1))) w1 [] stats0 eq_refl stat_buf_pos ltac:(lia)) as (k1 & L1 & K1).
  destruct (stat_loop_spec (S (length (s_rest w2))) w2 [] stats0 eq_refl stat_buf_pos ltac:(lia)) as (k2 & L2 & K2).
  rewrite L1, L2. cbn [obind]. rewrite (K1 A1 B1), (K2 A2 B2), E. split; [reflexivity|discriminate].
Qed.
Print Assumptions memory_stats_chunking.

(** If a read fails, they are those of a beginning of the file. *)
Theorem memory_stats_failure : forall w, exists k, get_memory_stats w = get_memory_stats (mk_source (firstn k (s_rest w)) [] []).
Proof.
  intros w. unfold get_memory_stats.
  destruct (stat_loop_spec (S (length (s_rest w))) w [] stats0 eq_refl stat_buf_pos ltac:(lia)) as (k1 & L1 & K1). exists k1.
  destruct (stat_loop_spec (S (length (firstn k1 (s_rest w)))) (mk_source (firstn k1 (s_rest w)) [] []) [] stats0 eq_refl stat_buf_pos ltac:(cbn [s_rest]; lia)) as (k2 & L2 & K2).
  cbn [s_rest s_reads s_polls] in *. rewrite L1, L2. rewrite (K2 ltac:(intros e []) ltac:(intros e [])). rewrite firstn_all. reflexivity.
Qed.
Print Assumptions memory_stats_failure.

Lemma fields_app a b : fields (a ++ b) = fields a ++ fields b.
Proof. apply flat_map_app. Qed.
Lemma has_app ls name pad t n : has (ls ++ [Field name pad t]) n <-> has ls n \/ n = name.
Proof.
  unfold has. rewrite fields_app. cbn [fields flat_map app]. split.
  - intros (v & H). apply in_app_or in H as [H|[H|[]]]; [left; eauto|right; congruence].
  - intros [(v & H)| ->]; eexists; apply in_or_app; [left; exact H|right; left; reflexivity].
Qed.
Lemma amount_same ls name pad t n v : n <> name -> amount ls n v -> amount (ls ++ [Field name pad t]) n v.
Proof.
  intros N [H|(H & ->)]; [left; rewrite fields_app; apply in_or_app; now left|]. right. split; [|reflexivity]. rewrite has_app. tauto.
Qed.
Lemma amount_new ls name pad t : amount (ls ++ [Field name pad t]) name (value t * 1024).
Proof. left. rewrite fields_app. apply in_or_app. right. now left. Qed.
Lemma amount_zero ls n v : amount ls n v -> ~ has ls n -> v = 0.
Proof. intros [H|(_ & H)] N; [exfalso; apply N; now exists v|exact H]. Qed.

Definition stats_inv (ls : list status_line) (m : mem_stats) : Prop :=
  (amount ls n_VmSize (m_vss m) /\ amount ls n_VmRSS (m_rss m) /\ amount ls n_VmExe (m_code m) /\ amount ls n_VmPTE (m_vmpte m)) /\
  (exists a b, amount ls n_RssFile a /\ amount ls n_RssShmem b /\ m_shared m = a + b) /\
  (exists a b, amount ls n_VmData a /\ amount ls n_VmStk b /\ m_data m = a + b) /\
  (0 <= m_seen m < 64) /\
  ((Z.testbit (m_seen m) 0 = true <-> has ls n_VmSize) /\
   (Z.testbit (m_seen m) 1 = true <-> has ls n_VmRSS) /\
   (Z.testbit (m_seen m) 2 = true <-> has ls n_RssFile \/ has ls n_RssShmem) /\
   (Z.testbit (m_seen m) 3 = true <-> has ls n_VmExe) /\
   (Z.testbit (m_seen m) 4 = true <-> has ls n_VmData \/ has ls n_VmStk) /\
   (Z.testbit (m_seen m) 5 = true <-> has ls n_VmPTE)).

Lemma lor_bound s k : 0 <= s < 64 -> 0 <= k < 6 -> 0 <= Z.lor s (2 ^ k) < 64.
Proof.
  intros Hs Hk. split; [apply Z.lor_nonneg; split; [lia|apply Z.pow_nonneg; lia]|].
  assert (P : 0 < 2 ^ k) by (apply Z.pow_pos_nonneg; lia).
  destruct (Z.eq_dec s 0) as [->|]; [rewrite Z.lor_0_l; change 64 with (2 ^ 6); apply Z.pow_lt_mono_r; lia|].
  change 64 with (2 ^ 6). apply Z.log2_lt_pow2.
  - assert (0 <= Z.lor s (2 ^ k)) by (apply Z.lor_nonneg; lia). assert (Z.lor s (2 ^ k) <> 0); [|lia]. intros E. apply Z.lor_eq_0_iff in E. lia.
  - rewrite Z.log2_lor by lia. apply Z.max_lub_lt; [apply Z.log2_lt_pow2; lia|rewrite Z.log2_pow2 by lia; lia].
Qed.
Lemma testbit_lor s k i : 0 <= k -> Z.testbit (Z.lor s (2 ^ k)) i = Z.testbit s i || (k =? i).
Proof. intros. rewrite Z.lor_spec, Z.pow2_bits_eqb by lia. reflexivity. Qed.

Lemma stats_step ls l m : line_ok l -> NoDup (map fst (fields (ls ++ [l]))) -> stats_inv ls m -> stats_inv (ls ++ [l]) (line_effect m l).
Proof.
  intros Hl Nd I. destruct l as [name pad t|t]; cbn [line_effect].
  - assert (Fresh : ~ has ls name).
    { intros (v & H). rewrite fields_app, map_app in Nd. cbn [fields flat_map app map fst] in Nd. apply NoDup_remove_2 in Nd. apply Nd. rewrite app_nil_r.
      apply in_map_iff. exists (name, v). split; [reflexivity|exact H]. }
    destruct m as [vss rss shared code data vmpte seen]. destruct I as ((V1 & V2 & V3 & V4) & (a & b & Ea & Eb & Es) & (c & d & Ec & Ed & Et) & Bd & (S0 & S1 & S2 & S3 & S4 & S5)).
    cbn [m_vss m_rss m_shared m_code m_data m_vmpte m_seen] in *.
    destruct Hl as (_ & Hin & _). cbn [names In] in Hin.
    destruct Hin as [<-|[<-|[<-|[<-|[<-|[<-|[<-|[<-|[]]]]]]]]].
    all: unfold apply_field; cbn [eqs n_VmSize n_VmRSS n_RssFile n_RssShmem n_VmExe n_VmData n_VmStk n_VmPTE Z.eqb Pos.eqb andb orb].
    all: unfold stats_inv; cbn [m_vss m_rss m_shared m_code m_data m_vmpte m_seen].
    all: repeat rewrite has_app.
    1: change (Z.lor seen 1) with (Z.lor seen (2 ^ 0)).
    2: change (Z.lor seen 2) with (Z.lor seen (2 ^ 1)).
    3,4: change (Z.lor seen 4) with (Z.lor seen (2 ^ 2)).
    5: change (Z.lor seen 8) with (Z.lor seen (2 ^ 3)).
    6,7: change (Z.lor seen 16) with (Z.lor seen (2 ^ 4)).
    8: change (Z.lor seen 32) with (Z.lor seen (2 ^ 5)).
    all: rewrite !testbit_lor by lia; cbn [Z.eqb Pos.eqb]; rewrite ?orb_false_r, ?orb_true_r.
    all: (split; [split; [|split; [|split]]; first [apply amount_new|apply amount_same; [discriminate|assumption]]|]).
    all: (split; [|split; [|split; [apply lor_bound; lia|]]]).
    all: try (exists a, b; split; [apply amount_same; [discriminate|exact Ea]|split; [apply amount_same; [discriminate|exact Eb]|exact Es]]).
    all: try (exists c, d; split; [apply amount_same; [discriminate|exact Ec]|split; [apply amount_same; [discriminate|exact Ed]|exact Et]]).
    all: try (split; [|split; [|split; [|split; [|split]]]]; first [rewrite S0|rewrite S1|rewrite S2|rewrite S3|rewrite S4|rewrite S5|idtac]; clear; intuition (try discriminate); fail).
    + exists (value t * 1024), b. split; [apply amount_new|]. split; [apply amount_same; [discriminate|exact Eb]|]. rewrite Es, (amount_zero _ _ _ Ea Fresh). lia.
    + exists a, (value t * 1024). split; [apply amount_same; [discriminate|exact Ea]|]. split; [apply amount_new|]. rewrite Es, (amount_zero _ _ _ Eb Fresh). lia.
    + exists (value t * 1024), d. split; [apply amount_new|]. split; [apply amount_same; [discriminate|exact Ed]|]. rewrite Et, (amount_zero _ _ _ Ec Fresh). lia.
    + exists c, (value t * 1024). split; [apply amount_same; [discriminate|exact Ec]|]. split; [apply amount_new|]. rewrite Et, (amount_zero _ _ _ Ed Fresh). lia.
  - assert (E : fields (ls ++ [Other t]) = fields ls) by (rewrite fields_app; cbn; apply app_nil_r).
    unfold stats_inv, amount, has in *. rewrite E. exact I.
Qed.

Lemma stats_all ls : Forall line_ok ls -> NoDup (map fst (fields ls)) -> stats_inv ls (fold_left line_effect ls stats0).
Proof.
  induction ls as [|l ls IH] using rev_ind; intros F Nd.
  - cbn [fold_left]. assert (N : forall n, ~ has [] n) by (intros n (v & [])). assert (Z0 : forall n, amount [] n 0) by (intros n; right; split; [apply N|reflexivity]).
    unfold stats_inv. cbn [stats0 m_vss m_rss m_shared m_code m_data m_vmpte m_seen]. rewrite !Z.bits_0.
    split; [split; [|split; [|split]]; apply Z0|]. split; [exists 0, 0; split; [apply Z0|split; [apply Z0|reflexivity]]|].
    split; [exists 0, 0; split; [apply Z0|split; [apply Z0|reflexivity]]|]. split; [lia|].
    pose proof (N n_VmSize). pose proof (N n_VmRSS). pose proof (N n_RssFile). pose proof (N n_RssShmem). pose proof (N n_VmExe). pose proof (N n_VmData). pose proof (N n_VmStk). pose proof (N n_VmPTE).
    split; [|split; [|split; [|split; [|split]]]]; (split; [discriminate|tauto]).
  - apply Forall_app in F as (F1 & F2). inversion F2 as [|? ? Fl _]; subst. rewrite fold_left_app. cbn [fold_left].
    apply stats_step; [exact Fl|exact Nd|]. apply IH; [exact F1|]. rewrite fields_app, map_app in Nd. revert Nd. generalize (map fst (fields [l])). generalize (map fst (fields ls)). clear.
    induction l as [|x l IH]; intros r H; [constructor|]. cbn [app] in H. inversion H as [|? ? A B]; subst. constructor; [intros X; apply A, in_or_app; now left|exact (IH r B)].
Qed.

Lemma seen_all s : 0 <= s < 64 -> (s =? 63) = true <->
  (Z.testbit s 0 = true /\ Z.testbit s 1 = true /\ Z.testbit s 2 = true /\ Z.testbit s 3 = true /\ Z.testbit s 4 = true /\ Z.testbit s 5 = true).
Proof.
  intros Hs. rewrite Z.eqb_eq. split; [intros ->; repeat split; reflexivity|]. intros (A0 & A1 & A2 & A3 & A4 & A5). apply Z.bits_inj'. intros i Hi.
  destruct (Z_lt_ge_dec i 6).
  - assert (i = 0 \/ i = 1 \/ i = 2 \/ i = 3 \/ i = 4 \/ i = 5) as [-> |[-> |[-> |[-> |[-> | ->]]]]] by lia; assumption.
  - rewrite !Z.bits_above_log2; try reflexivity; try lia.
    + change (Z.log2 63) with 5. lia.
    + destruct (Z.eq_dec s 0) as [->|]; [cbn; lia|]. apply Z.lt_le_trans with 6; [apply Z.log2_lt_pow2; lia|lia].
Qed.

(** Every status file (lines shorter than 1024 bytes, each of the eight fields at most
    once, any other lines), however it is read: the six statistics are the values of
    its fields (the sum of two for shared and data memory), and the call succeeds exactly
    if each statistic had a field. *)
Theorem memory_stats_exact : forall ls w, Forall line_ok ls -> NoDup (map fst (fields ls)) -> s_rest w = status_text ls -> no_failure w ->
  exists m ok, get_memory_stats w = Some (m, ok) /\
    amount ls n_VmSize (m_vss m) /\ amount ls n_VmRSS (m_rss m) /\ amount ls n_VmExe (m_code m) /\ amount ls n_VmPTE (m_vmpte m) /\
    (exists a b, amount ls n_RssFile a /\ amount ls n_RssShmem b /\ m_shared m = a + b) /\
    (exists a b, amount ls n_VmData a /\ amount ls n_VmStk b /\ m_data m = a + b) /\
    (ok = true <-> has ls n_VmSize /\ has ls n_VmRSS /\ (has ls n_RssFile \/ has ls n_RssShmem) /\ has ls n_VmExe /\
                   (has ls n_VmData \/ has ls n_VmStk) /\ has ls n_VmPTE).
Proof.
  intros ls w F Nd Ew (N1 & N2). unfold get_memory_stats.
  destruct (stat_loop_spec (S (length (s_rest w))) w [] stats0 eq_refl stat_buf_pos ltac:(lia)) as (k & L & K).
  rewrite L, (K N1 N2), firstn_all, Ew. cbn [app obind]. rewrite (run_status ls F).
  pose proof (stats_all ls F Nd) as ((V1 & V2 & V3 & V4) & Sh & Da & Bd & (S0 & S1 & S2 & S3 & S4 & S5)).
  eexists _, _. split; [reflexivity|]. split; [exact V1|]. split; [exact V2|]. split; [exact V3|]. split; [exact V4|]. split; [exact Sh|]. split; [exact Da|].
  rewrite (seen_all _ Bd), S0, S1, S2, S3, S4, S5. reflexivity.
Qed.
Print Assumptions memory_stats_exact.

(** A small file with all six, read in pieces of five bytes with interruptions:
    "VmSize: 10 kB", "VmRSS:<tab>7 kB", "Name:x", "RssFile: 2 kB", "RssShmem: 1 kB",
    "VmExe: 3 kB", "VmStk: 4 kB", "VmPTE: 5 kB". *)
Definition ex_status : list status_line :=
  [Field n_VmSize [32] [49; 48]; Field n_VmRSS [9] [55]; Other [78; 97; 109; 101; 58; 120]; Field n_RssFile [32] [50]; Field n_RssShmem [32] [49];
   Field n_VmExe [32] [51]; Field n_VmStk [32] [52]; Field n_VmPTE [32] [53]].
Definition ex_source : source := mk_source (status_text ex_status) [RGive 5; RIntr; RGive 5; RGive 1; RIntr; RIntr; RGive 30] [PReady; PNone; PIntr; PReady; PNone].
Example ex_status_ok : Forall line_ok ex_status /\ NoDup (map fst (fields ex_status)) /\ no_failure ex_source.
Proof.
  split; [|split; [|split]].
  - assert (D : forall t, t <> [] -> Forall (fun c => 48 <= c <= 57) t -> digits t) by (intros t A B; split; assumption).
    unfold ex_status. repeat (apply Forall_cons; [|]); try apply Forall_nil; (split; [cbn; lia|]).
    3: { split; [cbn; intuition discriminate|]. intros name rest Hn E. cbn [names In] in Hn. repeat (destruct Hn as [<-|Hn]; [discriminate E|]). destruct Hn. }
    all: (split; [cbn; tauto|]; split; [repeat constructor; lia|]; split; [apply D; [discriminate|repeat constructor; lia]|]; unfold value; cbn [fold_left]; lia).
  - cbn [fields ex_status flat_map app map fst]. repeat (constructor; [cbn [In]; intuition discriminate|]). constructor.
  - cbn. intros e H. intuition discriminate.
  - cbn. intros e H. intuition discriminate.
Qed.
Example ex_stats : get_memory_stats ex_source = Some (mk_stats 10240 7168 3072 3072 4096 5120 63, true).
Proof. vm_compute. reflexivity. Qed.
Example ex_read : safe_read ex_source 20 =
  Some (mk_source (skipn 5 (status_text ex_status)) [RGive 5; RGive 1; RIntr; RIntr; RGive 30] [PIntr; PReady; PNone], Some 5%nat, [86; 109; 83; 105; 122]).
Proof. vm_compute. reflexivity. Qed.
Example ex_copy : safe_copy (fun a => if a =? 105 then None else Some a) 1 [(100, 3%nat); (110, 2%nat)] false = Some ([100; 101; 102; 110; 111], true) /\
  safe_copy (fun a => if a =? 105 then None else Some a) 1 [(100, 3%nat); (104, 2%nat)] false = Some ([], false).
Proof. split; vm_compute; reflexivity. Qed.
