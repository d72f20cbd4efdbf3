(** C47: what the allocator reports about the residency and the staleness of memory is exact, byte for byte. *)
From Verif Require Import Base Bitmap BitmapProofs Residency.

(** ** Specification

    A hardware page has 4 KiB to 2 MiB. *)
Definition page_size_ok (hp : Z) : Prop := exists k, 12 <= k <= 21 /\ hp = 2 ^ k.
(** The number of bytes of [[a, a + n)] that are on pages with property [P]. *)
Definition bytes_on (hp : Z) (P : Z -> bool) (a n : Z) : Z := zcount (fun byte => P (byte / hp)) a (Z.to_nat n).
(** The kernel's file: entry [q] is about page [q].  A read may fail at any time, but if it succeeds it is right. *)
Definition reads (d : fdesc) (file : Z -> Z) : Prop :=
  forall q n l, 0 <= q -> 0 <= n -> fd_read d (8 * q) (8 * n) = Some l -> l = map file (zseq q (Z.to_nat n)).
(** Nothing fails on the entries of pages [q0 .. q1 - 1]. *)
Definition readable (d : fdesc) (q0 q1 : Z) : Prop :=
  fd_open d = true /\ (forall q, q0 <= q < q1 -> fd_seek d (8 * q) = true) /\
  forall q n, q0 <= q -> 0 < n -> q + n <= q1 -> fd_read d (8 * q) (8 * n) <> None.
(** Bits of the entries: /proc/self/pagemap... *)
Definition resident (w : Z) : bool := Z.testbit w 63.
Definition swapped (w : Z) : bool := Z.testbit w 62.
(** ... and /proc/self/pageflags. *)
Definition stale (w : Z) : bool := Z.testbit w 44.
Definition locked (w : Z) : bool := Z.testbit w 33 || Z.testbit w 18.
Definition head (w : Z) : bool := Z.testbit w 15.
Definition tail (w : Z) : bool := Z.testbit w 16.
Definition thp (w : Z) : bool := Z.testbit w 22.

(** A hugepage of the address space is either one transparent hugepage, a head followed by tails, or consists of small pages. *)
Definition one_thp (hp : Z) (file : Z -> Z) (h : Z) : Prop :=
  let n := k_huge / hp in
  (head (file (h * n)) = true /\ tail (file (h * n)) = false /\ thp (file (h * n)) = true) /\
  forall q, h * n < q < h * n + n -> head (file q) = false /\ tail (file q) = true /\ thp (file q) = true.
Definition small_pages (hp : Z) (file : Z -> Z) (h : Z) : Prop :=
  let n := k_huge / hp in forall q, h * n <= q < h * n + n -> head (file q) = false /\ tail (file q) = false.
Definition wf_flags (hp : Z) (file : Z -> Z) (a n : Z) : Prop :=
  forall h, a / k_huge <= h <= (a + n - 1) / k_huge -> one_thp hp file h \/ small_pages hp file h.
(** The flags that count for a page: a transparent hugepage has them at its head. *)
Definition flags_of (hp : Z) (file : Z -> Z) (q : Z) : Z := if tail (file q) then file (q / (k_huge / hp) * (k_huge / hp)) else file q.

(** mincore(2) may fail, but if it does not it is right: the lowest bit of a byte says whether the page is resident. *)
Definition mincore_ok (hp : Z) (mc : mincore_fn) (res : Z -> bool) : Prop :=
  forall q n l, 0 <= q -> 0 < n -> mc (q * hp) (n * hp) = Some l ->
    length l = Z.to_nat n /\ forall i w, 0 <= i -> nth_error l (Z.to_nat i) = Some w -> Z.odd w = res (q + i).

(** ** Proofs *)
Lemma flag_is b w : 0 <= b -> flag b w = Z.testbit w b.
Proof.
  intros Hb. unfold flag. destruct (Z.testbit w b) eqn:E.
  - apply Z.eqb_eq. apply Z.bits_inj'. intros j Hj. rewrite Z.land_spec, one_shift_spec by lia. destruct (Z.eqb_spec j b); subst; rewrite ?E, ?andb_false_r; reflexivity.
  - apply Z.eqb_neq. intros H. apply (f_equal (fun z => Z.testbit z b)) in H. rewrite Z.land_spec, one_shift_spec, Z.eqb_refl, E in H by lia. discriminate.
Qed.
Lemma present_is w : page_present w = resident w.
Proof. unfold page_present, resident. rewrite <- flag_is by lia. reflexivity. Qed.
Lemma swapped_is w : page_swapped w = swapped w.
Proof. unfold page_swapped, swapped. rewrite <- flag_is by lia. reflexivity. Qed.
Lemma locked_is w : page_locked w = locked w.
Proof.
  unfold page_locked, locked. destruct (Z.eqb_spec (Z.land w (Z.lor (Z.shiftl 1 33) (Z.shiftl 1 18))) 0) as [E|E]; cbn [negb].
  - symmetry. apply orb_false_iff. split.
    + apply (f_equal (fun z => Z.testbit z 33)) in E. rewrite Z.land_spec, Z.lor_spec, !one_shift_spec, Z.bits_0 in E by lia. change (33 =? 33) with true in E. change (33 =? 18) with false in E. cbn [orb] in E. rewrite andb_true_r in E. exact E.
    + apply (f_equal (fun z => Z.testbit z 18)) in E. rewrite Z.land_spec, Z.lor_spec, !one_shift_spec, Z.bits_0 in E by lia. change (18 =? 33) with false in E. change (18 =? 18) with true in E. cbn [orb] in E. rewrite andb_true_r in E. exact E.
  - symmetry. apply orb_true_iff. destruct (Z.testbit w 33) eqn:A; [auto|]. destruct (Z.testbit w 18) eqn:B; [auto|]. exfalso. apply E. apply Z.bits_inj'. intros j Hj.
    rewrite Z.land_spec, Z.lor_spec, !one_shift_spec, Z.bits_0 by lia. destruct (Z.eqb_spec j 33); subst; [rewrite A; reflexivity|]. destruct (Z.eqb_spec j 18); subst; [rewrite B; reflexivity|]. apply andb_false_r.
Qed.

Section Pages.
Variable hp : Z.
Hypothesis Hhp : page_size_ok hp.
Let NP := k_huge / hp.

Lemma hp_pow : is_pow2 hp.
Proof. destruct Hhp as (k & Hk & ->). exists k. split; [lia|reflexivity]. Qed.
Lemma hp_pos : 4096 <= hp.
Proof. destruct Hhp as (k & Hk & ->). change 4096 with (2 ^ 12). apply Z.pow_le_mono_r; lia. Qed.
Lemma NP_hp : NP * hp = k_huge /\ 1 <= NP <= 512.
Proof.
  unfold NP. destruct Hhp as (k & Hk & ->). change k_huge with (2 ^ 21).
  replace (2 ^ 21) with (2 ^ (21 - k) * 2 ^ k) by (rewrite <- Z.pow_add_r by lia; f_equal; lia).
  rewrite Z.div_mul by (apply Z.pow_nonzero; lia). split; [reflexivity|].
  assert (2 ^ (21 - k) <= 2 ^ 9) by (apply Z.pow_le_mono_r; lia). assert (0 < 2 ^ (21 - k)) by (apply Z.pow_pos_nonneg; lia). lia.
Qed.

Lemma bytes_app P a n m : 0 <= n -> 0 <= m -> bytes_on hp P a (n + m) = bytes_on hp P a n + bytes_on hp P (a + n) m.
Proof. intros. unfold bytes_on. rewrite Z2Nat.inj_add, zcount_app, Z2Nat.id by lia. reflexivity. Qed.
Lemma bytes_same P v a n : 0 <= n -> (forall q, a / hp <= q <= (a + n - 1) / hp -> P q = v) -> bytes_on hp P a n = if v then n else 0.
Proof.
  intros Hn H. unfold bytes_on. pose proof hp_pos. rewrite (zcount_ext _ (fun _ => v)).
  - destruct v; [rewrite zcount_all by (intros; reflexivity); lia|apply zcount_none; intros; reflexivity].
  - intros j Hj. apply H. split; apply Z.div_le_mono; lia.
Qed.
Lemma bytes_page P q a n : 0 <= n -> q * hp <= a -> a + n <= q * hp + hp -> bytes_on hp P a n = if P q then n else 0.
Proof.
  intros Hn H1 H2. pose proof hp_pos. destruct (Z.eq_dec n 0) as [->|]; [unfold bytes_on; cbn; destruct (P q); reflexivity|].
  apply bytes_same; [lia|]. intros x Hx. f_equal. assert (a / hp = q) by (symmetry; apply Z.div_unique with (r := a - q * hp); lia).
  assert ((a + n - 1) / hp = q) by (symmetry; apply Z.div_unique with (r := a + n - 1 - q * hp); lia). lia.
Qed.
Lemma bytes_ext P Q a n : 0 <= n -> (forall q, a / hp <= q <= (a + n - 1) / hp -> P q = Q q) -> bytes_on hp P a n = bytes_on hp Q a n.
Proof.
  intros Hn H. unfold bytes_on. pose proof hp_pos. apply zcount_ext. intros j Hj. apply H. split; apply Z.div_le_mono; lia.
Qed.

(** The first and the last page of a range. *)
Lemma geometry a n : 0 <= a -> 0 < n -> a + n + hp <= two64 ->
  let q := a / hp in let e := (a + n - 1) / hp in
  base_page hp a = q * hp /\ end_page hp a n = (e + 1) * hp /\ q * hp <= a < q * hp + hp /\ e * hp < a + n <= e * hp + hp /\ 0 <= q <= e /\
  ((e + 1) * hp - q * hp) / hp = e - q + 1.
Proof.
  intros Ha Hn Hb q e. pose proof hp_pos as Hp. pose proof (Z.div_mod a hp ltac:(lia)) as D1. pose proof (Z.mod_pos_bound a hp ltac:(lia)) as M1.
  pose proof (Z.div_mod (a + n - 1) hp ltac:(lia)) as D2. pose proof (Z.mod_pos_bound (a + n - 1) hp ltac:(lia)) as M2. fold q in D1. fold e in D2.
  assert (Hqe : q <= e) by (apply Z.div_le_mono; lia). assert (Hq : 0 <= q) by (apply Z.div_pos; lia).
  split; [unfold base_page; rewrite (ldiff_pow2' a hp hp_pow); lia|]. split.
  - unfold end_page. rewrite wrap64_small by lia. rewrite (ldiff_pow2' _ hp hp_pow). replace (a + n + hp - 1) with ((a + n - 1) + 1 * hp) by lia. rewrite Z.mod_add by lia. lia.
  - split; [lia|]. split; [lia|]. split; [lia|]. replace ((e + 1) * hp - q * hp) with ((e - q + 1) * hp) by lia. apply Z.div_mul. lia.
Qed.

Section File.
Variables (d : fdesc) (file : Z -> Z).
Hypothesis Hd : reads d file.

Lemma seek_is q pos : 0 <= q -> seek hp d (q * hp) = Some pos -> pos = 8 * q.
Proof.
  intros Hq. pose proof hp_pos. unfold seek, k_entry_size. rewrite Z.div_mul by lia. destruct (fd_seek d (q * 8)); [|discriminate]. intros E. injection E as <-. lia.
Qed.
Lemma read_one_is q w pos : 0 <= q -> read_one d (8 * q) = Some (w, pos) -> w = file q /\ pos = 8 * (q + 1).
Proof.
  intros Hq. unfold read_one, k_entry_size. destruct (fd_read d (8 * q) 8) as [l|] eqn:E; [|discriminate]. change 8 with (8 * 1) in E at 2. apply Hd in E; try lia. subst l. cbn.
  intros E. injection E as <- <-. split; [reflexivity|lia].
Qed.
Lemma seek_ok q0 q1 q : readable d q0 q1 -> q0 <= q < q1 -> seek hp d (q * hp) = Some (8 * q).
Proof. intros (_ & H & _) Hq. pose proof hp_pos. unfold seek, k_entry_size. rewrite Z.div_mul by lia. replace (q * 8) with (8 * q) by lia. rewrite H by assumption. reflexivity. Qed.
Lemma read_ok q0 q1 q n : readable d q0 q1 -> 0 <= q0 -> q0 <= q -> 0 < n -> q + n <= q1 -> fd_read d (8 * q) (8 * n) = Some (map file (zseq q (Z.to_nat n))).
Proof.
  intros (_ & _ & H) H0 A B C. specialize (H q n A B C). destruct (fd_read d (8 * q) (8 * n)) as [l|] eqn:E; [|congruence]. apply Hd in E; try lia. subst l. reflexivity.
Qed.
Lemma read_one_ok q0 q1 q : readable d q0 q1 -> 0 <= q0 -> q0 <= q < q1 -> read_one d (8 * q) = Some (file q, 8 * (q + 1)).
Proof.
  intros R H0 Hq. unfold read_one, k_entry_size. change (fd_read d (8 * q) 8) with (fd_read d (8 * q) (8 * 1)). rewrite (read_ok q0 q1 q 1 R) by lia. change (Z.to_nat 1) with 1%nat. cbn [zseq map]. replace (8 * (q + 1)) with (8 * q + 8) by lia. reflexivity.
Qed.

(** *** Residency *)
Let P (q : Z) := resident (file q).
Let S (q : Z) := swapped (file q).
Definition bits_are (i : info) (q0 n : Z) : Prop := forall j, 0 <= j -> bit (i_bits i) j = (j <? n) && (j <? 512) && P (q0 + j).

Lemma update_spec w size idx i : i_resident (update w size idx i) = i_resident i + (if resident w then size else 0) /\
  i_swapped (update w size idx i) = i_swapped i + (if swapped w then size else 0) /\
  forall j, bit (i_bits (update w size idx i)) j = (j =? idx) && (idx <? 512) && resident w || bit (i_bits i) j.
Proof.
  unfold update, k_max_bits. rewrite present_is, swapped_is. destruct (set_bit (i_bits i) idx) as (b & o) eqn:E. destruct (set_bit_spec _ _ _ _ E) as (_ & B).
  destruct (resident w), (swapped w); cbn [i_resident i_swapped i_bits fst]; (split; [lia|split; [lia|]]); intros j; rewrite ?andb_true_r, ?andb_false_r; cbn [orb]; try reflexivity;
    (destruct (idx <? 512); [rewrite B, andb_true_r; reflexivity|rewrite andb_false_r; reflexivity]).
Qed.

Lemma update_bits q0 n i w size : 0 <= n -> bits_are i q0 n -> w = file (q0 + n) -> bits_are (update w size n i) q0 (n + 1).
Proof.
  intros Hn B -> j Hj. destruct (update_spec (file (q0 + n)) size n i) as (_ & _ & ->). rewrite (B j Hj). fold (P (q0 + n)).
  destruct (Z.eqb_spec j n) as [->|]; cbn [andb orb].
  - replace (n <? n) with false by lia. replace (n <? n + 1) with true by lia. cbn [andb orb]. apply orb_false_r.
  - f_equal. f_equal. lia.
Qed.

Lemma update_all_spec m : forall q0 idx i, 0 <= idx -> bits_are i q0 idx ->
  let i' := update_all hp (map file (zseq (q0 + idx) m)) idx i in
  i_resident i' = i_resident i + bytes_on hp P ((q0 + idx) * hp) (Z.of_nat m * hp) /\
  i_swapped i' = i_swapped i + bytes_on hp S ((q0 + idx) * hp) (Z.of_nat m * hp) /\ bits_are i' q0 (idx + Z.of_nat m).
Proof.
  pose proof hp_pos as Hp. induction m as [|m IH]; intros q0 idx i Hi B i'; unfold i'.
  - cbn. rewrite !Z.add_0_r. auto.
  - cbn [zseq map update_all]. replace (q0 + idx + 1) with (q0 + (idx + 1)) by lia.
    destruct (IH q0 (idx + 1) (update (file (q0 + idx)) hp idx i)) as (A1 & A2 & A3); [lia|apply update_bits; auto|].
    destruct (update_spec (file (q0 + idx)) hp idx i) as (U1 & U2 & _). rewrite A1, A2, U1, U2.
    replace (Z.of_nat (Datatypes.S m) * hp) with (hp + Z.of_nat m * hp) by lia. rewrite !bytes_app by lia.
    rewrite !(bytes_page _ (q0 + idx) ((q0 + idx) * hp) hp) by lia. replace ((q0 + idx) * hp + hp) with ((q0 + (idx + 1)) * hp) by lia.
    split; [unfold P at 2; lia|]. split; [unfold S at 2; lia|]. replace (idx + Z.of_nat (Datatypes.S m)) with (idx + 1 + Z.of_nat m) by lia. exact A3.
Qed.

Lemma read_many_spec fuel : forall q0 idx n i pos' i', 0 <= q0 -> 0 <= idx -> 0 <= n -> bits_are i q0 idx ->
  read_many fuel hp d (8 * (q0 + idx)) n idx i = Some (pos', i') ->
  pos' = 8 * (q0 + idx + n) /\ i_resident i' = i_resident i + bytes_on hp P ((q0 + idx) * hp) (n * hp) /\
  i_swapped i' = i_swapped i + bytes_on hp S ((q0 + idx) * hp) (n * hp) /\ bits_are i' q0 (idx + n).
Proof.
  pose proof hp_pos as Hp. assert (Done : forall q0 idx i, bits_are i q0 idx -> 8 * (q0 + idx) = 8 * (q0 + idx + 0) /\ i_resident i = i_resident i + bytes_on hp P ((q0 + idx) * hp) (0 * hp) /\
     i_swapped i = i_swapped i + bytes_on hp S ((q0 + idx) * hp) (0 * hp) /\ bits_are i q0 (idx + 0)).
  { intros. cbn. rewrite !Z.add_0_r. auto. }
  induction fuel as [|fuel IH]; intros q0 idx n i pos' i' Hq Hi Hn B; cbn [read_many]; (destruct (Z.leb_spec n 0); [intros E; injection E as <- <-; replace n with 0 by lia; apply Done; assumption|]); [discriminate|].
  change k_entry_size with 8. set (batch := Z.min k_entries n). assert (Hb : 0 < batch <= n) by (unfold batch; change k_entries with 512; lia).
  destruct (fd_read d (8 * (q0 + idx)) (8 * batch)) as [l|] eqn:E; [|discriminate]. cbn [obind]. apply Hd in E; try lia. subst l. intros E.
  destruct (update_all_spec (Z.to_nat batch) q0 idx i Hi B) as (A1 & A2 & A3). cbv zeta in A1, A2, A3. set (i1 := update_all _ _ _ _) in *. rewrite Z2Nat.id in A1, A2, A3 by lia.
  replace (8 * (q0 + idx) + 8 * batch) with (8 * (q0 + (idx + batch))) in E by lia. apply IH in E; try lia; try assumption. destruct E as (C1 & C2 & C3 & C4).
  split; [lia|]. rewrite C2, C3, A1, A2. replace (n * hp) with (batch * hp + (n - batch) * hp) by lia. rewrite !bytes_app by nia.
  replace ((q0 + idx) * hp + batch * hp) with ((q0 + (idx + batch)) * hp) by lia. split; [lia|]. split; [lia|]. replace (idx + n) with (idx + batch + (n - batch)) by lia. exact C4.
Qed.

Lemma read_many_ok fuel : forall q idx n i q0 q1, readable d q0 q1 -> 0 <= q0 -> q0 <= q -> 0 <= n -> q + n <= q1 -> (Z.to_nat n <= fuel)%nat ->
  exists r, read_many fuel hp d (8 * q) n idx i = Some r.
Proof.
  induction fuel as [|fuel IH]; intros q idx n i q0 q1 R H0 Hq Hn H1 Hf; cbn [read_many]; (destruct (Z.leb_spec n 0); [eauto|]); [lia|].
  change k_entry_size with 8. set (batch := Z.min k_entries n). assert (Hb : 0 < batch <= n) by (unfold batch; change k_entries with 512; lia).
  rewrite (read_ok q0 q1 q batch R) by lia. cbn [obind]. replace (8 * q + 8 * batch) with (8 * (q + batch)) by lia. apply (IH _ _ _ _ q0 q1); try assumption; lia.
Qed.

Lemma bits_none q0 : bits_are no_info q0 0.
Proof. intros j Hj. cbn [i_bits no_info]. rewrite bit_clear_all. replace (j <? 0) with false by lia. reflexivity. Qed.

Lemma get_exact a n i : 0 <= a -> 0 < n -> a + n + hp <= two64 -> residency_get hp d a n = Some i ->
  i_resident i = bytes_on hp P a n /\ i_swapped i = bytes_on hp S a n /\ bits_are i (a / hp) ((a + n - 1) / hp - a / hp + 1).
Proof.
  intros Ha Hn Hb. pose proof hp_pos as Hp. destruct (geometry a n Ha Hn Hb) as (G1 & G2 & G3 & G4 & G5 & G6). set (q := a / hp) in *. set (e := (a + n - 1) / hp) in *.
  unfold residency_get. destruct (fd_open d); [|discriminate]. cbn [negb]. destruct (Z.eqb_spec n 0); [lia|]. rewrite G1, G2, G6. cbv zeta.
  destruct (seek hp d (q * hp)) as [pos|] eqn:Es; [|discriminate]. apply seek_is in Es; [|lia]. subst pos. cbn [obind]. change no_info with (no_info) in *.
  destruct (read_one d (8 * q)) as [(w & pos)|] eqn:Er; [|destruct (_ =? 1); discriminate]. apply read_one_is in Er; [|lia]. destruct Er as (-> & ->). cbn [obind fst snd].
  destruct (Z.eqb_spec (e - q + 1) 1) as [E|E].
  - intros X. injection X as <-. replace (e - q + 1) with (0 + 1) by lia. destruct (update_spec (file q) n 0 no_info) as (A1 & A2 & _). rewrite A1, A2. cbn [i_resident i_swapped no_info].
    rewrite !(bytes_page _ q a n) by lia. split; [unfold P; lia|]. split; [unfold S; lia|]. apply update_bits; [lia|apply bits_none|f_equal; lia].
  - set (first := hp - (a - q * hp)). set (i1 := update (file q) first 0 no_info). destruct (update_spec (file q) first 0 no_info) as (A1 & A2 & _). fold i1 in A1, A2. cbn [i_resident i_swapped no_info] in A1, A2.
    assert (A3 : bits_are i1 q (0 + 1)) by (apply update_bits; [lia|apply bits_none|f_equal; lia]).
    destruct (read_many _ hp d (8 * (q + 1)) _ 1 i1) as [(pos & i2)|] eqn:Em; [|discriminate]. cbn [obind fst snd].
    apply read_many_spec in Em; try lia; [|exact A3]. destruct Em as (-> & B1 & B2 & B3). replace (q + 1 + (e - q + 1 - 1 - 1)) with e by lia.
    destruct (read_one d (8 * e)) as [(w & pos)|] eqn:Er; [|discriminate]. apply read_one_is in Er; [|lia]. destruct Er as (-> & ->). cbn [obind fst snd]. intros X. injection X as <-.
    set (last := hp - ((e + 1) * hp - a - n)). replace (1 + (e - q + 1 - 1 - 1)) with (e - q) in * by lia. replace (e - q + 1 - 1 - 1) with (e - q - 1) in * by lia.
    destruct (update_spec (file e) last (e - q) i2) as (C1 & C2 & _). rewrite C1, C2, B1, B2, A1, A2.
    assert (Hf : 0 <= first) by (unfold first; lia). assert (Hl : 0 <= last) by (unfold last; lia).
    assert (En : n = first + ((e - q - 1) * hp + last)) by (unfold first, last; nia). rewrite En at 1 2. rewrite !bytes_app by nia.
    rewrite !(bytes_page _ q a first) by (unfold first; lia). replace (a + first) with ((q + 1) * hp) by (unfold first; lia). replace ((q + 1) * hp + (e - q - 1) * hp) with (e * hp) by lia.
    rewrite !(bytes_page _ e (e * hp) last) by (unfold last; lia). split; [unfold P at 2 4; lia|]. split; [unfold S at 2 4; lia|].
    apply update_bits; [lia|exact B3|f_equal; lia].
Qed.

Lemma get_answers a n : 0 <= a -> 0 < n -> a + n + hp <= two64 -> readable d (a / hp) ((a + n - 1) / hp + 1) -> exists i, residency_get hp d a n = Some i.
Proof.
  intros Ha Hn Hb R. pose proof hp_pos as Hp. destruct (geometry a n Ha Hn Hb) as (G1 & G2 & G3 & G4 & G5 & G6). set (q := a / hp) in *. set (e := (a + n - 1) / hp) in *.
  unfold residency_get. pose proof R as (Ho & _). rewrite Ho. cbn [negb]. destruct (Z.eqb_spec n 0); [lia|]. rewrite G1, G2, G6. cbv zeta.
  rewrite (seek_ok q (e + 1) q R) by lia. cbn [obind]. rewrite (read_one_ok q (e + 1) q R) by lia. cbn [obind fst snd].
  destruct (Z.eqb_spec (e - q + 1) 1) as [E|E]; [eauto|].
  destruct (read_many_ok (Z.to_nat (e - q + 1 - 1)) (q + 1) 1 (e - q + 1 - 1 - 1) (update (file q) (hp - (a - q * hp)) 0 no_info) q (e + 1) R) as ((pos & i2) & Em); try lia.
  rewrite Em. cbn [obind fst snd]. apply read_many_spec with (q0 := q) (idx := 1) in Em; try lia; [|apply (update_bits q 0); [lia|apply bits_none|f_equal; lia]]. destruct Em as (-> & _).
  rewrite (read_one_ok q (e + 1) _ R) by lia. cbn [obind]. eauto.
Qed.

Lemma unbacked_loop_spec m : forall q0 idx u s u' s', 0 <= idx ->
  (forall j, 0 <= j -> bit u j = (j <? idx) && negb (P (q0 + j)) && negb (S (q0 + j))) -> (forall j, 0 <= j -> bit s j = (j <? idx) && negb (P (q0 + j)) && S (q0 + j)) ->
  unbacked_loop (map file (zseq (q0 + idx) m)) idx u s = (u', s') ->
  forall j, 0 <= j -> bit u' j = (j <? idx + Z.of_nat m) && negb (P (q0 + j)) && negb (S (q0 + j)) /\ bit s' j = (j <? idx + Z.of_nat m) && negb (P (q0 + j)) && S (q0 + j).
Proof.
  induction m as [|m IH]; intros q0 idx u s u' s' Hi Hu Hs E.
  - cbn in E. injection E as <- <-. intros j Hj. rewrite Z.add_0_r. auto.
  - cbn [zseq map unbacked_loop] in E. rewrite present_is, swapped_is in E. fold (P (q0 + idx)) in E. fold (S (q0 + idx)) in E. replace (q0 + idx + 1) with (q0 + (idx + 1)) in E by lia.
    replace (idx + Z.of_nat (Datatypes.S m)) with (idx + 1 + Z.of_nat m) by lia.
    assert (K : forall j, j <> idx -> (j <? idx + 1) = (j <? idx)) by (intros; lia). assert (K1 : (idx <? idx) = false) by lia. assert (K2 : (idx <? idx + 1) = true) by lia.
    destruct (P (q0 + idx)) eqn:EP; [|destruct (S (q0 + idx)) eqn:ES].
    + apply (IH q0 (idx + 1) u s); try assumption; [lia| |]; intros j Hj; (destruct (Z.eq_dec j idx) as [->|Hne]; [rewrite ?Hu, ?Hs, K1, K2, EP by lia; reflexivity|rewrite K, ?Hu, ?Hs by lia; reflexivity]).
    + destruct (set_bit s idx) as (s1 & o) eqn:B. destruct (set_bit_spec _ _ _ _ B) as (_ & B1). apply (IH q0 (idx + 1) u s1); try assumption; [lia| |]; intros j Hj; rewrite ?B1;
        (destruct (Z.eq_dec j idx) as [->|Hne]; [rewrite ?Hu, ?Hs, K1, K2, EP, ES, ?Z.eqb_refl by lia; reflexivity|rewrite K, ?Hu, ?Hs by lia; destruct (Z.eqb_spec j idx); [lia|reflexivity]]).
    + destruct (set_bit u idx) as (u1 & o) eqn:B. destruct (set_bit_spec _ _ _ _ B) as (_ & B1). apply (IH q0 (idx + 1) u1 s); try assumption; [lia| |]; intros j Hj; rewrite ?B1;
        (destruct (Z.eq_dec j idx) as [->|Hne]; [rewrite ?Hu, ?Hs, K1, K2, EP, ES, ?Z.eqb_refl by lia; reflexivity|rewrite K, ?Hu, ?Hs by lia; destruct (Z.eqb_spec j idx); [lia|reflexivity]]).
Qed.

Lemma unbacked_exact h u s : 0 <= h -> unbacked_and_swapped hp d (h * k_huge) = Some (u, s) ->
  forall j, 0 <= j -> bit u j = (j <? NP) && negb (P (h * NP + j)) && negb (S (h * NP + j)) /\ bit s j = (j <? NP) && negb (P (h * NP + j)) && S (h * NP + j).
Proof.
  intros Hh. destruct NP_hp as (En & Hn). unfold unbacked_and_swapped. change k_entry_size with 8. fold NP. destruct (negb _); [discriminate|].
  replace (h * k_huge) with (h * NP * hp) by lia. destruct (seek hp d (h * NP * hp)) as [pos|] eqn:Es; [|discriminate]. apply seek_is in Es; [|nia]. subst pos. cbn [obind].
  destruct (fd_read d (8 * (h * NP)) (8 * NP)) as [l|] eqn:E; [|discriminate]. apply Hd in E; try nia. subst l. cbn [obind]. intros E. injection E as E.
  replace (zseq (h * NP) (Z.to_nat NP)) with (zseq (h * NP + 0) (Z.to_nat NP)) in E by (f_equal; lia). intros j Hj.
  replace NP with (0 + Z.of_nat (Z.to_nat NP)) at 1 4 by lia. revert j Hj. apply (unbacked_loop_spec (Z.to_nat NP) (h * NP) 0 clear_all clear_all u s); [lia| | |exact E];
    intros j Hj; rewrite bit_clear_all; replace (j <? 0) with false by lia; reflexivity.
Qed.
Lemma unbacked_answers h : 0 <= h -> readable d (h * NP) (h * NP + NP) -> exists r, unbacked_and_swapped hp d (h * k_huge) = Some r.
Proof.
  intros Hh R. destruct NP_hp as (En & Hn). unfold unbacked_and_swapped. change k_entry_size with 8. fold NP.
  rewrite (ldiff_pow2' _ k_huge) by (exists 21; split; [lia|reflexivity]). rewrite Z.mod_mul, Z.sub_0_r, Z.eqb_refl by (change k_huge with 2097152; lia). cbn [negb].
  replace (h * k_huge) with (h * NP * hp) by lia. rewrite (seek_ok _ _ _ R) by nia. cbn [obind]. rewrite (read_ok _ _ _ _ R) by nia. cbn [obind]. eauto.
Qed.

(** *** Page flags *)
Let F (q : Z) := flags_of hp file q.
Let W (q : Z) := one_thp hp file (q / NP) \/ small_pages hp file (q / NP).
Let ST (q : Z) := stale (F q).
Let LK (q : Z) := locked (F q).

Lemma page_cases q : W q ->
  (small_pages hp file (q / NP) /\ head (file q) = false /\ tail (file q) = false /\ F q = file q) \/
  (one_thp hp file (q / NP) /\ thp (file q) = true /\ F q = file (q / NP * NP) /\ tail (F q) = false /\
     (q = q / NP * NP /\ head (file q) = true /\ tail (file q) = false \/ q / NP * NP < q /\ head (file q) = false /\ tail (file q) = true)).
Proof.
  destruct NP_hp as (_ & Hn). pose proof (Z.div_mod q NP ltac:(lia)) as D. pose proof (Z.mod_pos_bound q NP ltac:(lia)) as M. unfold F, flags_of. fold NP. intros [H|H].
  - right. split; [exact H|]. destruct H as ((H1 & H2 & H3) & Ht). fold NP in H1, H2, H3, Ht. destruct (Z.eq_dec (q / NP * NP) q) as [E|E].
    + rewrite E in H1, H2, H3 |- *. rewrite H2. auto 9.
    + destruct (Ht q ltac:(lia)) as (A & B & C). rewrite B. split; [assumption|]. split; [reflexivity|]. split; [assumption|]. right. split; [lia|auto].
  - left. split; [exact H|]. destruct (H q) as (A & B); [fold NP; lia|]. rewrite B. auto.
Qed.
Lemma thp_same q q' : one_thp hp file (q / NP) -> q' / NP = q / NP -> F q' = file (q / NP * NP).
Proof.
  intros H E. destruct (page_cases q') as [(K & _)|(_ & _ & K & _)]; [left; rewrite E; exact H| |rewrite K, E; reflexivity].
  exfalso. rewrite E in K. destruct H as ((H1 & _) & _). destruct NP_hp as (_ & Hn). destruct (K (q / NP * NP)) as (K1 & _); [fold NP; lia|]. fold NP in H1. congruence.
Qed.

Lemma huge_floor q : Z.ldiff (q * hp) (k_huge - 1) = q / NP * NP * hp.
Proof.
  destruct NP_hp as (En & Hn). pose proof hp_pos. rewrite (ldiff_pow2' _ k_huge) by (exists 21; split; [lia|reflexivity]). rewrite <- En.
  rewrite Z.mul_mod_distr_r by lia. pose proof (Z.div_mod q NP ltac:(lia)). nia.
Qed.

Lemma flag_head w : page_head w = head w. Proof. apply flag_is. lia. Qed.
Lemma flag_tail w : page_tail w = tail w. Proof. apply flag_is. lia. Qed.
Lemma flag_thp w : page_thp w = thp w. Proof. apply flag_is. lia. Qed.
Lemma flag_stale w : page_stale w = stale w. Proof. apply flag_is. lia. Qed.
Lemma not_no_head w : tail w = false -> w <> no_head.
Proof. intros H ->. vm_compute in H. discriminate. Qed.

Lemma first_nonneg q : 0 <= q -> 0 <= q / NP * NP <= q.
Proof. intros Hq. destruct NP_hp as (_ & Hn). pose proof (Z.div_mod q NP ltac:(lia)) as D. pose proof (Z.mod_pos_bound q NP ltac:(lia)) as M. pose proof (Z.div_pos q NP Hq ltac:(lia)). nia. Qed.

Lemma maybe_read_one_spec q w hg pos : 0 <= q -> W q -> maybe_read_one hp d (q * hp) = Some (w, hg, pos) ->
  w = F q /\ (hg = true -> one_thp hp file (q / NP)) /\ (hg = false -> small_pages hp file (q / NP) /\ pos = 8 * (q + 1)).
Proof.
  intros Hq HW. unfold maybe_read_one. destruct (seek hp d (q * hp)) as [p0|] eqn:Es; [|discriminate]. apply seek_is in Es; [|assumption]. subst p0. cbn [obind].
  destruct (read_one d (8 * q)) as [(w0 & p1)|] eqn:Er; [|discriminate]. apply read_one_is in Er; [|assumption]. destruct Er as (-> & ->). cbn [obind fst snd].
  rewrite flag_head, flag_tail, flag_thp. destruct (page_cases q HW) as [(K & A & B & C)|(K & T & C & D & [(A1 & A2 & A3)|(A1 & A2 & A3)])].
  - rewrite A, B. cbn [orb andb]. intros E. injection E as <- <- <-. rewrite C. split; [reflexivity|]. split; [discriminate|auto].
  - rewrite A2, A3, T. cbn [orb andb negb]. intros E. injection E as <- <- <-. rewrite C. rewrite <- A1. split; [reflexivity|]. split; [auto|discriminate].
  - rewrite A2, A3, T. cbn [orb andb negb]. rewrite huge_floor. pose proof (first_nonneg q Hq). destruct (seek hp d _) as [p2|] eqn:Es; [|discriminate]. apply seek_is in Es; [|lia]. subst p2. cbn [obind].
    destruct (read_one d (8 * (q / NP * NP))) as [(w0 & p1)|] eqn:Er; [|discriminate]. apply read_one_is in Er; [|lia]. destruct Er as (-> & ->). cbn [obind fst snd].
    rewrite flag_tail. rewrite <- C, D. intros E. injection E as <- <- <-. split; [reflexivity|]. split; [auto|discriminate].
Qed.
Lemma maybe_read_one_ok q0 q1 q : readable d q0 q1 -> 0 <= q0 -> q0 <= q / NP * NP -> q < q1 -> W q -> exists r, maybe_read_one hp d (q * hp) = Some r.
Proof.
  intros R H0 H1 H2 HW. assert (Hle : q / NP * NP <= q) by (destruct NP_hp as (_ & Hn); pose proof (Z.div_mod q NP ltac:(lia)); pose proof (Z.mod_pos_bound q NP ltac:(lia)); nia).
  unfold maybe_read_one. rewrite (seek_ok q0 q1 q R) by lia. cbn [obind]. rewrite (read_one_ok q0 q1 q R) by lia. cbn [obind fst snd]. rewrite flag_head, flag_tail, flag_thp.
  destruct (page_cases q HW) as [(K & A & B & C)|(K & T & C & D & [(A1 & A2 & A3)|(A1 & A2 & A3)])].
  - rewrite A, B. cbn. eauto.
  - rewrite A2, A3, T. cbn. eauto.
  - rewrite A2, A3, T. cbn [orb andb negb]. rewrite huge_floor. rewrite (seek_ok q0 q1 _ R) by lia. cbn [obind]. rewrite (read_one_ok q0 q1 _ R) by lia. cbn [obind fst snd].
    rewrite flag_tail. rewrite <- C, D. eauto.
Qed.

Lemma add_stats_spec s w n : s_stale (add_stats s w n) = s_stale s + (if stale w then n else 0) /\ s_locked (add_stats s w n) = s_locked s + (if locked w then n else 0) /\ s_scan (add_stats s w n) = s_scan s.
Proof. unfold add_stats. rewrite flag_stale, locked_is. cbn [s_stale s_locked s_scan]. destruct (stale w), (locked w); split; try split; try reflexivity; lia. Qed.

Definition head_ok (hi q hd : Z) : Prop := q < hi -> tail (file q) = true -> hd = file (q / NP * NP) /\ hd <> no_head.
Lemma head_step hi q hd : q < hi -> W q -> (q + 1 < hi -> W (q + 1)) -> head_ok hi q hd ->
  let hd' := if page_head (file q) then file q else hd in
  head_ok hi (q + 1) hd' /\ (tail (file q) = true -> hd' = F q /\ hd' <> no_head) /\ (tail (file q) = false -> F q = file q).
Proof.
  intros Hq HW HW1 Ho hd'. unfold hd'. rewrite flag_head. destruct NP_hp as (_ & Hn). pose proof (Z.div_mod q NP ltac:(lia)) as D. pose proof (Z.mod_pos_bound q NP ltac:(lia)) as M.
  split.
  - intros H1 H2. destruct (page_cases (q + 1) (HW1 H1)) as [(_ & _ & K & _)|(K & _ & _ & _ & [(_ & _ & A)|(A1 & _ & _)])]; [congruence|congruence|].
    pose proof (Z.div_mod (q + 1) NP ltac:(lia)) as D1. pose proof (Z.mod_pos_bound (q + 1) NP ltac:(lia)) as M1.
    assert (E : (q + 1) / NP = q / NP) by nia. rewrite E in *. destruct (page_cases q HW) as [(K1 & _)|(_ & _ & C & T & [(B1 & B2 & B3)|(B1 & B2 & B3)])].
    + exfalso. destruct (K1 (q / NP * NP)) as (X & _); [fold NP; lia|]. destruct K as ((Y & _) & _). fold NP in Y. congruence.
    + rewrite B2. split; [congruence|]. apply not_no_head. assumption.
    + rewrite B2. apply Ho; assumption.
  - split.
    + intros Ht. destruct (page_cases q HW) as [(_ & _ & K & _)|(_ & _ & C & T & [(B1 & B2 & B3)|(B1 & B2 & B3)])]; [congruence|congruence|]. rewrite B2. destruct (Ho Hq Ht) as (-> & X). rewrite C. auto.
    + intros Ht. unfold F, flags_of. rewrite Ht. reflexivity.
Qed.

Lemma flags_all_spec m : forall hi q hd s, (forall x, q <= x < hi -> W x) -> q + Z.of_nat m <= hi -> head_ok hi q hd ->
  exists hd' s', flags_all hp (map file (zseq q m)) hd s = Some (hd', s') /\ head_ok hi (q + Z.of_nat m) hd' /\
    s_stale s' = s_stale s + bytes_on hp ST (q * hp) (Z.of_nat m * hp) /\ s_locked s' = s_locked s + bytes_on hp LK (q * hp) (Z.of_nat m * hp) /\ s_scan s' = s_scan s.
Proof.
  pose proof hp_pos as Hp. induction m as [|m IH]; intros hi q hd s HW Hm Ho.
  - exists hd, s. cbn. rewrite !Z.add_0_r. auto.
  - cbn [zseq map flags_all]. destruct (head_step hi q hd ltac:(lia) (HW q ltac:(lia)) ltac:(intros; apply HW; lia) Ho) as (A1 & A2 & A3). cbv zeta in A1, A2.
    set (hd1 := if page_head (file q) then file q else hd) in *. rewrite flag_tail.
    assert (K : forall w, w = F q -> exists hd' s', flags_all hp (map file (zseq (q + 1) m)) hd1 (add_stats s w hp) = Some (hd', s') /\ head_ok hi (q + Z.of_nat (Datatypes.S m)) hd' /\
      s_stale s' = s_stale s + bytes_on hp ST (q * hp) (Z.of_nat (Datatypes.S m) * hp) /\ s_locked s' = s_locked s + bytes_on hp LK (q * hp) (Z.of_nat (Datatypes.S m) * hp) /\ s_scan s' = s_scan s).
    { intros w ->. destruct (IH hi (q + 1) hd1 (add_stats s (F q) hp)) as (hd' & s' & E & B1 & B2 & B3 & B4); [intros; apply HW; lia|lia|exact A1|].
      exists hd', s'. split; [exact E|]. split; [replace (q + Z.of_nat (Datatypes.S m)) with (q + 1 + Z.of_nat m) by lia; exact B1|].
      destruct (add_stats_spec s (F q) hp) as (C1 & C2 & C3). rewrite B2, B3, B4, C1, C2, C3. replace (Z.of_nat (Datatypes.S m) * hp) with (hp + Z.of_nat m * hp) by lia. rewrite !bytes_app by lia.
      rewrite !(bytes_page _ q (q * hp) hp) by lia. replace (q * hp + hp) with ((q + 1) * hp) by lia. split; [unfold ST at 2; lia|]. split; [unfold LK at 2; lia|reflexivity]. }
    destruct (tail (file q)) eqn:Et.
    + destruct (A2 eq_refl) as (E1 & E2). destruct (Z.eqb_spec hd1 no_head); [contradiction|]. apply K. exact E1.
    + apply K. symmetry. apply A3. reflexivity.
Qed.

Lemma flags_many_spec fuel : forall hi q n hd s s', 0 <= q -> 0 <= n -> (forall x, q <= x < hi -> W x) -> q + n <= hi -> head_ok hi q hd ->
  flags_many fuel hp d (8 * q) n hd s = Some s' ->
  s_stale s' = s_stale s + bytes_on hp ST (q * hp) (n * hp) /\ s_locked s' = s_locked s + bytes_on hp LK (q * hp) (n * hp) /\ s_scan s' = s_scan s.
Proof.
  pose proof hp_pos as Hp. induction fuel as [|fuel IH]; intros hi q n hd s s' Hq Hn HW Hh Ho; cbn [flags_many];
    (destruct (Z.leb_spec n 0); [intros E; injection E as <-; replace n with 0 by lia; cbn; rewrite !Z.add_0_r; auto|]); [discriminate|].
  change k_entry_size with 8. set (batch := Z.min k_entries n). assert (Hb : 0 < batch <= n) by (unfold batch; change k_entries with 512; lia).
  destruct (fd_read d (8 * q) (8 * batch)) as [l|] eqn:E; [|discriminate]. cbn [obind]. apply Hd in E; try lia. subst l.
  destruct (flags_all_spec (Z.to_nat batch) hi q hd s HW ltac:(lia) Ho) as (hd1 & s1 & E1 & B1 & B2 & B3 & B4). rewrite E1. cbn [obind fst snd]. rewrite Z2Nat.id in * by lia. intros E.
  replace (8 * q + 8 * batch) with (8 * (q + batch)) in E by lia. apply (IH hi) in E; try lia; try assumption; [|intros; apply HW; lia]. destruct E as (C1 & C2 & C3).
  rewrite C1, C2, C3, B2, B3, B4. replace (n * hp) with (batch * hp + (n - batch) * hp) by lia. rewrite !bytes_app by nia. replace (q * hp + batch * hp) with ((q + batch) * hp) by lia.
  split; [lia|]. split; [lia|reflexivity].
Qed.
Lemma flags_many_ok fuel : forall hi q n hd s q0 q1, readable d q0 q1 -> 0 <= q0 -> q0 <= q -> 0 <= n -> q + n <= q1 -> (Z.to_nat n <= fuel)%nat -> (forall x, q <= x < hi -> W x) -> q + n <= hi -> head_ok hi q hd ->
  exists r, flags_many fuel hp d (8 * q) n hd s = Some r.
Proof.
  induction fuel as [|fuel IH]; intros hi q n hd s q0 q1 R H0 Hq Hn H1 Hf HW Hh Ho; cbn [flags_many]; (destruct (Z.leb_spec n 0); [eauto|]); [lia|].
  change k_entry_size with 8. set (batch := Z.min k_entries n). assert (Hb : 0 < batch <= n) by (unfold batch; change k_entries with 512; lia).
  rewrite (read_ok q0 q1 q batch R) by lia. cbn [obind]. destruct (flags_all_spec (Z.to_nat batch) hi q hd s HW ltac:(lia) Ho) as (hd1 & s1 & E1 & B1 & _). rewrite E1. cbn [obind fst snd]. rewrite Z2Nat.id in B1 by lia.
  replace (8 * q + 8 * batch) with (8 * (q + batch)) by lia. apply (IH hi _ _ _ _ q0 q1); try assumption; try lia. intros; apply HW; lia.
Qed.

Lemma wf_pages a n : 0 <= a -> 0 < n -> wf_flags hp file a n -> forall q, a / hp <= q <= (a + n - 1) / hp -> W q.
Proof.
  intros Ha Hn H q Hq. destruct NP_hp as (En & Hnp). pose proof hp_pos. apply H. replace k_huge with (hp * NP) by lia. rewrite <- !Z.div_div by lia. split; apply Z.div_le_mono; lia.
Qed.

Lemma head_start q hi : q mod NP = 0 -> W q -> head_ok hi q no_head.
Proof.
  intros Hm HW _ Ht. destruct NP_hp as (_ & Hn). pose proof (Z.div_mod q NP ltac:(lia)). destruct (page_cases q HW) as [(_ & _ & K & _)|(_ & _ & _ & _ & [(_ & _ & A)|(A & _)])]; [congruence|congruence|lia].
Qed.
Lemma head_small q hi : small_pages hp file (q / NP) -> W (q + 1) -> head_ok hi (q + 1) no_head.
Proof.
  intros K HW _ Ht. destruct NP_hp as (_ & Hn). pose proof (Z.div_mod q NP ltac:(lia)). pose proof (Z.mod_pos_bound q NP ltac:(lia)). pose proof (Z.div_mod (q + 1) NP ltac:(lia)). pose proof (Z.mod_pos_bound (q + 1) NP ltac:(lia)).
  destruct (page_cases (q + 1) HW) as [(_ & _ & X & _)|(X & _ & _ & _ & [(_ & _ & A)|(A & _)])]; [congruence|congruence|].
  exfalso. assert (E : (q + 1) / NP = q / NP) by nia. rewrite E in X. destruct (K (q / NP * NP)) as (Y & _); [fold NP; lia|]. destruct X as ((Z0 & _) & _). fold NP in Z0. congruence.
Qed.

Lemma with_scan_spec scan s : s_scan s = 0 -> s_stale (with_scan scan s) = s_stale s /\ s_locked (with_scan scan s) = s_locked s /\ s_scan (with_scan scan s) = if 0 <? s_stale s then scan else 0.
Proof. intros E. unfold with_scan. destruct (0 <? s_stale s); cbn; auto. Qed.

Section Get.
Variables (scan a n : Z).
Hypothesis Ha : 0 <= a.
Hypothesis Hn : 0 < n.
Hypothesis Hb : a + n + hp <= two64.
Hypothesis Hw : wf_flags hp file a n.
Let q := a / hp.
Let e := (a + n - 1) / hp.
Let ok (s : pstats) := s_stale s = bytes_on hp ST a n /\ s_locked s = bytes_on hp LK a n /\ s_scan s = if 0 <? bytes_on hp ST a n then scan else 0.

Lemma finish_exact s0 m0 pos s : q <= m0 -> m0 <= e -> a <= m0 * hp -> pos = 8 * m0 -> head_ok (e + 1) m0 no_head ->
  s_stale s0 = bytes_on hp ST a (m0 * hp - a) -> s_locked s0 = bytes_on hp LK a (m0 * hp - a) -> s_scan s0 = 0 ->
  (let? s := flags_many (Z.to_nat (e + 1 - m0)) hp d pos (e + 1 - m0 - 1) no_head s0 in
   let? r2 := maybe_read_one hp d ((e + 1) * hp - hp) in
   Some (with_scan scan (add_stats s (fst (fst r2)) (hp - ((e + 1) * hp - a - n))))) = Some s -> ok s.
Proof.
  intros H1 H2 H3 -> Ho S1 S2 S3. pose proof hp_pos as Hp. destruct (geometry a n Ha Hn Hb) as (_ & _ & G3 & G4 & G5 & _). fold q in G3, G5. fold e in G4, G5.
  pose proof (wf_pages a n Ha Hn Hw) as HW. fold q e in HW.
  destruct (flags_many _ hp d (8 * m0) _ no_head s0) as [s1|] eqn:E1; [|discriminate]. cbn [obind]. replace ((e + 1) * hp - hp) with (e * hp) by lia.
  destruct (maybe_read_one hp d (e * hp)) as [((w & hg) & p1)|] eqn:E2; [|discriminate]. cbn [obind fst snd]. intros E. injection E as <-.
  apply (flags_many_spec _ (e + 1)) in E1; try lia; try assumption; [|intros; apply HW; lia]. destruct E1 as (A1 & A2 & A3). replace (e + 1 - m0 - 1) with (e - m0) in * by lia.
  apply maybe_read_one_spec in E2; [|lia|apply HW; lia]. destruct E2 as (-> & _ & _). set (last := hp - ((e + 1) * hp - a - n)).
  destruct (add_stats_spec s1 (F e) last) as (B1 & B2 & B3). destruct (with_scan_spec scan (add_stats s1 (F e) last) ltac:(lia)) as (C1 & C2 & C3).
  assert (En : n = (m0 * hp - a) + ((e - m0) * hp + last)) by (unfold last; nia).
  assert (T : forall Q, bytes_on hp Q a n = bytes_on hp Q a (m0 * hp - a) + (bytes_on hp Q (m0 * hp) ((e - m0) * hp) + if Q e then last else 0)).
  { intros Q. rewrite En at 1. rewrite !bytes_app by (unfold last; nia). replace (a + (m0 * hp - a)) with (m0 * hp) by lia. replace (m0 * hp + (e - m0) * hp) with (e * hp) by lia.
    rewrite (bytes_page Q e (e * hp) last) by (unfold last; lia). lia. }
  assert (T1 : s_stale (add_stats s1 (F e) last) = bytes_on hp ST a n) by (rewrite B1, A1, S1, T; change (ST e) with (stale (F e)); lia).
  unfold ok. rewrite C1, C2, C3, T1. split; [reflexivity|]. split; [|reflexivity]. rewrite B2, A2, S2, T. change (LK e) with (locked (F e)). lia.
Qed.

Lemma flags_get_exact s : flags_get hp d scan a n = Some s -> ok s.
Proof.
  pose proof hp_pos as Hp. destruct (geometry a n Ha Hn Hb) as (G1 & G2 & G3 & G4 & G5 & G6). cbv zeta in *. fold q in G1, G3, G5, G6. fold e in G2, G4, G5, G6.
  pose proof (wf_pages a n Ha Hn Hw) as HW. fold q e in HW. destruct NP_hp as (En & Hnp).
  assert (Land : Z.land (q * hp) (k_huge - 1) / hp = q mod NP).
  { rewrite (land_pow2_mod' _ k_huge) by (exists 21; split; [lia|reflexivity]). rewrite <- En, Z.mul_mod_distr_r by lia. apply Z.div_mul. lia. }
  assert (Cov : forall x, a / hp <= x -> q <= x) by (intros; assumption). assert (Cov2 : forall x, x <= (a + n - 1) / hp -> x <= e) by (intros; assumption).
  unfold flags_get. fold NP. clearbody NP q e. destruct (fd_open d); [|discriminate]. cbn [negb]. destruct (Z.eqb_spec n 0); [lia|]. rewrite G1, G2, G6. cbv zeta.
  destruct (maybe_read_one hp d (q * hp)) as [((w & hg) & pos)|] eqn:Em; [|discriminate]. apply maybe_read_one_spec in Em; [|lia|apply HW; lia]. destruct Em as (-> & M1 & M2). cbn [obind fst snd].
  assert (One : (forall x, q <= x <= e -> F x = F q) -> ok (with_scan scan (add_stats no_stats (F q) n))).
  { intros H. destruct (add_stats_spec no_stats (F q) n) as (B1 & B2 & B3). destruct (with_scan_spec scan (add_stats no_stats (F q) n) ltac:(rewrite B3; reflexivity)) as (C1 & C2 & C3).
    assert (T1 : s_stale (add_stats no_stats (F q) n) = bytes_on hp ST a n) by (rewrite B1, (bytes_same ST (stale (F q))); [cbn; lia|lia|intros x Hx; unfold ST; rewrite H; [reflexivity|destruct Hx; auto]]).
    assert (T2 : s_locked (add_stats no_stats (F q) n) = bytes_on hp LK a n) by (rewrite B2, (bytes_same LK (locked (F q))); [cbn; lia|lia|intros x Hx; unfold LK; rewrite H; [reflexivity|destruct Hx; auto]]).
    unfold ok. rewrite C1, C2, C3, T1, T2. auto. }
  destruct (Z.eqb_spec (e - q + 1) 1) as [E|E].
  { intros X. injection X as <-. apply One. intros x Hx. f_equal. lia. }
  destruct hg.
  - specialize (M1 eq_refl). clear M2. rewrite Land. clear Land G6. rewrite huge_floor. assert (W1 : forall x, x mod NP = 0 -> q <= x <= e -> head_ok (e + 1) x no_head) by (intros; apply head_start; auto).
    assert (Same0 : forall x, q / NP * NP <= x < q / NP * NP + NP -> F x = F q).
    { intros x Hx. rewrite (thp_same q x M1), (thp_same q q M1); try reflexivity. symmetry. apply Z.div_unique with (r := x - q / NP * NP); [left|]; clear - Hx; lia. }
    pose proof (Z.mod_mul (q / NP + 1) NP ltac:(clear - Hnp; lia)) as Hm1. pose proof (Z.div_mod q NP ltac:(clear - Hnp; lia)) as D. pose proof (Z.mod_pos_bound q NP ltac:(clear - Hnp; lia)) as M. clear M1.
    revert D M Hm1 Same0. generalize (q / NP) as h. generalize (q mod NP) as r. intros r h D M Hm1 Same0. set (h1 := (h + 1) * NP) in *.
    assert (Eh : q + (NP - r) = h1) by (clear - D; subst h1; lia). assert (Hh : h1 * hp = h * NP * hp + k_huge) by (clear - En; subst h1; nia).
    assert (Same : forall x, q <= x < h1 -> F x = F q) by (intros x Hx; apply Same0; clear - Hx D M Eh; subst h1; lia). clear Same0. clearbody h1.
    assert (Ho1 : q <= h1 <= e -> head_ok (e + 1) h1 no_head) by (intros; apply W1; assumption). clear W1 Hm1. assert (Hah : a <= h1 * hp) by (clear - G3 Eh M Hp; nia).
    destruct (Z.leb_spec (e - q + 1 - (NP - r)) 0) as [L|L].
    { intros X. injection X as <-. apply One. intros x Hx. apply Same. lia. }
    rewrite <- Hh. destruct (seek hp d (h1 * hp)) as [pos2|] eqn:Es; [|discriminate]. apply seek_is in Es; [|lia]. cbn [obind].
    replace (e - q + 1 - (NP - r)) with (e + 1 - h1) by lia. apply finish_exact; try lia; try assumption.
    + apply Ho1; lia.
    + replace (hp - (a - q * hp) + (NP - r - 1) * hp) with (h1 * hp - a) by lia. destruct (add_stats_spec no_stats (F q) (h1 * hp - a)) as (-> & _). cbn [s_stale no_stats].
      rewrite (bytes_same ST (stale (F q))); [cbn; lia|nia|]. intros x Hx. unfold ST. rewrite Same; [reflexivity|]. destruct Hx as (Hx & Hx2). apply Cov in Hx. assert ((a + (h1 * hp - a) - 1) / hp = h1 - 1) by (symmetry; apply Z.div_unique with (r := hp - 1); lia). lia.
    + replace (hp - (a - q * hp) + (NP - r - 1) * hp) with (h1 * hp - a) by lia. destruct (add_stats_spec no_stats (F q) (h1 * hp - a)) as (_ & -> & _). cbn [s_locked no_stats].
      rewrite (bytes_same LK (locked (F q))); [cbn; lia|nia|]. intros x Hx. unfold LK. rewrite Same; [reflexivity|]. destruct Hx as (Hx & Hx2). apply Cov in Hx. assert ((a + (h1 * hp - a) - 1) / hp = h1 - 1) by (symmetry; apply Z.div_unique with (r := hp - 1); lia). lia.
    + reflexivity.
  - destruct (M2 eq_refl) as (K & ->). clear Land G6 Cov Cov2 M1 M2. replace (e - q + 1 - 1) with (e + 1 - (q + 1)) by lia. apply finish_exact; try lia.
    + apply head_small; [exact K|apply HW; lia].
    + replace (hp - (a - q * hp)) with ((q + 1) * hp - a) by lia. destruct (add_stats_spec no_stats (F q) ((q + 1) * hp - a)) as (-> & _). cbn [s_stale no_stats]. rewrite (bytes_page ST q) by lia. reflexivity.
    + replace (hp - (a - q * hp)) with ((q + 1) * hp - a) by lia. destruct (add_stats_spec no_stats (F q) ((q + 1) * hp - a)) as (_ & -> & _). cbn [s_locked no_stats]. rewrite (bytes_page LK q) by lia. reflexivity.
    + reflexivity.
Qed.

Lemma flags_get_answers : readable d (a / k_huge * NP) (e + 1) -> exists s, flags_get hp d scan a n = Some s.
Proof.
  pose proof hp_pos as Hp. destruct (geometry a n Ha Hn Hb) as (G1 & G2 & G3 & G4 & G5 & G6). cbv zeta in *. fold q in G1, G3, G5, G6. fold e in G2, G4, G5, G6. intros R.
  pose proof (wf_pages a n Ha Hn Hw) as HW. fold q e in HW. destruct NP_hp as (En & Hnp).
  assert (Ea : a / k_huge = q / NP) by (unfold q; replace k_huge with (hp * NP) by (clear - En; lia); symmetry; apply Z.div_div; clear - Hp Hnp; lia). rewrite Ea in R.
  pose proof (first_nonneg q ltac:(lia)) as Fq. assert (Fe : q / NP * NP <= e / NP * NP) by (apply Z.mul_le_mono_nonneg_r; [lia|apply Z.div_le_mono; lia]).
  assert (Land : Z.land (q * hp) (k_huge - 1) / hp = q mod NP).
  { rewrite (land_pow2_mod' _ k_huge) by (exists 21; split; [lia|reflexivity]). rewrite <- En, Z.mul_mod_distr_r by lia. apply Z.div_mul. lia. }
  unfold flags_get. fold NP. clear Ea. pose proof R as (Ho & _). clearbody NP q e. rewrite Ho. cbn [negb]. destruct (Z.eqb_spec n 0); [lia|]. rewrite G1, G2, G6. cbv zeta.
  destruct (maybe_read_one_ok _ _ q R ltac:(lia) ltac:(lia) ltac:(lia) ltac:(apply HW; lia)) as (((w & hg) & pos) & Em). rewrite Em. cbn [obind fst snd].
  apply maybe_read_one_spec in Em; [|lia|apply HW; lia]. destruct Em as (-> & M1 & M2).
  destruct (Z.eqb_spec (e - q + 1) 1) as [E|E]; [eauto|].
  destruct (maybe_read_one_ok _ _ e R ltac:(lia) ltac:(lia) ltac:(lia) ltac:(apply HW; lia)) as (r2 & Er). 
  destruct hg.
  - rewrite Land. clear Land G6. rewrite huge_floor. assert (W1 : forall x, x mod NP = 0 -> q <= x <= e -> head_ok (e + 1) x no_head) by (intros; apply head_start; auto).
    pose proof (Z.mod_mul (q / NP + 1) NP ltac:(clear - Hnp; lia)) as Hm1. pose proof (Z.div_mod q NP ltac:(clear - Hnp; lia)) as D. pose proof (Z.mod_pos_bound q NP ltac:(clear - Hnp; lia)) as M. clear M1 M2 Fe.
    revert R Fq D M Hm1. generalize (q / NP) as h. generalize (q mod NP) as r. intros r h R Fq D M Hm1. set (h1 := (h + 1) * NP) in *.
    assert (Eh : q + (NP - r) = h1) by (clear - D; subst h1; lia). assert (Hh : h1 * hp = h * NP * hp + k_huge) by (clear - En; subst h1; nia). clearbody h1.
    assert (Ho1 : q <= h1 <= e -> head_ok (e + 1) h1 no_head) by (intros; apply W1; assumption). clear W1 Hm1.
    destruct (Z.leb_spec (e - q + 1 - (NP - r)) 0) as [L|L]; [eauto|].
    rewrite <- Hh. rewrite (seek_ok _ _ h1 R) by lia. cbn [obind].
    replace (e - q + 1 - (NP - r)) with (e + 1 - h1) by lia.
    destruct (flags_many_ok (Z.to_nat (e + 1 - h1)) (e + 1) h1 (e + 1 - h1 - 1) no_head (add_stats no_stats (F q) (hp - (a - q * hp) + (NP - r - 1) * hp)) _ _ R) as (s1 & Es); try lia; [intros; apply HW; lia| |].
    { apply Ho1; lia. }
    rewrite Es. cbn [obind]. replace ((e + 1) * hp - hp) with (e * hp) by lia. rewrite Er. cbn [obind]. eauto.
  - destruct (M2 eq_refl) as (K & ->). replace (e - q + 1 - 1) with (e + 1 - (q + 1)) by lia.
    destruct (flags_many_ok (Z.to_nat (e + 1 - (q + 1))) (e + 1) (q + 1) (e + 1 - (q + 1) - 1) no_head (add_stats no_stats (F q) (hp - (a - q * hp))) _ _ R) as (s1 & Es); try lia; [intros; apply HW; lia| |].
    { apply head_small; [exact K|apply HW; lia]. }
    rewrite Es. cbn [obind]. replace ((e + 1) * hp - hp) with (e * hp) by lia. rewrite Er. cbn [obind]. eauto.
Qed.
End Get.

Lemma stale_loop_spec m : forall hi q0 idx start hd b, 0 <= idx -> idx + Z.of_nat m = NP -> (forall x, q0 <= x < hi -> W x) -> q0 + NP <= hi -> head_ok hi (q0 + idx) hd ->
  (start = -1 \/ 0 <= start < idx) -> (forall j, start <= j < idx -> start <> -1 -> ST (q0 + j) = true) ->
  (forall j, 0 <= j -> bit b j = (j <? (if start =? -1 then idx else start)) && ST (q0 + j)) ->
  exists b', stale_loop NP (map file (zseq (q0 + idx) m)) idx start hd b = Some b' /\ forall j, 0 <= j -> bit b' j = (j <? NP) && ST (q0 + j).
Proof.
  destruct NP_hp as (En & Hn). induction m as [|m IH]; intros hi q0 idx start hd b Hi Hm HW Hh Ho Hs Hst Hb.
  - cbn [zseq map stale_loop]. assert (idx = NP) by lia. eexists. split; [reflexivity|]. intros j Hj. destruct (Z.eqb_spec start (-1)) as [E|E].
    + rewrite (Hb j Hj). f_equal. lia.
    + unfold set_range. change k_max_bits with 512. rewrite set_range_value_spec by lia. rewrite (Hb j Hj). unfold in_range.
      destruct (Z.leb_spec start j), (Z.ltb_spec j (start + (NP - start))); cbn [andb].
      * rewrite Hst by lia. replace (j <? NP) with true by lia. reflexivity.
      * replace (j <? start) with false by lia. replace (j <? NP) with false by lia. reflexivity.
      * replace (j <? start) with true by lia. replace (j <? NP) with true by lia. reflexivity.
      * lia.
  - cbn [zseq map stale_loop]. pose proof (head_step hi (q0 + idx) hd ltac:(lia) (HW (q0 + idx) ltac:(lia)) ltac:(intros; apply HW; lia) Ho) as (A1 & A2 & A3). cbv zeta in A1, A2.
    set (hd1 := if page_head (file (q0 + idx)) then file (q0 + idx) else hd) in *. rewrite flag_tail.
    assert (Ew : (if tail (file (q0 + idx)) then hd1 else file (q0 + idx)) = F (q0 + idx)) by (destruct (tail (file (q0 + idx))); [apply A2; reflexivity|symmetry; apply A3; reflexivity]).
    assert (Eh : tail (file (q0 + idx)) && (hd1 =? no_head) = false).
    { destruct (tail (file (q0 + idx))); [|reflexivity]. destruct (A2 eq_refl) as (_ & K). destruct (Z.eqb_spec hd1 no_head); [contradiction|reflexivity]. }
    rewrite Eh, Ew, flag_stale. fold (ST (q0 + idx)). replace (q0 + idx + 1) with (q0 + (idx + 1)) in * by lia. destruct (ST (q0 + idx)) eqn:Es.
    + apply (IH hi); try assumption; try lia.
      * destruct (Z.eqb_spec start (-1)); lia.
      * intros j Hj Hne. destruct (Z.eqb_spec start (-1)); [replace j with idx by lia; exact Es|]. destruct (Z.eq_dec j idx) as [->|]; [exact Es|apply Hst; lia].
      * intros j Hj. rewrite (Hb j Hj). destruct (Z.eqb_spec start (-1)) as [Ei|Ei]; [destruct (Z.eqb_spec idx (-1)); [lia|reflexivity]|]. destruct (Z.eqb_spec start (-1)); [lia|reflexivity].
    + destruct (Z.eqb_spec start (-1)) as [E|E].
      * apply (IH hi); try assumption; try lia. intros j Hj. rewrite (Hb j Hj). destruct (Z.eqb_spec start (-1)); [|lia]. destruct (Z.eq_dec j idx) as [->|]; [rewrite Es, !andb_false_r; reflexivity|]. f_equal. lia.
      * apply (IH hi); try assumption; try lia. intros j Hj. change (-1 =? -1) with true. cbn match. unfold set_range. change k_max_bits with 512. rewrite set_range_value_spec by lia. rewrite (Hb j Hj). unfold in_range.
        destruct (Z.leb_spec start j), (Z.ltb_spec j (start + (idx - start))); cbn [andb].
        -- rewrite Hst by lia. replace (j <? idx + 1) with true by lia. reflexivity.
        -- replace (j <? start) with false by lia. cbn [andb]. destruct (Z.eq_dec j idx) as [->|]; [rewrite Es, andb_false_r; reflexivity|]. replace (j <? idx + 1) with false by lia. reflexivity.
        -- replace (j <? start) with true by lia. replace (j <? idx + 1) with true by lia. reflexivity.
        -- lia.
Qed.

Lemma W_huge h x : one_thp hp file h \/ small_pages hp file h -> h * NP <= x < h * NP + NP -> W x.
Proof. intros H Hx. unfold W. replace (x / NP) with h; [exact H|]. apply Z.div_unique with (r := x - h * NP); lia. Qed.

Lemma stale_bitmap_spec h : 0 <= h -> one_thp hp file h \/ small_pages hp file h ->
  (forall b, stale_bitmap hp d (h * k_huge) = Some b -> forall j, 0 <= j -> bit b j = (j <? NP) && ST (h * NP + j)) /\
  (readable d (h * NP) (h * NP + NP) -> exists b, stale_bitmap hp d (h * k_huge) = Some b).
Proof.
  intros Hh HW. destruct NP_hp as (En & Hn). unfold stale_bitmap. fold NP. change k_entry_size with 8.
  rewrite (land_pow2_mod' _ k_huge) by (exists 21; split; [lia|reflexivity]). rewrite Z.mod_mul, Z.eqb_refl by (change k_huge with 2097152; lia). cbn [negb].
  replace (h * k_huge) with (h * NP * hp) by lia.
  destruct (stale_loop_spec (Z.to_nat NP) (h * NP + NP) (h * NP) 0 (-1) no_head clear_all) as (b' & E & B); try lia.
  - intros x Hx. apply (W_huge h); assumption.
  - rewrite Z.add_0_r. apply head_start; [apply Z.mod_mul; lia|apply (W_huge h); [assumption|lia]].
  - intros j Hj. rewrite bit_clear_all. change (-1 =? -1) with true. cbn match. replace (j <? 0) with false by lia. reflexivity.
  - rewrite Z.add_0_r in E. split.
    + intros b. destruct (fd_open d); [|discriminate]. cbn [negb]. destruct (seek hp d (h * NP * hp)) as [pos|] eqn:Es; [|discriminate]. apply seek_is in Es; [|nia]. subst pos. cbn [obind].
      destruct (fd_read d (8 * (h * NP)) (8 * NP)) as [l|] eqn:El; [|discriminate]. apply Hd in El; try nia. subst l. cbn [obind]. rewrite E. intros X. injection X as <-. exact B.
    + intros R. pose proof R as (Hop & _). rewrite Hop. cbn [negb]. rewrite (seek_ok _ _ _ R) by lia. cbn [obind]. rewrite (read_ok _ _ _ _ R) by nia. cbn [obind]. eauto.
Qed.

Lemma hugepage_backed a b : 0 <= a -> is_hugepage_backed hp d a = Some b ->
  (b = true -> thp (file (a / hp)) || Z.testbit (file (a / hp)) 17 = true) /\ (b = false -> fd_seek d (8 * (a / hp)) = false \/ thp (file (a / hp)) || Z.testbit (file (a / hp)) 17 = false).
Proof.
  intros Ha. pose proof hp_pos as Hp. assert (Hq : 0 <= a / hp) by (apply Z.div_pos; lia). unfold is_hugepage_backed. destruct (fd_open d); [|discriminate]. cbn [negb].
  replace (base_page hp a) with (a / hp * hp) by (unfold base_page; rewrite (ldiff_pow2' _ hp hp_pow); pose proof (Z.div_mod a hp ltac:(lia)); lia).
  destruct (seek hp d (a / hp * hp)) as [pos|] eqn:Es.
  - pose proof Es as Es'. apply seek_is in Es; [|assumption]. subst pos. destruct (read_one d (8 * (a / hp))) as [(w & pos)|] eqn:Er; [|discriminate]. apply read_one_is in Er; [|assumption]. destruct Er as (-> & _).
    cbn [obind fst]. intros X. injection X as <-. unfold is_hugepage. rewrite flag_thp. unfold page_hugetlbfs. rewrite flag_is by lia. auto.
  - intros X. injection X as <-. split; [discriminate|]. intros _. left. unfold seek, k_entry_size in Es. rewrite Z.div_mul in Es by lia. replace (a / hp * 8) with (8 * (a / hp)) in Es by lia. destruct (fd_seek d _); [discriminate|reflexivity].
Qed.
End File.

(** *** mincore *)
Section Mincore.
Variables (mc : mincore_fn) (res : Z -> bool).
Hypothesis Hmc : mincore_ok hp mc res.

Lemma low_bit w : (Z.land w 1 =? 1) = Z.odd w.
Proof. change 1 with (Z.ones 1). rewrite Z.land_ones by lia. change (2 ^ 1) with 2. change (Z.ones 1) with 1. rewrite Zmod_odd. destruct (Z.odd w); reflexivity. Qed.

Definition table (l : list Z) (q idx m : Z) : Prop := 0 <= idx < 4096 /\ length l = Z.to_nat (Z.min 4096 (idx + m)) /\ forall i w, 0 <= i -> nth_error l (Z.to_nat i) = Some w -> Z.odd w = res (q - idx + i).
Lemma table_get l q idx m : table l q idx m -> 0 < m -> exists w, nth_error l (Z.to_nat idx) = Some w /\ Z.odd w = res q.
Proof.
  intros (H1 & H2 & H3) Hm. destruct (nth_error l (Z.to_nat idx)) as [w|] eqn:E.
  - exists w. split; [reflexivity|]. rewrite (H3 idx w ltac:(lia) E). f_equal. lia.
  - apply nth_error_None in E. lia.
Qed.
Lemma table_call l q m : 0 <= q -> 0 < m -> mc (q * hp) (Z.min (m * hp) (hp * k_array)) = Some l -> table l q 0 m.
Proof.
  intros Hq Hm E. pose proof hp_pos. replace (Z.min (m * hp) (hp * k_array)) with (Z.min m 4096 * hp) in E by (change k_array with 4096; nia). destruct (Hmc q (Z.min m 4096) l Hq ltac:(lia) E) as (A & B).
  split; [lia|]. split; [rewrite A; f_equal; lia|]. intros i w Hi Ew. rewrite Z.sub_0_r. apply B; assumption.
Qed.
Lemma table_next l q idx m : table l q idx m -> 1 < m -> idx + 1 <> 4096 -> table l (q + 1) (idx + 1) (m - 1).
Proof. intros (H1 & H2 & H3) Hm Hi. split; [lia|]. split; [rewrite H2; f_equal; lia|]. intros i w A B. rewrite (H3 i w A B). f_equal. lia. Qed.

Lemma mincore_loop_spec fuel : forall l q idx m total, 0 <= q -> 0 < m -> (Z.to_nat m <= fuel)%nat -> table l q idx m ->
  (exists q' n', mincore_loop fuel hp mc l idx (q * hp) (m * hp) total = Some None /\ mc (q' * hp) (n' * hp) = None /\ 0 < n' /\ q <= q' /\ q' + n' <= q + m) \/
  exists l' idx', mincore_loop fuel hp mc l idx (q * hp) (m * hp) total = Some (Some (l', idx', total + bytes_on hp res (q * hp) ((m - 1) * hp))) /\ table l' (q + m - 1) idx' 1.
Proof.
  pose proof hp_pos as Hp. assert (Stop : forall fl l q idx total, table l q idx 1 -> mincore_loop fl hp mc l idx (q * hp) (1 * hp) total = Some (Some (l, idx, total + bytes_on hp res (q * hp) ((1 - 1) * hp))) /\ table l (q + 1 - 1) idx 1).
  { intros fl l q idx total T. replace (q + 1 - 1) with q by lia. split; [|exact T]. change (bytes_on hp res (q * hp) ((1 - 1) * hp)) with 0. rewrite Z.add_0_r, Z.mul_1_l. destruct fl; cbn [mincore_loop]; rewrite Z.leb_refl; reflexivity. }
  induction fuel as [|fuel IH]; intros l q idx m total Hq Hm Hf T; [lia|]. destruct (Z.eq_dec m 1) as [->|Hm1]; [right; exists l, idx; apply Stop; exact T|].
  cbn [mincore_loop]. destruct (Z.leb_spec (m * hp) hp); [nia|]. destruct (table_get l q idx m T Hm) as (w & E & Ew). rewrite E. cbn [obind]. rewrite low_bit, Ew.
  set (t1 := if res q then total + hp else total). assert (Et : total + bytes_on hp res (q * hp) ((m - 1) * hp) = t1 + bytes_on hp res ((q + 1) * hp) ((m - 1 - 1) * hp)).
  { replace ((m - 1) * hp) with (hp + (m - 1 - 1) * hp) by lia. rewrite bytes_app by nia. rewrite (bytes_page res q (q * hp) hp) by lia. replace (q * hp + hp) with ((q + 1) * hp) by lia. unfold t1. destruct (res q); lia. }
  rewrite Et. replace (q * hp + hp) with ((q + 1) * hp) by lia. replace (m * hp - hp) with ((m - 1) * hp) by lia. replace (q + m - 1) with (q + 1 + (m - 1) - 1) by lia.
  change (idx + 1 =? k_array) with (idx + 1 =? 4096). destruct (Z.eqb_spec (idx + 1) 4096) as [Ei|Ei].
  - destruct (mc ((q + 1) * hp) (Z.min ((m - 1) * hp) (hp * k_array))) as [l2|] eqn:Ec.
    + apply table_call in Ec; try lia. destruct (IH l2 (q + 1) 0 (m - 1) t1 ltac:(lia) ltac:(lia) ltac:(lia) Ec) as [(q' & n' & A & B & C & D & F0)|K]; [left; exists q', n'; split; [exact A|]; split; [exact B|]; lia|right; exact K].
    + left. exists (q + 1), (Z.min (m - 1) 4096). split; [reflexivity|]. split; [replace (Z.min (m - 1) 4096 * hp) with (Z.min ((m - 1) * hp) (hp * k_array)) by (change k_array with 4096; nia); exact Ec|lia].
  - destruct (IH l (q + 1) (idx + 1) (m - 1) t1 ltac:(lia) ltac:(lia) ltac:(lia) (table_next _ _ _ _ T ltac:(lia) Ei)) as [(q' & n' & A & B & C & D & F0)|K]; [left; exists q', n'; split; [exact A|]; split; [exact B|]; lia|right; exact K].
Qed.

Lemma residence_spec a n : 0 <= a -> 0 < n -> a + n + hp <= two64 ->
  residence hp mc a n = Some (bytes_on hp res a n) \/
  residence hp mc a n = Some 0 /\ exists q' n', mc (q' * hp) (n' * hp) = None /\ 0 < n' /\ a / hp <= q' /\ q' + n' <= (a + n - 1) / hp + 1.
Proof.
  intros Ha Hn Hb. pose proof hp_pos as Hp. destruct (geometry a n Ha Hn Hb) as (G1 & G2 & G3 & G4 & G5 & G6). cbv zeta in *. set (q := a / hp) in *. set (e := (a + n - 1) / hp) in *. clearbody q e.
  unfold residence. destruct (Z.eqb_spec n 0); [lia|]. rewrite G1, G2. cbv zeta. destruct (Z.eqb_spec ((e + 1) * hp - q * hp) hp) as [E|E].
  - assert (e = q) by nia. subst e. rewrite E. destruct (mc (q * hp) hp) as [l|] eqn:Ec.
    + left. replace hp with (1 * hp) in Ec at 2 by lia. destruct (Hmc q 1 l ltac:(lia) ltac:(lia) Ec) as (A & B). destruct l as [|w l]; [discriminate|]. specialize (B 0 w ltac:(lia) eq_refl). rewrite Z.add_0_r in B.
      cbn [nth_error obind]. rewrite low_bit, B, (bytes_page res q a n) by lia. reflexivity.
    + right. split; [reflexivity|]. exists q, 1. rewrite Z.mul_1_l. split; [exact Ec|lia].
  - assert (Hm : 1 < e - q + 1) by nia. replace ((e + 1) * hp - q * hp) with ((e - q + 1) * hp) by lia. destruct (mc (q * hp) _) as [l|] eqn:Ec.
    + apply table_call in Ec; try lia. destruct (table_get _ _ _ _ Ec ltac:(lia)) as (w & E1 & E2). change (Z.to_nat 0) with O in E1. rewrite E1. cbn [obind]. rewrite low_bit, E2. rewrite Z.div_mul by lia.
      replace (q * hp + hp) with ((q + 1) * hp) by lia. replace ((e - q + 1) * hp - hp) with ((e - q) * hp) by lia. set (first := hp - (a - q * hp)). set (t0 := if res q then first else 0).
      pose proof (table_next _ _ _ _ Ec Hm ltac:(lia)) as T1. replace (0 + 1) with 1 in T1 by lia. replace (e - q + 1 - 1) with (e - q) in T1 by lia.
      destruct (mincore_loop_spec (Z.to_nat (e - q + 1)) l (q + 1) 1 (e - q) t0 ltac:(lia) ltac:(lia) ltac:(lia) T1) as [(q' & n' & A & B & C & D & K)|(l' & idx' & A & T2)]; rewrite A; cbn [obind].
      * right. split; [reflexivity|]. exists q', n'. split; [exact B|]. lia.
      * left. destruct (table_get _ _ _ _ T2 ltac:(lia)) as (w2 & E3 & E4). rewrite E3. cbn [obind]. rewrite low_bit, E4. replace (q + 1 + (e - q) - 1) with e by lia. f_equal. set (last := hp - ((e + 1) * hp - a - n)).
        assert (En : n = first + ((e - q - 1) * hp + last)) by (unfold first, last; nia). rewrite En at 1. rewrite !bytes_app by (unfold first, last; nia).
        rewrite (bytes_page res q a first) by (unfold first; lia). replace (a + first) with ((q + 1) * hp) by (unfold first; lia). replace ((q + 1) * hp + (e - q - 1) * hp) with (e * hp) by lia.
        rewrite (bytes_page res e (e * hp) last) by (unfold last; lia). unfold t0. destruct (res q), (res e); lia.
    + right. split; [reflexivity|]. exists q, (Z.min (e - q + 1) 4096). split; [|lia]. replace (Z.min (e - q + 1) 4096 * hp) with (Z.min ((e - q + 1) * hp) (hp * k_array)) by (change k_array with 4096; nia). exact Ec.
Qed.
End Mincore.
End Pages.

(** ** The property theorems

    What Residency::Get reports about any range of bytes is the number of its bytes on resident and on swapped pages, and which of
    its first 512 pages are resident; if nothing fails it reports something. *)
Theorem residency_exact : forall hp d file a n, page_size_ok hp -> reads d file -> 0 <= a -> 0 < n -> a + n + hp <= two64 ->
  (forall i, residency_get hp d a n = Some i ->
     i_resident i = bytes_on hp (fun q => resident (file q)) a n /\ i_swapped i = bytes_on hp (fun q => swapped (file q)) a n /\
     forall j, 0 <= j -> bit (i_bits i) j = (j <? (a + n - 1) / hp - a / hp + 1) && (j <? 512) && resident (file (a / hp + j))) /\
  (readable d (a / hp) ((a + n - 1) / hp + 1) -> exists i, residency_get hp d a n = Some i).
Proof. intros hp d file a n Hp Hd Ha Hn Hb. split; [intros i; exact (get_exact hp Hp d file Hd a n i Ha Hn Hb)|exact (get_answers hp Hp d file Hd a n Ha Hn Hb)]. Qed.
Print Assumptions residency_exact.

(** The bitmaps of a hugepage: a page is unbacked if it is neither resident nor swapped. *)
Theorem unbacked_bitmaps_exact : forall hp d file h, page_size_ok hp -> reads d file -> 0 <= h ->
  let n := k_huge / hp in
  (forall u s, unbacked_and_swapped hp d (h * k_huge) = Some (u, s) -> forall j, 0 <= j ->
     let w := file (h * n + j) in
     bit u j = (j <? n) && negb (resident w) && negb (swapped w) /\ bit s j = (j <? n) && negb (resident w) && swapped w) /\
  (readable d (h * n) (h * n + n) -> exists r, unbacked_and_swapped hp d (h * k_huge) = Some r).
Proof. intros hp d file h Hp Hd Hh n. split; [intros u s; exact (unbacked_exact hp Hp d file Hd h u s Hh)|exact (unbacked_answers hp Hp d file Hd h Hh)]. Qed.
Print Assumptions unbacked_bitmaps_exact.

(** What PageFlags::Get reports about any range of bytes, with small pages and transparent hugepages in any order: the number of
    bytes on stale and on locked pages; the scan interval is reported exactly when there are stale bytes. *)
Theorem page_flags_exact : forall hp d file scan a n, page_size_ok hp -> reads d file -> 0 <= a -> 0 < n -> a + n + hp <= two64 -> wf_flags hp file a n ->
  (forall s, flags_get hp d scan a n = Some s ->
     let st := bytes_on hp (fun q => stale (flags_of hp file q)) a n in
     s_stale s = st /\ s_locked s = bytes_on hp (fun q => locked (flags_of hp file q)) a n /\ s_scan s = if 0 <? st then scan else 0) /\
  (readable d (a / k_huge * (k_huge / hp)) ((a + n - 1) / hp + 1) -> exists s, flags_get hp d scan a n = Some s).
Proof.
  intros hp d file scan a n Hp Hd Ha Hn Hb Hw. split; [intros s; exact (flags_get_exact hp Hp d file Hd scan a n Ha Hn Hb Hw s)|exact (flags_get_answers hp Hp d file Hd scan a n Ha Hn Hb Hw)].
Qed.
Print Assumptions page_flags_exact.

(** The bitmap of the stale pages of a hugepage. *)
Theorem stale_bitmap_exact : forall hp d file h, page_size_ok hp -> reads d file -> 0 <= h -> one_thp hp file h \/ small_pages hp file h ->
  let n := k_huge / hp in
  (forall b, stale_bitmap hp d (h * k_huge) = Some b -> forall j, 0 <= j -> bit b j = (j <? n) && stale (flags_of hp file (h * n + j))) /\
  (readable d (h * n) (h * n + n) -> exists b, stale_bitmap hp d (h * k_huge) = Some b).
Proof. intros hp d file h Hp Hd Hh Hw. exact (stale_bitmap_spec hp Hp d file Hd h Hh Hw). Qed.
Print Assumptions stale_bitmap_exact.

(** IsHugepageBacked says yes only for a hugepage; it says no only if it is none, or if the position in the file could not be set. *)
Theorem hugepage_backed_sound : forall hp d file a b, page_size_ok hp -> reads d file -> 0 <= a -> is_hugepage_backed hp d a = Some b ->
  let w := file (a / hp) in
  (b = true -> thp w || Z.testbit w 17 = true) /\ (b = false -> fd_seek d (8 * (a / hp)) = false \/ thp w || Z.testbit w 17 = false).
Proof. intros hp d file a b Hp Hd Ha E. exact (hugepage_backed hp Hp d file Hd a b Ha E). Qed.
Print Assumptions hugepage_backed_sound.

(** MInCore::residence never reads a byte that mincore(2) has not written, and returns the number of bytes on resident pages, or 0
    if a call of mincore(2) about pages of the range failed. *)
Theorem mincore_exact : forall hp mc res a n, page_size_ok hp -> mincore_ok hp mc res -> 0 <= a -> 0 < n -> a + n + hp <= two64 ->
  residence hp mc a n = Some (bytes_on hp res a n) \/
  residence hp mc a n = Some 0 /\ exists q m, mc (q * hp) (m * hp) = None /\ 0 < m /\ a / hp <= q /\ q + m <= (a + n - 1) / hp + 1.
Proof. intros hp mc res a n Hp Hm Ha Hn Hb. exact (residence_spec hp Hp mc res Hm a n Ha Hn Hb). Qed.
Print Assumptions mincore_exact.

(** ** Concrete cases *)
Definition xfile (f : Z -> Z) : fdesc := Fd true (fun _ => true) (fun o n => Some (map f (zseq (o / 8) (Z.to_nat (n / 8))))).
Lemma xfile_reads f : reads (xfile f) f.
Proof.
  intros q n l Hq Hn E. cbn in E. injection E as <-. rewrite (Z.mul_comm 8 q), (Z.mul_comm 8 n), !Z.div_mul by lia. reflexivity.
Qed.
Lemma xfile_readable f q0 q1 : readable (xfile f) q0 q1.
Proof. split; [reflexivity|]. split; [reflexivity|]. intros; discriminate. Qed.
(** Pages 3 and 5 are resident, page 4 is swapped: of the 9000 bytes at 16000, 384 + 4096 are resident, 4096 are swapped and 424 are on page 6. *)
Definition xmap (q : Z) : Z := if (q =? 3) || (q =? 5) then 2 ^ 63 else if q =? 4 then 2 ^ 62 else 0.
Example residency_case : option_map (fun i => (i_resident i, i_swapped i, map (bit (i_bits i)) (zseq 0 4))) (residency_get 4096 (xfile xmap) 16000 9000) = Some (384 + 4096, 4096, [true; false; true; false]).
Proof. vm_compute. reflexivity. Qed.
(** A stale transparent hugepage followed by small pages of which the second is stale and locked. *)
Definition xflags (q : Z) : Z :=
  if q =? 512 then 2 ^ 15 + 2 ^ 22 + 2 ^ 44 else if (512 <? q) && (q <? 1024) then 2 ^ 16 + 2 ^ 22 else if q =? 1025 then 2 ^ 44 + 2 ^ 33 else 0.
Lemma xflags_wf n : 0 < n <= 2 * k_huge -> wf_flags 4096 xflags (700 * 4096 + 96) n.
Proof.
  intros Hn h Hh. assert (H : 1 <= h <= 3).
  { change ((700 * 4096 + 96) / k_huge) with 1 in Hh. split; [lia|]. assert ((700 * 4096 + 96 + n - 1) / k_huge < 4) by (apply Z.div_lt_upper_bound; change k_huge with 2097152 in *; lia). lia. }
  destruct (Z.eq_dec h 1) as [->|].
  - left. split; [vm_compute; auto|]. change (k_huge / 4096) with 512. intros q Hq. unfold xflags. replace (q =? 512) with false by lia. replace ((512 <? q) && (q <? 1024)) with true by lia. vm_compute. auto.
  - right. unfold small_pages. cbv zeta. change (k_huge / 4096) with 512. intros q Hq. unfold xflags. replace (q =? 512) with false by lia. replace ((512 <? q) && (q <? 1024)) with false by lia.
    destruct (q =? 1025); vm_compute; auto.
Qed.
Example flags_case : wf_flags 4096 xflags (700 * 4096 + 96) (324 * 4096 + 5000) /\
  flags_get 4096 (xfile xflags) 240 (700 * 4096 + 96) (324 * 4096 + 5000) = Some (PStats (324 * 4096 - 96 + 1000) 1000 240).
Proof. split; [apply xflags_wf; vm_compute; split; [reflexivity|discriminate]|vm_compute; reflexivity]. Qed.
Example stale_case : (one_thp 4096 xflags 1 \/ small_pages 4096 xflags 1) /\ option_map (fun b => map (bit b) [0; 1; 511; 512]) (stale_bitmap 4096 (xfile xflags) k_huge) = Some [true; true; true; false] /\
  option_map (fun b => map (bit b) [0; 1; 2]) (stale_bitmap 4096 (xfile xflags) (2 * k_huge)) = Some [false; true; false].
Proof. split; [apply (xflags_wf 1); [change k_huge with 2097152; lia|vm_compute; split; discriminate]|vm_compute; auto]. Qed.
(** 5000 pages need two calls of mincore(2). *)
Definition xmc (a n : Z) : option (list Z) := Some (map (fun q => if q mod 3 =? 0 then 255 else 254) (zseq (a / 4096) (Z.to_nat (n / 4096)))).
Lemma zseq_nth i n k : (k < n)%nat -> nth_error (zseq i n) k = Some (i + Z.of_nat k).
Proof. revert i k. induction n as [|n IH]; intros i [|k] H; try lia; cbn [zseq nth_error]; [f_equal; lia|]. rewrite IH by lia. f_equal. lia. Qed.
Example mincore_case : mincore_ok 4096 xmc (fun q => q mod 3 =? 0) /\ residence 4096 xmc 100 (5000 * 4096) = Some (1666 * 4096 + 4096 - 100).
Proof.
  split; [|vm_compute; reflexivity]. intros q n l Hq Hn E. unfold xmc in E. rewrite !Z.div_mul in E by lia. injection E as <-. rewrite map_length, zseq_length. split; [reflexivity|].
  intros i w Hi E. rewrite nth_error_map in E. destruct (Nat.ltb_spec (Z.to_nat i) (Z.to_nat n)).
  - rewrite zseq_nth in E by assumption. cbn [option_map] in E. rewrite Z2Nat.id in E by lia. injection E as <-. destruct ((q + i) mod 3 =? 0); reflexivity.
  - rewrite (proj2 (nth_error_None _ _)) in E by (rewrite zseq_length; lia). discriminate.
Qed.
