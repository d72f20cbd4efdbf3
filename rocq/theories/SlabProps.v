(** C22: a CPU's slab behaves, for every layout and every sequence of operations, as one
    bounded stack per size class. *)
From Verif Require Import Base Slab.

(** ** Specification: a stack and a capacity for each class, most recent object first. *)
Definition astate := Z -> list Z * Z.
Definition zlen (l : list Z) : Z := Z.of_nat (length l).

Definition a_step (c : scfg) (a : astate) (o : sop) : astate * sres :=
  match o with
  | OPush cl item =>
      let (l, cap) := a cl in
      if zlen l <? cap then (upd a cl (item :: l, cap), RBool true) else (a, RBool false)
  | OPop cl =>
      let (l, cap) := a cl in
      match l with x :: l => (upd a cl (l, cap), RObj (Some x)) | [] => (a, RObj None) end
  | OPushBatch cl batch =>
      let (l, cap) := a cl in
      let n := Z.min (zlen batch) (cap - zlen l) in
      (upd a cl (skipn (length batch - Z.to_nat n) batch ++ l, cap), RNum n)
  | OPopBatch cl len =>
      let (l, cap) := a cl in
      (upd a cl (skipn (Z.to_nat len) l, cap), RObjs (firstn (Z.to_nat len) l))
  | OGrow cl len | OGrowOther cl len =>
      let (l, cap) := a cl in
      let n := Z.min len (s_max c cl - cap) in
      (upd a cl (l, cap + n), RNum n)
  | OShrink cl len =>
      let (l, cap) := a cl in
      let n := Z.min len cap in
      (* The capacity falls by n; objects go only when the free capacity does not suffice. *)
      let gone := Z.to_nat (zlen l - (cap - n)) in
      (upd a cl (skipn gone l, cap - n), RShrunk (rev (firstn gone l)) n)
  | ODrain => (fun _ => ([], 0), RDrained (map (fun cl => (cl, rev (fst (a cl)), snd (a cl))) (zseq 1 (Z.to_nat (s_classes c - 1)))))
  | OLength cl => (a, RNum (zlen (fst (a cl))))
  | OCapacity cl => (a, RNum (snd (a cl)))
  | OIsDrained => (a, RBool (forallb (fun cl => snd (a cl) =? 0) (zseq 1 (Z.to_nat (s_classes c - 1)))))
  end.

Fixpoint outputs {S : Type} (step : S -> sop -> S * sres) (s : S) (ops : list sop) : list sres :=
  match ops with [] => [] | o :: ops => let (s, r) := step s o in r :: outputs step s ops end.
Fixpoint final {S : Type} (step : S -> sop -> S * sres) (s : S) (ops : list sop) : S :=
  match ops with [] => s | o :: ops => final step (fst (step s o)) ops end.

(** What a caller may pass: a class that exists, objects whose address is even, lengths
    that fit in 16 bits. *)
Definition is_class (c : scfg) (cl : Z) : Prop := 1 <= cl < s_classes c.
Definition op_ok (c : scfg) (o : sop) : Prop :=
  match o with
  | OPush cl item => is_class c cl /\ Z.even item = true
  | OPop cl => is_class c cl
  | OPushBatch cl batch => is_class c cl /\ Forall (fun x => Z.even x = true) batch
  | OPopBatch cl len => is_class c cl /\ 0 <= len
  | OGrow cl len | OGrowOther cl len | OShrink cl len => is_class c cl /\ 0 <= len < 2 ^ 16
  | OLength cl | OCapacity cl => is_class c cl
  | ODrain | OIsDrained => True
  end.

(** The words a layout needs: the headers, a word of mark before every class that does not
    follow an empty class, and the objects. *)
Definition mark (c : scfg) (cl : Z) : Z := if (cl =? 1) || negb (s_max c (cl - 1) =? 0) then 1 else 0.
Definition header_words (c : scfg) : Z := (s_classes c * 4 + 7) / 8.
Definition words_before (c : scfg) (cl : Z) : Z :=
  header_words c + zsum (map (fun k => mark c k + s_max c k) (zseq 1 (Z.to_nat (cl - 1)))).
Definition words_needed (c : scfg) : Z := words_before c (s_classes c).

Definition layout_ok (c : scfg) : Prop := 1 <= s_classes c /\ 0 <= s_shift c /\ forall cl, 0 <= s_max c cl.
Definition first_word (c : scfg) (cl : Z) : Z := words_before c cl + mark c cl.

(** ** The layout *)
Lemma header_area_eq c : 0 <= s_classes c -> header_area c = 8 * header_words c.
Proof.
  intros H. unfold header_area, header_words, header_bytes, word_bytes.
  replace (Z.lnot (8 - 1)) with (Z.lnot (2 ^ 3 - 1)) by reflexivity.
  rewrite <- Z.ldiff_land. replace (2 ^ 3 - 1) with (Z.ones 3) by reflexivity.
  rewrite Z.ldiff_ones_r by lia. rewrite Z.shiftl_mul_pow2, Z.shiftr_div_pow2 by lia. lia.
Qed.

Lemma words_before_next c cl : 1 <= cl -> words_before c (cl + 1) = first_word c cl + s_max c cl.
Proof.
  intros H. unfold words_before, first_word, words_before.
  replace (Z.to_nat (cl + 1 - 1)) with (Z.to_nat (cl - 1) + 1)%nat by lia.
  rewrite zseq_app, map_app, zsum_app. replace (1 + Z.of_nat (Z.to_nat (cl - 1))) with cl by lia.
  cbn [zseq map zsum fold_right]. unfold zsum. cbn. lia.
Qed.

Lemma first_word_1 c : first_word c 1 = header_words c + 1.
Proof.
  unfold first_word, words_before, mark. change (Z.to_nat (1 - 1)) with 0%nat. change (1 =? 1) with true.
  cbn [zseq map orb]. change (zsum []) with 0. lia.
Qed.

Lemma mark_bounds c cl : 0 <= mark c cl <= 1.
Proof. unfold mark. destruct (_ || _); lia. Qed.

Lemma first_word_next c cl : 1 <= cl -> first_word c (cl + 1) = first_word c cl + s_max c cl + mark c (cl + 1).
Proof. intros H. unfold first_word at 1. rewrite words_before_next by lia. lia. Qed.

Lemma first_word_mono c cl n : layout_ok c -> 1 <= cl -> first_word c cl <= first_word c (cl + Z.of_nat n).
Proof.
  intros Hl H. induction n as [|n IH]; [rewrite Z.add_0_r; lia|].
  rewrite Nat2Z.inj_succ, <- Z.add_1_r, Z.add_assoc, first_word_next by lia.
  destruct Hl as (_ & _ & Hm). pose proof (Hm (cl + Z.of_nat n)). pose proof (mark_bounds c (cl + Z.of_nat n + 1)). lia.
Qed.

Lemma first_word_le c cl k : layout_ok c -> 1 <= cl <= k -> first_word c cl <= first_word c k.
Proof. intros Hl H. replace k with (cl + Z.of_nat (Z.to_nat (k - cl))) by lia. apply first_word_mono; lia || assumption. Qed.

(** A class ends before the next begins, with a mark between them unless it is empty. *)
Lemma class_before c cl k : layout_ok c -> 1 <= cl < k ->
  first_word c cl + s_max c cl <= first_word c k /\ (0 < s_max c cl -> first_word c cl + s_max c cl < first_word c k).
Proof.
  intros Hl H. pose proof (first_word_le c (cl + 1) k Hl ltac:(lia)) as Hle.
  rewrite first_word_next in Hle by lia. pose proof (mark_bounds c (cl + 1)). split; [lia|]. intros Hp.
  assert (mark c (cl + 1) = 1); [|lia]. unfold mark. replace (cl + 1 - 1) with cl by lia.
  replace (s_max c cl =? 0) with false by lia. rewrite orb_true_r. reflexivity.
Qed.

Lemma class_in c cl : layout_ok c -> is_class c cl -> header_words c + 1 <= first_word c cl /\ first_word c cl + s_max c cl <= words_needed c.
Proof.
  intros Hl [H1 H2]. split.
  - pose proof (first_word_le c 1 cl Hl ltac:(lia)) as Hle. rewrite first_word_1 in Hle. lia.
  - unfold words_needed. destruct (Z.eq_dec (cl + 1) (s_classes c)) as [<-|Hne].
    + rewrite words_before_next by lia. lia.
    + destruct (class_before c cl (s_classes c) Hl ltac:(lia)) as [Hb _].
      pose proof (words_before_next c (s_classes c - 1) ltac:(lia)) as Hn.
      replace (s_classes c - 1 + 1) with (s_classes c) in Hn by lia.
      pose proof (class_before c cl (s_classes c - 1) Hl ltac:(lia)) as [Hb' _].
      destruct Hl as (_ & _ & Hm). pose proof (Hm (s_classes c - 1)). lia.
Qed.

Definition prev_empty_at (c : scfg) (cl : Z) : bool := negb (cl =? 1) && (s_max c (cl - 1) =? 0).
Lemma prev_empty_mark c cl : (if prev_empty_at c cl then 0 else 1) = mark c cl.
Proof. unfold prev_empty_at, mark. destruct (cl =? 1), (s_max c (cl - 1) =? 0); reflexivity. Qed.
Lemma prev_empty_next c cl : 1 <= cl -> prev_empty_at c (cl + 1) = (s_max c cl =? 0).
Proof. intros H. unfold prev_empty_at. replace (cl + 1 - 1) with cl by lia. replace (cl + 1 =? 1) with false by lia. reflexivity. Qed.

Lemma init_slabs_loop_spec c n : forall cl b b', layout_ok c -> 1 <= cl ->
  words_before c (cl + Z.of_nat n) < 2 ^ 16 ->
  init_slabs_loop c n cl (8 * words_before c cl) (prev_empty_at c cl) b = Some b' ->
  (forall k, cl <= k < cl + Z.of_nat n -> b' k = first_word c k) /\ (forall k, k < cl -> b' k = b k).
Proof.
  induction n as [|n IH]; intros cl b b' Hl Hcl Hlt; cbn [init_slabs_loop].
  { intros [= <-]. split; [lia|reflexivity]. }
  destruct (negb _); [discriminate|].
  replace (if prev_empty_at c cl then 8 * words_before c cl else 8 * words_before c cl + word_bytes) with (8 * first_word c cl)
    by (unfold first_word, word_bytes; rewrite <- prev_empty_mark; destruct (prev_empty_at c cl); lia).
  destruct (_ <? _); [discriminate|].
  replace (8 * first_word c cl + s_max c cl * word_bytes) with (8 * words_before c (cl + 1))
    by (rewrite words_before_next by lia; unfold word_bytes; lia).
  rewrite <- prev_empty_next by lia. intros H. apply IH in H; [|assumption|lia|].
  2: { replace (cl + 1 + Z.of_nat n) with (cl + Z.of_nat (S n)) by lia. assumption. }
  destruct H as [H1 H2].
  assert (Hfw : 0 <= first_word c cl < 2 ^ 16).
  { split.
    - pose proof (first_word_le c 1 cl Hl ltac:(lia)) as Hle. rewrite first_word_1 in Hle.
      assert (0 <= header_words c) by (unfold header_words; destruct Hl; apply Z.div_pos; lia). lia.
    - assert (first_word c cl <= words_before c (cl + Z.of_nat (S n))); [|lia].
      replace (cl + Z.of_nat (S n)) with (cl + Z.of_nat n + 1) by lia. rewrite words_before_next by lia.
      pose proof (first_word_mono c cl n Hl Hcl). destruct Hl as (_ & _ & Hm). pose proof (Hm (cl + Z.of_nat n)). lia. }
  split.
  - intros k Hk. destruct (Z.eq_dec k cl) as [->|Hne]; [|apply H1; lia].
    rewrite H2 by lia. rewrite upd_same. unfold word_bytes. rewrite Z.mul_comm, Z.div_mul by lia. unfold wrap16. apply Z.mod_small. lia.
  - intros k Hk. rewrite H2 by lia. apply upd_other. lia.
Qed.

Lemma words_before_1 c : words_before c 1 = header_words c.
Proof. unfold words_before. change (Z.to_nat (1 - 1)) with 0%nat. cbn [zseq map]. change (zsum []) with 0. lia. Qed.

Lemma init_slabs_spec c b : layout_ok c -> words_needed c < 2 ^ 16 -> init_slabs c = Some b ->
  forall cl, is_class c cl -> b cl = first_word c cl.
Proof.
  intros Hl Hw H cl [H1 H2]. unfold init_slabs in H. rewrite header_area_eq in H by (destruct Hl; lia).
  rewrite <- words_before_1 in H. change false with (prev_empty_at c 1) in H.
  apply init_slabs_loop_spec in H; [|assumption|lia|]. 2: { replace (1 + Z.of_nat (Z.to_nat (s_classes c - 1))) with (s_classes c) by (destruct Hl; lia). assumption. }
  apply (proj1 H). destruct Hl. lia.
Qed.

Lemma init_cpu_loop_spec c n : forall cl r r', layout_ok c -> 1 <= cl ->
  words_before c (cl + Z.of_nat n) < 2 ^ 16 ->
  (mark c cl = 0 -> marked (words r (words_before c cl - 1)) = true) ->
  init_cpu_loop c n cl (words_before c cl) (prev_empty_at c cl) r = Some r' ->
  (forall k, cl <= k < cl + Z.of_nat n -> h_cur r' k = first_word c k /\ h_end r' k = first_word c k /\ marked (words r' (first_word c k - 1)) = true)
  /\ (forall i, i < words_before c cl -> words r' i = words r i)
  /\ (forall k, k < cl -> h_cur r' k = h_cur r k /\ h_end r' k = h_end r k).
Proof.
  induction n as [|n IH]; intros cl r r' Hl Hcl Hlt Hmk; cbn [init_cpu_loop].
  { intros [= <-]. split; [lia|]. split; intros; [reflexivity|split; reflexivity]. }
  destruct (negb _); [discriminate|].
  replace (if prev_empty_at c cl then words_before c cl else words_before c cl + 1) with (first_word c cl)
    by (unfold first_word; rewrite <- prev_empty_mark; destruct (prev_empty_at c cl); lia).
  destruct (_ <? _); [discriminate|].
  rewrite <- words_before_next by lia. rewrite <- prev_empty_next by lia.
  assert (Hfw : 0 <= first_word c cl < 2 ^ 16).
  { split.
    - pose proof (first_word_le c 1 cl Hl ltac:(lia)) as Hle. rewrite first_word_1 in Hle.
      assert (0 <= header_words c) by (unfold header_words; destruct Hl; apply Z.div_pos; lia). lia.
    - assert (first_word c cl <= words_before c (cl + Z.of_nat (S n))); [|lia].
      replace (cl + Z.of_nat (S n)) with (cl + Z.of_nat n + 1) by lia. rewrite words_before_next by lia.
      pose proof (first_word_mono c cl n Hl Hcl). destruct Hl as (_ & _ & Hm). pose proof (Hm (cl + Z.of_nat n)). lia. }
  set (r1 := Region _ _ _).
  assert (Hmark : marked (words r1 (first_word c cl - 1)) = true).
  { subst r1. cbn [words]. unfold first_word. pose proof (prev_empty_mark c cl) as Hp.
    destruct (prev_empty_at c cl); cbn [words].
    - rewrite <- Hp, Z.add_0_r. apply Hmk. lia.
    - rewrite <- Hp. replace (words_before c cl + 1 - 1) with (words_before c cl) by lia. rewrite upd_same.
      unfold marked. rewrite <- Z.bit0_odd, Z.lor_spec. change (Z.testbit 1 0) with true. apply orb_true_r. }
  intros H.
  assert (Hk0 : 0 <= s_max c cl) by (destruct Hl as (_ & _ & Hm); apply Hm).
  pose proof (words_before_next c cl Hcl) as Hnext. pose proof (mark_bounds c cl) as Hmb.
  assert (Hfd : first_word c cl = words_before c cl + mark c cl) by reflexivity.
  apply IH in H; [|assumption|lia| |].
  2: { replace (cl + 1 + Z.of_nat n) with (cl + Z.of_nat (S n)) by lia. assumption. }
  2: { intros Hm0. rewrite Hnext.
       assert (Hz : s_max c cl = 0). { unfold mark in Hm0. replace (cl + 1 - 1) with cl in Hm0 by lia.
         destruct (s_max c cl =? 0) eqn:E; [lia|]. rewrite orb_true_r in Hm0. discriminate. }
       rewrite Hz, Z.add_0_r. assumption. }
  destruct H as (H1 & H2 & H3). split; [|split].
  - intros k Hk. destruct (Z.eq_dec k cl) as [->|Hne]; [|apply H1; lia].
    destruct (H3 cl ltac:(lia)) as [-> ->]. subst r1. cbn [h_cur h_end]. rewrite !upd_same.
    rewrite H2 by lia. unfold wrap16. rewrite Z.mod_small by lia. auto.
  - intros i Hi. rewrite H2 by lia. subst r1. cbn [words]. destruct (prev_empty_at c cl); cbn [words]; [reflexivity|apply upd_other; lia].
  - intros k Hk. destruct (H3 k ltac:(lia)) as [-> ->]. subst r1. cbn [h_cur h_end].
    rewrite !upd_other by lia. destruct (prev_empty_at c cl); split; reflexivity.
Qed.

(** ** The relation between a region and the stacks *)
Definition holds (c : scfg) (r : region) (cl : Z) (x : list Z * Z) : Prop :=
  let (l, cap) := x in
  zlen l <= cap <= s_max c cl
  /\ h_cur r cl = first_word c cl + zlen l
  /\ h_end r cl = first_word c cl + cap
  /\ read_words (words r) (first_word c cl) (zlen l) = rev l
  /\ Forall (fun x => Z.even x = true) l
  /\ marked (words r (first_word c cl - 1)) = true.
Definition refines (c : scfg) (r : region) (a : astate) : Prop := forall cl, is_class c cl -> holds c r cl (a cl).

Lemma init_refines c r r' : layout_ok c -> words_needed c < 2 ^ 16 -> init_cpu c r = Some r' -> refines c r' (fun _ => ([], 0)).
Proof.
  intros Hl Hw H. unfold init_cpu in H. destruct (_ <? _); [discriminate|].
  rewrite header_area_eq in H by (destruct Hl; lia). unfold word_bytes in H. rewrite (Z.mul_comm 8), Z.div_mul in H by lia.
  rewrite <- words_before_1 in H. change false with (prev_empty_at c 1) in H.
  apply init_cpu_loop_spec in H; [|assumption|lia| |].
  2: { replace (1 + Z.of_nat (Z.to_nat (s_classes c - 1))) with (s_classes c) by (destruct Hl; lia). assumption. }
  2: { unfold mark. cbn. lia. }
  intros cl [H1 H2]. destruct (proj1 H cl ltac:(lia)) as (Hc & He & Hm). unfold holds, zlen. cbn [length].
  destruct Hl as (_ & _ & Hmx). pose proof (Hmx cl).
  split; [lia|]. split; [lia|]. split; [lia|]. split; [reflexivity|]. split; [constructor|assumption].
Qed.

Lemma read_words_ext w w' i n : (forall j, i <= j < i + n -> w j = w' j) -> read_words w i n = read_words w' i n.
Proof. intros H. unfold read_words. apply map_ext_in. intros j Hj. apply zseq_In in Hj. apply H. lia. Qed.
Lemma read_words_app w i n m : 0 <= n -> 0 <= m -> read_words w i (n + m) = read_words w i n ++ read_words w (i + n) m.
Proof.
  intros Hn Hm. unfold read_words. rewrite Z2Nat.inj_add by lia. rewrite zseq_app, map_app, Z2Nat.id by lia. reflexivity.
Qed.
Lemma read_words_len w i n : length (read_words w i n) = Z.to_nat n.
Proof. unfold read_words. rewrite map_length, zseq_length. reflexivity. Qed.
Lemma read_words_1 w i : read_words w i 1 = [w i].
Proof. reflexivity. Qed.

(** A class is not affected by what happens to another. *)
Lemma holds_frame c r r' cl k x : layout_ok c -> is_class c cl -> is_class c k -> k <> cl -> holds c r k x ->
  h_cur r' k = h_cur r k -> h_end r' k = h_end r k ->
  (forall i, ~ (first_word c cl <= i < first_word c cl + s_max c cl) -> words r' i = words r i) -> holds c r' k x.
Proof.
  intros Hl [Hc1 Hc2] [Hk1 Hk2] Hne Hh Hcur Hend Hw. destruct x as [l cap]. destruct Hh as (H1 & H2 & H3 & H4 & H5 & H6).
  assert (Hdis : forall i, first_word c k - 1 <= i < first_word c k + cap -> words r' i = words r i).
  { intros i Hi. apply Hw. intros Hi'. destruct (Z.lt_trichotomy k cl) as [Hlt|[Heq|Hlt]]; [|lia|].
    - pose proof (class_before c k cl Hl ltac:(lia)). lia.
    - pose proof (class_before c cl k Hl ltac:(lia)) as [_ Hb]. lia. }
  assert (0 <= zlen l) by (unfold zlen; lia).
  split; [assumption|]. rewrite Hcur, Hend, Hdis by lia. split; [assumption|]. split; [assumption|].
  split; [|split; assumption]. rewrite <- H4. apply read_words_ext. intros j Hj. apply Hdis. lia.
Qed.

Lemma refines_upd c r r' a cl x : layout_ok c -> is_class c cl -> refines c r a -> holds c r' cl x ->
  (forall k, k <> cl -> h_cur r' k = h_cur r k /\ h_end r' k = h_end r k) ->
  (forall i, ~ (first_word c cl <= i < first_word c cl + s_max c cl) -> words r' i = words r i) -> refines c r' (upd a cl x).
Proof.
  intros Hl Hcl Hr Hx Hh Hw k Hk. destruct (Z.eq_dec k cl) as [->|Hne]; [rewrite upd_same; assumption|].
  rewrite upd_other by assumption. destruct (Hh k Hne). apply (holds_frame c r r' cl k); auto.
Qed.

Lemma even_not_odd x : Z.even x = true -> Z.odd x = false.
Proof. rewrite <- Z.negb_even. intros ->. reflexivity. Qed.

Lemma push_loop_spec n : forall w r9 batch r11 w' r9' r11',
  0 <= r11 <= zlen batch -> Z.of_nat n <= r11 ->
  push_loop n w r9 batch r11 = (w', r9', r11') ->
  r9' = r9 + Z.of_nat n /\ r11' = r11 - Z.of_nat n
  /\ (forall i, ~ (r9 <= i < r9 + Z.of_nat n) -> w' i = w i)
  /\ (forall i, 0 <= i < Z.of_nat n -> w' (r9 + i) = nth (Z.to_nat (r11 - 1 - i)) batch 0).
Proof.
  induction n as [|n IH]; intros w r9 batch r11 w' r9' r11' H0 Hn; cbn [push_loop].
  { intros [= <- <- <-]. split; [lia|]. split; [lia|]. split; [reflexivity|lia]. }
  intros H. apply IH in H; [|lia|lia]. destruct H as (-> & -> & Hf & Hv). split; [lia|]. split; [lia|]. split.
  - intros i Hi. rewrite Hf by lia. apply upd_other. lia.
  - intros i Hi. destruct (Z.eq_dec i 0) as [->|Hne].
    + rewrite Hf by lia. rewrite Z.add_0_r, upd_same. f_equal. lia.
    + replace (r9 + i) with (r9 + 1 + (i - 1)) by lia. rewrite Hv by lia. f_equal. lia.
Qed.

Lemma read_words_nth w i n l : Z.of_nat (length l) = n -> (forall j, 0 <= j < n -> w (i + j) = nth (Z.to_nat j) l 0) -> read_words w i n = l.
Proof.
  revert i n. induction l as [|x l IH]; intros i n Hlen H; cbn [length] in Hlen.
  - subst n. reflexivity.
  - replace n with (1 + (n - 1)) by lia. rewrite read_words_app, read_words_1 by lia. cbn [app]. f_equal.
    + specialize (H 0 ltac:(lia)). rewrite Z.add_0_r in H. exact H.
    + apply IH; [lia|]. intros j Hj. rewrite <- Z.add_assoc, H by lia.
      replace (Z.to_nat (1 + j)) with (S (Z.to_nat j)) by lia. reflexivity.
Qed.

Lemma nth_skipn {A} k j (l : list A) d : nth j (skipn k l) d = nth (k + j) l d.
Proof. revert l. induction k as [|k IH]; intros [|x l]; cbn [skipn Nat.add nth]; try reflexivity; [destruct j; reflexivity|apply IH]. Qed.

Lemma pop_loop_spec w : forall n r9, pop_loop n w r9 = (rev (read_words w (r9 - Z.of_nat n) (Z.of_nat n)), r9 - Z.of_nat n).
Proof.
  induction n as [|n IH]; intros r9; cbn [pop_loop]; [rewrite Z.sub_0_r; reflexivity|].
  rewrite IH. f_equal; [|lia]. replace (Z.of_nat (S n)) with (Z.of_nat n + 1) by lia.
  rewrite read_words_app, read_words_1, rev_app_distr by lia. cbn [rev app]. f_equal.
  - f_equal. lia.
  - f_equal. f_equal. lia.
Qed.

(** Reading the top [n] of the stack. *)
Lemma read_top w i (l : list Z) n : read_words w i (zlen l) = rev l -> 0 <= n <= zlen l ->
  read_words w i (zlen l - n) = rev (skipn (Z.to_nat n) l) /\ read_words w (i + (zlen l - n)) n = rev (firstn (Z.to_nat n) l).
Proof.
  intros H Hn. replace (zlen l) with (zlen l - n + n) in H by lia. rewrite read_words_app in H by lia.
  replace (rev l) with (rev (firstn (Z.to_nat n) l ++ skipn (Z.to_nat n) l)) in H by (rewrite firstn_skipn; reflexivity).
  rewrite rev_app_distr in H.
  assert (Hlen : length (read_words w i (zlen l - n)) = length (rev (skipn (Z.to_nat n) l))).
  { rewrite read_words_len, rev_length, skipn_length. unfold zlen. lia. }
  split.
  - apply (f_equal (firstn (length (read_words w i (zlen l - n))))) in H.
    rewrite firstn_app, Nat.sub_diag, firstn_all, app_nil_r in H. rewrite Hlen, firstn_app, Nat.sub_diag, firstn_all, app_nil_r in H. exact H.
  - apply (f_equal (skipn (length (read_words w i (zlen l - n))))) in H.
    rewrite skipn_app, Nat.sub_diag, skipn_all in H. rewrite Hlen, skipn_app, Nat.sub_diag, skipn_all in H. exact H.
Qed.

Lemma zlen_skipn n l : 0 <= n <= zlen l -> zlen (skipn (Z.to_nat n) l) = zlen l - n.
Proof. unfold zlen. rewrite skipn_length. lia. Qed.

Lemma Forall_skipn {A} (P : A -> Prop) n l : Forall P l -> Forall P (skipn n l).
Proof. intros H. rewrite Forall_forall in *. intros x Hx. apply H. rewrite <- (firstn_skipn n l). apply in_or_app. auto. Qed.

Lemma drain_loop_spec c (b : Z -> Z) n : forall cl r r' l a, layout_ok c -> (forall k, is_class c k -> b k = first_word c k) ->
  1 <= cl -> cl + Z.of_nat n <= s_classes c -> refines c r a ->
  drain_loop b n cl r = (r', l) ->
  l = map (fun k => (k, rev (fst (a k)), snd (a k))) (zseq cl n)
  /\ refines c r' (fun k => if (cl <=? k) && (k <? cl + Z.of_nat n) then ([], 0) else a k).
Proof.
  induction n as [|n IH]; intros cl r r' l a Hl Hb Hcl Hn Hr; cbn [drain_loop].
  { intros [= <- <-]. split; [reflexivity|]. intros k Hk. replace (_ && _) with false by lia. apply Hr. assumption. }
  assert (Hc : is_class c cl) by (unfold is_class; lia).
  pose proof (Hr cl Hc) as Hh. destruct (a cl) as [s cap] eqn:Ea. destruct Hh as (H1 & H2 & H3 & H4 & H5 & H6).
  pose proof (class_in c cl Hl Hc) as [Hin _]. assert (0 <= header_words c) by (unfold header_words; apply Z.div_pos; lia).
  assert (Hs : 0 <= zlen s) by (unfold zlen; lia).
  replace (h_cur r cl =? 0) with false by lia.
  destruct (drain_loop b n (cl + 1) _) as [r1 l1] eqn:E. intros [= <- <-].
  apply IH with (a := upd a cl ([], 0)) in E; [|assumption|assumption|lia|lia|].
  2: { eapply refines_upd with (r := r); [assumption|assumption|assumption| | |].
       - unfold holds, zlen. cbn [length h_cur h_end words]. rewrite !upd_same, Hb by assumption.
         split; [lia|]. split; [lia|]. split; [lia|]. split; [reflexivity|]. split; [constructor|assumption].
       - intros k Hk. cbn [h_cur h_end]. rewrite !upd_other by assumption. auto.
       - reflexivity. }
  destruct E as [-> Hr1]. split.
  - cbn [zseq map]. rewrite Ea. cbn [fst snd]. f_equal.
    + rewrite Hb by assumption. f_equal; [f_equal|lia]. rewrite <- H4. f_equal. lia.
    + apply map_ext_in. intros k Hk. apply zseq_In in Hk. rewrite upd_other by lia. reflexivity.
  - intros k Hk. specialize (Hr1 k Hk). cbn beta in Hr1. destruct (Z.eq_dec k cl) as [->|Hne].
    + rewrite upd_same in Hr1. replace (cl + 1 <=? cl) with false in Hr1 by lia. replace (cl <=? cl) with true by lia.
      replace (cl <? cl + Z.of_nat (S n)) with true by lia. exact Hr1.
    + rewrite upd_other in Hr1 by assumption.
      replace (cl <=? k) with (cl + 1 <=? k) by lia. replace (cl + Z.of_nat (S n)) with (cl + 1 + Z.of_nat n) by lia. exact Hr1.
Qed.

Lemma forallb_ext_in {A} (f g : A -> bool) l : (forall x, In x l -> f x = g x) -> forallb f l = forallb g l.
Proof. induction l as [|x l IH]; intros H; cbn [forallb]; [reflexivity|]. f_equal; [apply H; left; reflexivity|apply IH; intros y Hy; apply H; right; exact Hy]. Qed.

(** Two descriptions of the stacks that agree on the classes there are. *)
Definition same (c : scfg) (a a' : astate) : Prop := forall cl, is_class c cl -> a cl = a' cl.

Lemma step_refines c b r a o : layout_ok c -> words_needed c < 2 ^ 16 -> (forall k, is_class c k -> b k = first_word c k) ->
  refines c r a -> op_ok c o ->
  let (r', x) := sop_step c b r o in let (a', y) := a_step c a o in x = y /\ refines c r' a'.
Proof.
  intros Hl Hw Hb Hr Ho. change (2 ^ 16) with 65536 in Hw.
  assert (Hh0 : 0 <= header_words c) by (unfold header_words; destruct Hl; apply Z.div_pos; lia).
  assert (Hwrap : forall x, 0 <= x < 65536 -> wrap16 x = x) by (intros x Hx; unfold wrap16; change (2 ^ 16) with 65536; apply Z.mod_small; lia).
  destruct o as [cl item|cl|cl batch|cl len|cl len|cl len|cl len| |cl|cl|]; cbn [sop_step a_step op_ok] in *.
  - (* Push *)
    destruct Ho as [Hc Hev]. pose proof (Hr cl Hc) as Hh. pose proof (class_in c cl Hl Hc) as Hin. destruct (a cl) as [l cap].
    destruct Hh as (H1 & H2 & H3 & H4 & H5 & H6). assert (Hs : 0 <= zlen l) by (unfold zlen; lia).
    unfold push. destruct (zlen l <? cap) eqn:E.
    + replace (h_end r cl <=? h_cur r cl) with false by lia. split; [reflexivity|].
      eapply refines_upd with (r := r); try eassumption.
      * unfold holds. cbn [h_cur h_end words]. rewrite upd_same, Hwrap by lia.
        assert (Hzl : zlen (item :: l) = zlen l + 1) by (unfold zlen; cbn [length]; lia). rewrite Hzl.
        split; [lia|]. split; [lia|]. split; [assumption|]. split; [|split; [constructor; assumption|rewrite upd_other by lia; assumption]].
        rewrite read_words_app, read_words_1 by lia. cbn [rev]. f_equal.
        -- rewrite <- H4. apply read_words_ext. intros j Hj. apply upd_other. lia.
        -- f_equal. rewrite H2. apply upd_same.
      * intros k Hk. cbn [h_cur h_end]. rewrite upd_other by assumption. auto.
      * intros i Hi. cbn [words]. apply upd_other. lia.
    + replace (h_end r cl <=? h_cur r cl) with true by lia. auto.
  - (* Pop *)
    pose proof (Hr cl Ho) as Hh. pose proof (class_in c cl Hl Ho) as Hin. destruct (a cl) as [l cap].
    destruct Hh as (H1 & H2 & H3 & H4 & H5 & H6). unfold pop.
    destruct l as [|x l].
    + rewrite H2. replace (zlen []) with 0 by reflexivity. rewrite Z.add_0_r, H6. auto.
    + assert (Hs : 0 <= zlen l) by (unfold zlen; lia).
      assert (Hzl : zlen (x :: l) = zlen l + 1) by (unfold zlen; cbn [length]; lia). rewrite Hzl in *.
      rewrite read_words_app, read_words_1 in H4 by lia. cbn [rev] in H4. apply app_inj_tail in H4. destruct H4 as [H4 Hx].
      replace (h_cur r cl - 1) with (first_word c cl + zlen l) by lia. rewrite Hx. inversion H5; subst.
      unfold marked. rewrite even_not_odd by assumption. split; [reflexivity|].
      eapply refines_upd with (r := r); try eassumption.
      * unfold holds. cbn [h_cur h_end words]. rewrite upd_same, Hwrap by lia.
        split; [lia|]. split; [lia|]. split; [assumption|]. split; [assumption|]. split; assumption.
      * intros k Hk. cbn [h_cur h_end]. rewrite upd_other by assumption. auto.
      * reflexivity.
  - (* PushBatch *)
    destruct Ho as [Hc Hev]. pose proof (Hr cl Hc) as Hh. pose proof (class_in c cl Hl Hc) as Hin. destruct (a cl) as [l cap] eqn:Ea.
    destruct Hh as (H1 & H2 & H3 & H4 & H5 & H6). assert (Hs : 0 <= zlen l) by (unfold zlen; lia).
    unfold push_batch. fold (zlen batch). assert (Hbl : 0 <= zlen batch) by (unfold zlen; lia).
    destruct (h_end r cl <=? h_cur r cl) eqn:E.
    + replace (Z.min (zlen batch) (cap - zlen l)) with 0 by lia. split; [reflexivity|].
      change (Z.to_nat 0) with 0%nat. rewrite Nat.sub_0_r, skipn_all. cbn [app].
      intros k Hk. destruct (Z.eq_dec k cl) as [->|Hne]; [rewrite upd_same, <- Ea; auto|rewrite upd_other by assumption; auto].
    + set (n := Z.min (zlen batch) (cap - zlen l)).
      replace (Z.min (zlen batch) (h_end r cl - h_cur r cl)) with n by (subst n; lia).
      assert (Hn : 0 <= n <= zlen batch /\ n <= cap - zlen l) by (subst n; lia). clearbody n.
      destruct (push_loop _ _ _ _ _) as [[w r9] r11] eqn:EL. apply push_loop_spec in EL; [|lia|lia].
      destruct EL as (-> & -> & Hf & Hv). rewrite Z2Nat.id in * by lia.
      split; [f_equal; lia|].
      assert (Hzl : zlen (skipn (length batch - Z.to_nat n) batch ++ l) = n + zlen l)
        by (unfold zlen in *; rewrite app_length, skipn_length; lia).
      eapply refines_upd with (r := r); try eassumption.
      * unfold holds. cbn [h_cur h_end words]. rewrite upd_same, Hwrap by lia. rewrite Hzl.
        split; [lia|]. split; [lia|]. split; [assumption|].
        split; [|split; [apply Forall_app; split; [apply Forall_skipn; assumption|assumption]|rewrite Hf by lia; assumption]].
        rewrite Z.add_comm, read_words_app, rev_app_distr by lia. f_equal.
        -- rewrite <- H4. apply read_words_ext. intros j Hj. apply Hf. lia.
        -- apply read_words_nth; [rewrite rev_length, skipn_length; unfold zlen in *; lia|].
           intros j Hj. rewrite <- H2, Hv by lia. unfold zlen in *.
           rewrite rev_nth by (rewrite skipn_length; lia). rewrite nth_skipn, skipn_length. f_equal. lia.
      * intros k Hk. cbn [h_cur h_end]. rewrite upd_other by assumption. auto.
      * intros i Hi. cbn [words]. apply Hf. lia.
  - (* PopBatch *)
    destruct Ho as [Hc Hlen]. pose proof (Hr cl Hc) as Hh. pose proof (class_in c cl Hl Hc) as Hin. destruct (a cl) as [l cap] eqn:Ea.
    destruct Hh as (H1 & H2 & H3 & H4 & H5 & H6). assert (Hs : 0 <= zlen l) by (unfold zlen; lia).
    unfold pop_batch. rewrite Hb by assumption. destruct (h_cur r cl <=? first_word c cl) eqn:E.
    + destruct l; [|unfold zlen in *; cbn [length] in *; lia]. rewrite skipn_nil, firstn_nil. split; [reflexivity|].
      intros k Hk. destruct (Z.eq_dec k cl) as [->|Hne]; [rewrite upd_same, <- Ea; auto|rewrite upd_other by assumption; auto].
    + rewrite pop_loop_spec. set (n := Z.min len (h_cur r cl - first_word c cl)).
      assert (Hn : 0 <= n <= zlen l) by (subst n; lia). rewrite Z2Nat.id by lia.
      assert (Hsk : skipn (Z.to_nat len) l = skipn (Z.to_nat n) l /\ firstn (Z.to_nat len) l = firstn (Z.to_nat n) l).
      { destruct (Z.le_ge_cases len (zlen l)); [replace n with len by (subst n; lia); auto|].
        replace n with (zlen l) by (subst n; lia). unfold zlen in *.
        rewrite !skipn_all2, !firstn_all2 by lia. auto. }
      destruct Hsk as [-> ->]. clearbody n.
      destruct (read_top (words r) (first_word c cl) l n H4 Hn) as [Ht1 Ht2].
      split.
      * f_equal. replace (h_cur r cl - n) with (first_word c cl + (zlen l - n)) by lia. rewrite Ht2, rev_involutive. reflexivity.
      * eapply refines_upd with (r := r); try eassumption.
        -- unfold holds. cbn [h_cur h_end words]. rewrite upd_same, Hwrap by lia. rewrite zlen_skipn by lia.
           split; [lia|]. split; [lia|]. split; [assumption|]. split; [assumption|]. split; [apply Forall_skipn; assumption|assumption].
        -- intros k Hk. cbn [h_cur h_end]. rewrite upd_other by assumption. auto.
        -- reflexivity.
  - (* Grow *)
    destruct Ho as [Hc Hlen]. pose proof (Hr cl Hc) as Hh. pose proof (class_in c cl Hl Hc) as Hin. destruct (a cl) as [l cap] eqn:Ea.
    destruct Hh as (H1 & H2 & H3 & H4 & H5 & H6). assert (Hs : 0 <= zlen l) by (unfold zlen; lia). change (2 ^ 16) with 65536 in Hlen.
    unfold grow. rewrite Hb by assumption. replace (s_max c cl - (h_end r cl - first_word c cl)) with (s_max c cl - cap) by lia.
    destruct (s_max c cl - cap <=? 0) eqn:E.
    + replace (Z.min len (s_max c cl - cap)) with 0 by lia. split; [reflexivity|]. rewrite Z.add_0_r.
      intros k Hk. destruct (Z.eq_dec k cl) as [->|Hne]; [rewrite upd_same, <- Ea; auto|rewrite upd_other by assumption; auto].
    + rewrite !Hwrap by lia. split; [reflexivity|].
      eapply refines_upd with (r := r); try eassumption.
      * unfold holds, set_end. cbn [h_cur h_end words]. rewrite upd_same.
        split; [lia|]. split; [lia|]. split; [lia|]. split; [assumption|]. split; assumption.
      * intros k Hk. unfold set_end. cbn [h_cur h_end]. rewrite upd_other by assumption. auto.
      * reflexivity.
  - (* GrowOther *)
    destruct Ho as [Hc Hlen]. pose proof (Hr cl Hc) as Hh. pose proof (class_in c cl Hl Hc) as Hin. destruct (a cl) as [l cap] eqn:Ea.
    destruct Hh as (H1 & H2 & H3 & H4 & H5 & H6). assert (Hs : 0 <= zlen l) by (unfold zlen; lia). change (2 ^ 16) with 65536 in Hlen.
    unfold grow_other. rewrite Hb by assumption. replace (s_max c cl - (h_end r cl - first_word c cl)) with (s_max c cl - cap) by lia.
    rewrite wrap64_small by (unfold two64; lia). rewrite !Hwrap by lia. split; [reflexivity|].
    eapply refines_upd with (r := r); try eassumption.
    + unfold holds, set_end. cbn [h_cur h_end words]. rewrite upd_same.
      split; [lia|]. split; [lia|]. split; [lia|]. split; [assumption|]. split; assumption.
    + intros k Hk. unfold set_end. cbn [h_cur h_end]. rewrite upd_other by assumption. auto.
    + reflexivity.
  - (* Shrink *)
    destruct Ho as [Hc Hlen]. pose proof (Hr cl Hc) as Hh. pose proof (class_in c cl Hl Hc) as Hin. destruct (a cl) as [l cap] eqn:Ea.
    destruct Hh as (H1 & H2 & H3 & H4 & H5 & H6). assert (Hs : 0 <= zlen l) by (unfold zlen; lia). change (2 ^ 16) with 65536 in Hlen.
    unfold shrink_other. rewrite Hb by assumption. rewrite (Hwrap (h_end r cl - h_cur r cl)) by lia.
    set (p := if _ && _ then _ else 0).
    set (g := Z.max 0 (zlen l - (cap - Z.min len cap))).
    assert (Hp : p = g).
    { subst p g. replace (h_end r cl - h_cur r cl) with (cap - zlen l) by lia.
      replace (h_cur r cl =? first_word c cl) with (zlen l =? 0) by lia. replace (h_cur r cl - first_word c cl) with (zlen l) by lia.
      destruct (cap - zlen l <? len) eqn:E1; [|cbn [andb]; lia]. destruct (zlen l =? 0) eqn:E2; cbn [andb negb]; [lia|].
      rewrite (Hwrap (len - (cap - zlen l))), (Hwrap (zlen l)) by lia. lia. }
    rewrite Hp. assert (Hg : 0 <= g <= zlen l) by (subst g; lia).
    replace (Z.to_nat (zlen l - (cap - Z.min len cap))) with (Z.to_nat g) by (subst g; lia).
    assert (Hmin : Z.min (wrap16 len) (wrap16 (h_end r cl - wrap16 (h_cur r cl - g))) = Z.min len cap).
    { rewrite (Hwrap (h_cur r cl - g)), (Hwrap len), Hwrap by lia. subst g. lia. }
    rewrite Hmin. assert (Hng : zlen l - g <= cap - Z.min len cap) by (subst g; lia). clearbody g. clear p Hp.
    destruct (read_top (words r) (first_word c cl) l g H4 Hg) as [Ht1 Ht2].
    split.
    + f_equal. replace (h_cur r cl - g) with (first_word c cl + (zlen l - g)) by lia. assumption.
    + eapply refines_upd with (r := r); try eassumption.
      * unfold holds. cbn [h_cur h_end words]. rewrite !upd_same, !Hwrap by lia. rewrite zlen_skipn by lia.
        split; [lia|]. split; [lia|]. split; [lia|]. split; [assumption|]. split; [apply Forall_skipn; assumption|assumption].
      * intros k Hk. cbn [h_cur h_end]. rewrite !upd_other by assumption. auto.
      * reflexivity.
  - (* Drain *)
    unfold drain. destruct (drain_loop _ _ _ _) as [r' l'] eqn:E.
    eapply drain_loop_spec in E; [|eassumption|eassumption|lia| |eassumption]. 2: { destruct Hl. lia. }
    destruct E as [-> Hr']. split; [reflexivity|]. intros k Hk. specialize (Hr' k Hk). cbn beta in Hr'.
    replace (_ && _) with true in Hr' by (unfold is_class in Hk; lia). exact Hr'.
  - (* Length *)
    pose proof (Hr cl Ho) as Hh. split; [|assumption]. destruct (a cl) as [l cap]. destruct Hh as (H1 & H2 & H3 & _).
    unfold slab_length. rewrite Hb by assumption. cbn [fst]. f_equal. assert (Hs : 0 <= zlen l) by (unfold zlen; lia). lia.
  - (* Capacity *)
    pose proof (Hr cl Ho) as Hh. split; [|assumption]. destruct (a cl) as [l cap]. destruct Hh as (H1 & H2 & H3 & _).
    unfold slab_capacity. rewrite Hb by assumption. cbn [snd]. f_equal. assert (Hs : 0 <= zlen l) by (unfold zlen; lia). lia.
  - (* IsDrained *)
    split; [|assumption]. f_equal. unfold is_drained. apply forallb_ext_in. intros k Hk. apply zseq_In in Hk.
    assert (Hc : is_class c k) by (unfold is_class; lia). pose proof (Hr k Hc) as Hh. pose proof (class_in c k Hl Hc) as Hin.
    destruct (a k) as [l cap]. destruct Hh as (H1 & H2 & H3 & _). rewrite Hb by assumption. cbn [snd].
    assert (Hs : 0 <= zlen l) by (unfold zlen; lia). lia.
Qed.

(** ** Every layout that is accepted fits in the region *)
Lemma init_cpu_loop_fits c n : forall cl r r', 1 <= cl ->
  init_cpu_loop c n cl (words_before c cl) (prev_empty_at c cl) r = Some r' -> (0 < n)%nat ->
  8 * words_before c (cl + Z.of_nat n) <= 2 ^ s_shift c.
Proof.
  induction n as [|n IH]; intros cl r r' Hcl H Hn; [lia|]. cbn [init_cpu_loop] in H. destruct (negb _); [discriminate|].
  replace (if prev_empty_at c cl then words_before c cl else words_before c cl + 1) with (first_word c cl) in H
    by (unfold first_word; rewrite <- prev_empty_mark; destruct (prev_empty_at c cl); lia).
  rewrite <- words_before_next in H by lia. rewrite <- prev_empty_next in H by lia.
  destruct (_ <? _) eqn:E; [discriminate|]. unfold word_bytes in E. destruct n as [|n].
  - replace (cl + Z.of_nat 1) with (cl + 1) by lia. lia.
  - apply IH in H; [|lia|lia]. replace (cl + Z.of_nat (S (S n))) with (cl + 1 + Z.of_nat (S n)) by lia. exact H.
Qed.

Lemma init_fits c r r' : layout_ok c -> init_cpu c r = Some r' -> 2 <= s_classes c -> 8 * words_needed c <= 2 ^ s_shift c.
Proof.
  intros Hl H Hk. unfold init_cpu in H. destruct (_ <? _); [discriminate|].
  rewrite header_area_eq in H by lia. unfold word_bytes in H. rewrite (Z.mul_comm 8), Z.div_mul in H by lia.
  rewrite <- words_before_1 in H. change false with (prev_empty_at c 1) in H.
  apply init_cpu_loop_fits in H; [|lia|lia].
  replace (1 + Z.of_nat (Z.to_nat (s_classes c - 1))) with (s_classes c) in H by lia. exact H.
Qed.

Lemma small_fits c r r' : layout_ok c -> s_shift c <= 18 -> 2 <= s_classes c -> init_cpu c r = Some r' -> words_needed c < 2 ^ 16.
Proof.
  intros Hl Hs Hk H. pose proof (init_fits c r r' Hl H Hk).
  assert (2 ^ s_shift c <= 2 ^ 18) by (apply Z.pow_le_mono_r; lia). change (2 ^ 18) with 262144 in *. change (2 ^ 16) with 65536. lia.
Qed.

(** ** C22 *)

(** The results a caller sees, for every layout that initialisation accepts, every initial
    content of the memory and every sequence of operations, are those of the stacks.  A
    layout of fewer than 2^16 words is asked for; every region of up to 2^18 bytes is. *)
Theorem slab_is_stacks : forall c b r r0 ops,
  layout_ok c -> words_needed c < 2 ^ 16 ->
  init_slabs c = Some b -> init_cpu c r = Some r0 -> Forall (op_ok c) ops ->
  outputs (sop_step c b) r0 ops = outputs (a_step c) (fun _ => ([], 0)) ops.
Proof.
  intros c b r r0 ops Hl Hw Hb Hr Ho. pose proof (init_slabs_spec c b Hl Hw Hb) as Hfw.
  pose proof (init_refines c r r0 Hl Hw Hr) as Href. clear Hr. revert r0 Href.
  generalize (fun _ : Z => (@nil Z, 0)) as a. induction Ho as [|o ops Ho _ IH]; intros a r0 Href; cbn [outputs]; [reflexivity|].
  pose proof (step_refines c b r0 a o Hl Hw Hfw Href Ho) as Hs.
  destruct (sop_step c b r0 o) as [r1 x], (a_step c a o) as [a1 y]. destruct Hs as [-> Hs]. f_equal. apply IH. assumption.
Qed.
Print Assumptions slab_is_stacks.

Theorem slab_is_stacks_256k : forall c b r r0 ops,
  layout_ok c -> 2 <= s_classes c -> s_shift c <= 18 ->
  init_slabs c = Some b -> init_cpu c r = Some r0 -> Forall (op_ok c) ops ->
  outputs (sop_step c b) r0 ops = outputs (a_step c) (fun _ => ([], 0)) ops.
Proof. intros c b r r0 ops Hl Hk Hs Hb Hr Ho. eapply slab_is_stacks; try eassumption. eapply small_fits; eassumption. Qed.
Print Assumptions slab_is_stacks_256k.

Lemma final_refines c b ops : forall r a, layout_ok c -> words_needed c < 2 ^ 16 -> (forall k, is_class c k -> b k = first_word c k) ->
  refines c r a -> Forall (op_ok c) ops -> refines c (final (sop_step c b) r ops) (final (a_step c) a ops).
Proof.
  induction ops as [|o ops IH]; intros r a Hl Hw Hb Hr Ho; cbn [final]; [assumption|]. inversion Ho; subst.
  apply IH; try assumption. pose proof (step_refines c b r a o Hl Hw Hb Hr ltac:(assumption)) as Hs.
  destruct (sop_step c b r o), (a_step c a o). apply Hs.
Qed.

(** The memory: after any operations, an operation on a class leaves the headers of the
    others alone, and the words it changes lie in the class's own part of the region, after
    the headers and before the end; the parts of two classes do not meet. *)
Definition op_class (o : sop) : option Z :=
  match o with
  | OPush cl _ | OPop cl | OPushBatch cl _ | OPopBatch cl _ | OGrow cl _ | OGrowOther cl _ | OShrink cl _ | OLength cl | OCapacity cl => Some cl
  | ODrain | OIsDrained => None
  end.
Definition part_of (c : scfg) (b : Z -> Z) (cl i : Z) : Prop := b cl <= i < b cl + s_max c cl.

Theorem slab_classes_apart : forall c b r r0,
  layout_ok c -> 2 <= s_classes c -> words_needed c < 2 ^ 16 -> init_slabs c = Some b -> init_cpu c r = Some r0 ->
  (forall cl i, is_class c cl -> part_of c b cl i -> 4 * s_classes c <= 8 * i /\ 8 * (i + 1) <= 2 ^ s_shift c)
  /\ (forall cl cl' i, is_class c cl -> is_class c cl' -> part_of c b cl i -> part_of c b cl' i -> cl = cl').
Proof.
  intros c b r r0 Hl Hk Hw Hb Hr. pose proof (init_slabs_spec c b Hl Hw Hb) as Hfw. split.
  - intros cl i Hc Hi. unfold part_of in Hi. rewrite Hfw in Hi by assumption.
    pose proof (class_in c cl Hl Hc) as [H1 H2]. pose proof (init_fits c r r0 Hl Hr Hk). unfold header_words in H1.
    pose proof (Z.div_mod (s_classes c * 4 + 7) 8 ltac:(lia)). pose proof (Z.mod_pos_bound (s_classes c * 4 + 7) 8 ltac:(lia)). lia.
  - intros cl cl' i Hc Hc' Hi Hi'. unfold part_of in *. rewrite Hfw in Hi, Hi' by assumption. unfold is_class in *.
    destruct (Z.lt_trichotomy cl cl') as [Hlt|[Heq|Hlt]]; [|assumption|].
    + pose proof (class_before c cl cl' Hl ltac:(lia)). lia.
    + pose proof (class_before c cl' cl Hl ltac:(lia)). lia.
Qed.
Print Assumptions slab_classes_apart.

Lemma push_loop_frame n : forall w r9 batch r11 i, ~ (r9 <= i < r9 + Z.of_nat n) -> fst (fst (push_loop n w r9 batch r11)) i = w i.
Proof. induction n as [|n IH]; intros w r9 batch r11 i Hi; cbn [push_loop fst]; [reflexivity|]. rewrite IH by lia. apply upd_other. lia. Qed.

Theorem slab_no_interference : forall c b r r0 ops o cl,
  layout_ok c -> words_needed c < 2 ^ 16 -> init_slabs c = Some b -> init_cpu c r = Some r0 ->
  Forall (op_ok c) ops -> op_ok c o -> op_class o = Some cl ->
  let r1 := final (sop_step c b) r0 ops in
  let r2 := fst (sop_step c b r1 o) in
  (forall k, k <> cl -> h_cur r2 k = h_cur r1 k /\ h_end r2 k = h_end r1 k)
  /\ (forall i, ~ part_of c b cl i -> words r2 i = words r1 i).
Proof.
  intros c b r r0 ops o cl Hl Hw Hb Hr Hops Ho Hcl r1 r2. pose proof (init_slabs_spec c b Hl Hw Hb) as Hfw.
  pose proof (final_refines c b ops r0 _ Hl Hw Hfw (init_refines c r r0 Hl Hw Hr) Hops) as Href. fold r1 in Href.
  clearbody r1. set (a := final _ _ _) in Href. clearbody a. subst r2. unfold part_of.
  destruct o as [k item|k|k batch|k len|k len|k len|k len| |k|k|]; cbn [op_class] in Hcl; try discriminate; injection Hcl as ->; cbn [sop_step op_ok] in *.
  1: destruct Ho as [Hc _]; unfold push; destruct (h_end r1 cl <=? h_cur r1 cl) eqn:E; cbn [fst h_cur h_end words].
  3: unfold pop; destruct (marked _); cbn [fst h_cur h_end words].
  5: destruct Ho as [Hc _]; unfold push_batch; destruct (h_end r1 cl <=? h_cur r1 cl) eqn:E; [cbn [fst]|destruct (push_loop _ _ _ _ _) as [[w r9] r11] eqn:EL; cbn [fst h_cur h_end words]].
  7: unfold pop_batch; destruct (_ <=? _); [cbn [fst]|destruct (pop_loop _ _ _); cbn [fst h_cur h_end words]].
  9: unfold grow; destruct (_ <=? _); cbn [fst set_end h_cur h_end words].
  11: unfold grow_other; cbn [fst set_end h_cur h_end words].
  12: unfold shrink_other; cbn [fst set_end h_cur h_end words].
  13,14: cbn [fst].
  all: split; [intros k Hk; rewrite ?upd_other by assumption; split; reflexivity|]; intros i Hi; try reflexivity.
  all: pose proof (Href cl Hc) as Hh; destruct (a cl) as [l cap]; destruct Hh as (H1 & H2 & H3 & _); rewrite Hfw in Hi by assumption;
    assert (Hs : 0 <= zlen l) by (unfold zlen; lia).
  - apply upd_other. lia.
  - change w with (fst (fst (w, r9, r11))). rewrite <- EL. apply push_loop_frame. unfold zlen in *. lia.
Qed.
Print Assumptions slab_no_interference.

(** A region of 2^19 bytes is accepted too, and the layouts that fill it to the last word
    are not represented: a 16-bit end of 65536 is 0.  The capacity just granted is gone; and
    a class that begins there is popped from the word before the region. *)
Definition full_cfg : scfg := SCfg 2 (fun _ => 65534) 19 0.
Theorem slab_full_region_refuted :
  exists c b r0, layout_ok c /\ words_needed c = 2 ^ 16 /\ init_slabs c = Some b /\ init_cpu c (Region (fun _ => 0) (fun _ => 0) (fun _ => 0)) = Some r0
  /\ outputs (sop_step c b) r0 [OGrow 1 65534; OCapacity 1; OPush 1 64] = [RNum 65534; RNum 0; RBool false]
  /\ outputs (a_step c) (fun _ => ([], 0)) [OGrow 1 65534; OCapacity 1; OPush 1 64] = [RNum 65534; RNum 65534; RBool true].
Proof.
  exists full_cfg. eexists. eexists. split; [repeat split; try discriminate|]. split; [reflexivity|].
  split; [vm_compute; reflexivity|]. split; [vm_compute; reflexivity|]. split; vm_compute; reflexivity.
Qed.
Print Assumptions slab_full_region_refuted.

Definition full_cfg2 : scfg := SCfg 3 (fun cl => if cl =? 1 then 65532 else 0) 19 0.
Theorem slab_empty_class_refuted :
  exists c b r0, layout_ok c /\ init_slabs c = Some b /\ init_cpu c (Region (fun _ => 0) (fun _ => 0) (fun i => if i =? -1 then 640 else 0)) = Some r0
  /\ is_class c 2 /\ outputs (sop_step c b) r0 [OPop 2] = [RObj (Some 640)].
Proof.
  exists full_cfg2. eexists. eexists. split; [split; [discriminate|]; split; [discriminate|]; intros cl; cbn [full_cfg2 s_max]; destruct (cl =? 1); lia|].
  split; [vm_compute; reflexivity|]. split; [vm_compute; reflexivity|]. split; [unfold is_class; cbn; lia|]. vm_compute. reflexivity.
Qed.
Print Assumptions slab_empty_class_refuted.

(** ** Examples *)
Definition ex_cfg : scfg := SCfg 5 (fun cl => if cl =? 1 then 3 else if cl =? 4 then 2 else 0) 12 8192.
Example ex_ok : layout_ok ex_cfg /\ words_needed ex_cfg = 10 /\ exists b r0, init_slabs ex_cfg = Some b
  /\ init_cpu ex_cfg (Region (fun _ => 7) (fun _ => 7) (fun _ => 7)) = Some r0.
Proof.
  split; [split; [discriminate|]; split; [discriminate|]; intros cl; cbn [ex_cfg s_max]; destruct (cl =? 1), (cl =? 4); lia|].
  split; [vm_compute; reflexivity|]. eexists. eexists. split; vm_compute; reflexivity.
Qed.
Example ex_run : exists b r0, init_slabs ex_cfg = Some b /\ init_cpu ex_cfg (Region (fun _ => 7) (fun _ => 7) (fun _ => 7)) = Some r0
  /\ outputs (sop_step ex_cfg b) r0
       [OPush 1 8; OGrow 1 2; OPush 1 8; OPush 1 16; OPush 1 24; OGrow 4 9; OPushBatch 4 [32; 40; 48]; OPop 1; OPop 2; OShrink 4 1; ODrain; OIsDrained]
     = [RBool false; RNum 2; RBool true; RBool true; RBool false; RNum 2; RNum 2; RObj (Some 16); RObj None; RShrunk [40] 1;
        RDrained [(1, [8], 2); (2, [], 0); (3, [], 0); (4, [48], 1)]; RBool true].
Proof. eexists. eexists. split; [vm_compute; reflexivity|]. split; [vm_compute; reflexivity|]. vm_compute. reflexivity. Qed.
