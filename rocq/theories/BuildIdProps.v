(** C58: looking for the build id of a binary reads nothing outside its note segments, whatever is in them, and finds the id. *)
From Verif Require Import Base BuildId.

(** ** The masks. *)
Lemma split_land a b : a = Z.ldiff a b + Z.land a b.
Proof.
  assert (H : a - Z.land a b = Z.ldiff a (Z.land a b)).
  { apply Z.sub_nocarry_ldiff. apply Z.bits_inj'; intros m; rewrite ?Z.ldiff_spec, ?Z.land_spec, ?Z.bits_0. now destruct (Z.testbit a m), (Z.testbit b m). }
  assert (E : Z.ldiff a (Z.land a b) = Z.ldiff a b).
  { apply Z.bits_inj'; intros m; rewrite ?Z.ldiff_spec, ?Z.land_spec, ?Z.bits_0. now destruct (Z.testbit a m), (Z.testbit b m). }
  lia.
Qed.

Lemma land_le a b : 0 <= a -> 0 <= b -> 0 <= Z.land a b <= b.
Proof.
  intros A B. split; [apply Z.land_nonneg; now left|].
  pose proof (split_land b a). rewrite (Z.land_comm b a) in H. assert (0 <= Z.ldiff b a) by (apply Z.ldiff_nonneg; now left). lia.
Qed.

(** For 0 < a < 2^32, masking by -a clears the bits of a - 1 in the lowest 32 bits. *)
Lemma mask_spec x a : 0 < a < 2 ^ 32 -> Z.land x (wrap32 (- a)) = Z.ldiff (x mod 2 ^ 32) (a - 1).
Proof.
  intros H.
  assert (E : wrap32 (- a) = Z.ldiff (Z.ones 32) (a - 1)).
  { unfold wrap32. rewrite <- Z.sub_nocarry_ldiff.
    - change (Z.ones 32) with (2 ^ 32 - 1). replace (- a) with ((2 ^ 32 - a) + (-1) * 2 ^ 32) by ring.
      rewrite Z.mod_add by discriminate. rewrite Z.mod_small; lia.
    - apply Z.bits_inj'. intros m M. rewrite Z.ldiff_spec, Z.bits_0. destruct (Z.ltb_spec m 32).
      + rewrite Z.ones_spec_low by lia. now rewrite andb_false_r.
      + replace (Z.testbit (a - 1) m) with false; [reflexivity|]. symmetry. apply Z.bits_above_log2; [lia|].
        destruct (Z.eqb_spec (a - 1) 0) as [->|]; [cbn; lia|]. apply Z.log2_lt_pow2; [lia|].
        apply Z.lt_le_trans with (2 ^ 32); [lia|]. apply Z.pow_le_mono_r; lia. }
  rewrite E, <- Z.land_ones by lia. apply Z.bits_inj'. intros m M.
  rewrite !Z.land_spec, !Z.ldiff_spec, Z.land_spec. now destruct (Z.testbit x m), (Z.testbit (Z.ones 32) m).
Qed.

Lemma mask_bounds x a : 0 < a < 2 ^ 32 -> 0 <= x < 2 ^ 32 -> x - (a - 1) <= Z.land x (wrap32 (- a)) <= x.
Proof.
  intros A X. rewrite mask_spec by exact A. rewrite Z.mod_small by exact X.
  pose proof (split_land x (a - 1)). pose proof (land_le x (a - 1)). lia.
Qed.

(** ** A note that is not found corrupt lies in the segment, with its descriptor after its name. *)
Lemma not_corrupt align namesz descsz left : 0 <= align < 2 ^ 32 -> 0 <= namesz < 2 ^ 32 -> 0 <= descsz < 2 ^ 32 ->
  corrupt align namesz descsz left = false ->
  0 < align /\ nhdr_size + namesz <= desc_start align namesz /\ 0 <= descsz /\
  desc_start align namesz + descsz <= note_size align namesz descsz <= left.
Proof.
  intros A N D. unfold corrupt. rewrite !orb_false_iff. intros ((((C1 & C2) & C3) & C4) & C5).
  assert (A0 : 0 < align).
  { destruct (Z.eqb_spec align 0) as [->|]; [|lia]. change (wrap32 (- 0)) with 0 in C1. lia. }
  assert (NA : wrap32 (- align) = 2 ^ 32 - align).
  { unfold wrap32. replace (- align) with ((2 ^ 32 - align) + (-1) * 2 ^ 32) by ring. rewrite Z.mod_add by discriminate. apply Z.mod_small. lia. }
  rewrite NA in C1, C2. apply Z.leb_gt in C1, C2. apply Z.ltb_ge in C3, C4, C5. unfold nhdr_size in *.
  assert (DS : 12 + namesz <= desc_start align namesz < 2 ^ 32).
  { unfold desc_start in C3 |- *. unfold nhdr_size in *.
    assert (W : wrap64 (12 + namesz + align - 1) = 12 + namesz + align - 1) by (apply Z.mod_small; unfold two64; lia).
    rewrite W in C3 |- *. rewrite mask_spec in C3 |- * by lia.
    set (y := (12 + namesz + align - 1) mod 2 ^ 32) in *.
    assert (Y : 0 <= y < 2 ^ 32) by (apply Z.mod_pos_bound; reflexivity).
    pose proof (split_land y (align - 1)) as S1. pose proof (land_le y (align - 1)) as S2.
    assert (LD : 0 <= Z.ldiff y (align - 1)) by (apply Z.ldiff_nonneg; now left).
    assert (WL : wrap32 (Z.ldiff y (align - 1)) = Z.ldiff y (align - 1)) by (apply Z.mod_small; lia).
    rewrite WL in C3 |- *.
    destruct (Z.ltb_spec (12 + namesz + align - 1) (2 ^ 32)).
    - assert (y = 12 + namesz + align - 1) by (apply Z.mod_small; lia). lia.
    - exfalso. assert (y = 12 + namesz + align - 1 - 2 ^ 32).
      { symmetry. apply (Z.mod_unique _ _ 1); lia. }
      lia. }
  split; [exact A0|]. split; [lia|]. split; [lia|]. split; [|lia].
  unfold note_size in C4 |- *. unfold wrap32 at 2 in C4. unfold wrap32 at 2. rewrite (Z.mod_small (descsz + align - 1)) in C4 |- * by lia.
  pose proof (mask_bounds (descsz + align - 1) align ltac:(lia) ltac:(lia)) as MB.
  set (m := Z.land (descsz + align - 1) (wrap32 (- align))) in *. clearbody m. set (d := desc_start align namesz) in *. clearbody d.
  unfold wrap32 in C4 |- *. destruct (Z.ltb_spec (d + m) (2 ^ 32)).
  - rewrite Z.mod_small by lia. lia.
  - exfalso. replace (d + m) with ((d + m - 2 ^ 32) + 1 * 2 ^ 32) in C4 by ring. rewrite Z.mod_add in C4 by discriminate.
    rewrite Z.mod_small in C4 by lia. lia.
Qed.

Definition bytes_ok (l : list Z) : Prop := Forall (fun b => 0 <= b < 256) l.

Lemma bytes_at_some seg off n : 0 <= off -> 0 <= n -> off + n <= Z.of_nat (length seg) ->
  bytes_at seg off n = Some (firstn (Z.to_nat n) (skipn (Z.to_nat off) seg)).
Proof.
  intros H1 H2 H3. unfold bytes_at. rewrite (proj2 (Z.leb_le _ _) H1), (proj2 (Z.leb_le _ _) H2), (proj2 (Z.leb_le _ _) H3). reflexivity.
Qed.

Lemma le_bounds l : bytes_ok l -> 0 <= le l < 256 ^ Z.of_nat (length l).
Proof.
  induction 1 as [|b l B L IH]; [cbn; lia|]. cbn [le length]. rewrite Nat2Z.inj_succ, Z.pow_succ_r by lia. lia.
Qed.

Lemma word_at_some seg off : bytes_ok seg -> 0 <= off -> off + 4 <= Z.of_nat (length seg) ->
  exists w, word_at seg off = Some w /\ 0 <= w < 2 ^ 32.
Proof.
  intros B H1 H2. unfold word_at. rewrite bytes_at_some by lia. eexists. split; [reflexivity|].
  set (l := firstn _ _). assert (BL : bytes_ok l).
  { unfold bytes_ok in *. rewrite Forall_forall in *. intros x Hx. apply B. unfold l in Hx.
    rewrite <- (firstn_skipn (Z.to_nat off) seg). apply in_or_app. right. revert Hx. generalize (skipn (Z.to_nat off) seg). intros m Hx.
    rewrite <- (firstn_skipn (Z.to_nat 4) m). apply in_or_app. now left. }
  pose proof (le_bounds l BL) as L. assert (length l = 4%nat).
  { unfold l. rewrite firstn_length, skipn_length. lia. }
  rewrite H in L. exact L.
Qed.

Definition fine (o : outcome) : Prop := match o with Fault | Long => False | _ => True end.

Lemma scan_notes_fine seg align : bytes_ok seg -> 0 <= align < 2 ^ 32 -> forall fuel off r, 0 <= off <= Z.of_nat (length seg) ->
  Z.of_nat (length seg) - off < Z.of_nat fuel -> fine (scan_notes fuel seg align off r).
Proof.
  intros B A. induction fuel as [|fuel IH]; intros off r O F; cbn [scan_notes].
  - exfalso. lia.
  - destruct (Z.ltb_spec off (Z.of_nat (length seg))) as [L|L]; [|exact I].
    destruct (Z.ltb_spec (Z.of_nat (length seg)) (off + nhdr_size)) as [L2|L2]; [exact I|]. unfold nhdr_size in L2.
    destruct (word_at_some seg off B) as (n & -> & N); [lia..|].
    destruct (word_at_some seg (off + 4) B) as (d & -> & D); [lia..|].
    destruct (word_at_some seg (off + 8) B) as (t & -> & _); [lia..|].
    destruct (corrupt align n d (Z.of_nat (length seg) - off)) eqn:C; [exact I|].
    apply not_corrupt in C; [|assumption..]. unfold nhdr_size in *. destruct C as (A0 & C1 & C2 & C3).
    assert (NX : forall r, fine (scan_notes fuel seg align (off + note_size align n d) r)) by (intros; apply IH; lia).
    destruct ((t =? nt_gnu_build_id) && (n =? 4)) eqn:G; [|apply NX]. apply andb_prop in G. destruct G as [_ G]. apply Z.eqb_eq in G.
    rewrite bytes_at_some by lia. destruct (list_eq_dec Z.eq_dec _ gnu_name); [|apply NX].
    destruct r; [|exact I]. rewrite bytes_at_some by lia. apply NX.
Qed.

(** For any bytes and alignments, however corrupt, nothing outside the segments is read and the search ends. *)
Theorem build_id_safe : forall segs, (forall s, In s segs -> bytes_ok (sg_bytes s)) ->
  exists r, get_build_id segs = Found r.
Proof.
  intros segs H. assert (G : forall r, fine (scan_segments segs r)).
  { induction segs as [|s segs IH]; intros r; cbn [scan_segments]; [exact I|].
    assert (IH' : forall r, fine (scan_segments segs r)) by (apply IH; intros; apply H; now right). clear IH.
    destruct (sg_note s); [|apply IH'].
    pose proof (scan_notes_fine (sg_bytes s) (wrap32 (sg_align s)) (H s (or_introl eq_refl)) (Z.mod_pos_bound (sg_align s) (2 ^ 32) eq_refl)
                  (S (length (sg_bytes s))) 0 r) as F.
    specialize (F ltac:(lia) ltac:(lia)). destruct (scan_notes _ _ _ 0 r); try exact F. apply IH'. }
  specialize (G []). unfold get_build_id. destruct (scan_segments segs []) as [| | |r]; try destruct G; eexists; reflexivity.
Qed.
Print Assumptions build_id_safe.

(** ** What a note segment should contain, and what is then found. *)
Record note := Note { n_type : Z; n_name : list Z; n_desc : list Z; n_pad1 : list Z; n_pad2 : list Z }.
Definition len (l : list Z) : Z := Z.of_nat (length l).
Definition bytes32 (v : Z) : list Z := [v mod 256; v / 256 mod 256; v / 65536 mod 256; v / 16777216 mod 256].
Definition encode (n : note) : list Z :=
  bytes32 (len (n_name n)) ++ bytes32 (len (n_desc n)) ++ bytes32 (n_type n) ++
  n_name n ++ n_pad1 n ++ n_desc n ++ n_pad2 n.

(** The descriptor and the next note begin at multiples of the alignment, with no more padding than needed, and the note is of sensible
    size. *)
Record note_ok (a : Z) (n : note) : Prop := NoteOk {
  no_type : 0 <= n_type n < 2 ^ 32;
  no_pad1 : (12 + len (n_name n) + len (n_pad1 n)) mod a = 0 /\ len (n_pad1 n) < a;
  no_pad2 : (len (n_desc n) + len (n_pad2 n)) mod a = 0 /\ len (n_pad2 n) < a;
  no_size : len (encode n) < 2 ^ 31 }.

Definition is_build_id (n : note) : bool :=
  (n_type n =? 3) && (if list_eq_dec Z.eq_dec (n_name n) [71; 78; 85; 0] then true else false).
Definition ids (ns : list note) : list (list Z) := map n_desc (filter is_build_id ns).

Lemma len_app l m : len (l ++ m) = len l + len m.
Proof. unfold len. rewrite app_length. lia. Qed.

Lemma le_bytes32 v : 0 <= v < 2 ^ 32 -> le (bytes32 v) = v.
Proof.
  intros H. cbn [le bytes32].
  assert (E1 : v = 256 * (v / 256) + v mod 256) by (apply Z.div_mod; lia).
  assert (E2 : v / 256 = 256 * (v / 65536) + v / 256 mod 256).
  { change 65536 with (256 * 256). rewrite <- Z.div_div by lia. apply Z.div_mod. lia. }
  assert (E3 : v / 65536 = 256 * (v / 16777216) + v / 65536 mod 256).
  { change 16777216 with (65536 * 256). rewrite <- Z.div_div by lia. apply Z.div_mod. lia. }
  assert (E4 : v / 16777216 mod 256 = v / 16777216).
  { apply Z.mod_small. split; [apply Z.div_pos; lia|apply Z.div_lt_upper_bound; lia]. }
  lia.
Qed.

Lemma bytes_at_mid pre x rest : bytes_at (pre ++ x ++ rest) (len pre) (len x) = Some x.
Proof.
  rewrite bytes_at_some; [|unfold len; rewrite ?app_length; lia..]. f_equal. unfold len. rewrite !Nat2Z.id.
  rewrite skipn_app, skipn_all, Nat.sub_diag. cbn. rewrite firstn_app, firstn_all, Nat.sub_diag. cbn. apply app_nil_r.
Qed.

Lemma bytes_at_eq pre x rest seg off n : seg = pre ++ x ++ rest -> off = len pre -> n = len x -> bytes_at seg off n = Some x.
Proof. intros -> -> ->. apply bytes_at_mid. Qed.

Lemma round_up k x p : 0 <= k <= 16 -> 0 <= x -> 0 <= p < 2 ^ k -> (x + p) mod 2 ^ k = 0 -> x + 2 ^ k - 1 < 2 ^ 32 ->
  Z.land (x + 2 ^ k - 1) (wrap32 (- 2 ^ k)) = x + p.
Proof.
  intros K X P M B. assert (0 < 2 ^ k <= 2 ^ 16) by (split; [apply Z.pow_pos_nonneg; lia|apply Z.pow_le_mono_r; lia]).
  rewrite mask_spec by lia. rewrite Z.mod_small by lia. replace (2 ^ k - 1) with (Z.ones k) by (rewrite Z.ones_equiv; lia).
  rewrite Z.ldiff_ones_r, Z.shiftl_mul_pow2, Z.shiftr_div_pow2 by lia.
  apply Z.mod_divide in M; [|lia]. destruct M as [q Q]. rewrite Q. f_equal. symmetry.
  apply (Z.div_unique _ _ _ (2 ^ k - 1 - p)); lia.
Qed.

Fixpoint acc (r : list Z) (l : list (list Z)) : outcome :=
  match l with [] => Found r | d :: l => match r with [] => acc d l | _ => Repeated end end.

Lemma scan_notes_exact k ns : 0 <= k <= 16 -> Forall (note_ok (2 ^ k)) ns -> forall fuel pre r,
  (length (concat (map encode ns)) < fuel)%nat ->
  scan_notes fuel (pre ++ concat (map encode ns)) (2 ^ k) (len pre) r = acc r (ids ns).
Proof.
  intros K. assert (A : 0 < 2 ^ k <= 2 ^ 16) by (split; [apply Z.pow_pos_nonneg; lia|apply Z.pow_le_mono_r; lia]).
  induction 1 as [|n ns [T P1 P2 SZ] NS IH]; intros fuel pre r F; (destruct fuel as [|fuel]; [cbn in F; lia|]); cbn [map concat].
  - cbn [scan_notes]. rewrite app_nil_r. destruct (Z.ltb_spec (len pre) (Z.of_nat (length pre))); [unfold len in *; lia|reflexivity].
  - set (rest := concat (map encode ns)) in *. set (seg := pre ++ encode n ++ rest).
    set (N := len (n_name n)) in *. set (D := len (n_desc n)) in *. set (p1 := len (n_pad1 n)) in *. set (p2 := len (n_pad2 n)) in *.
    assert (NN : 0 <= N /\ 0 <= D /\ 0 <= p1 /\ 0 <= p2) by (unfold N, D, p1, p2, len; lia).
    assert (LE : len (encode n) = 12 + N + p1 + D + p2).
    { unfold encode. rewrite !len_app. fold N D p1 p2. change (len (bytes32 ?x)) with 4. lia. }
    assert (LS : Z.of_nat (length seg) = len pre + len (encode n) + len rest).
    { unfold seg. fold (len (pre ++ encode n ++ rest)). rewrite !len_app. lia. }
    assert (R0 : 0 <= len pre /\ 0 <= len rest) by (unfold len; lia).
    cbn [scan_notes]. destruct (Z.ltb_spec (len pre) (Z.of_nat (length seg))); [|lia]. unfold nhdr_size.
    destruct (Z.ltb_spec (Z.of_nat (length seg)) (len pre + 12)); [lia|].
    assert (W1 : word_at seg (len pre) = Some N).
    { unfold word_at. replace (bytes_at seg (len pre) 4) with (Some (bytes32 N)) by (symmetry; eapply (bytes_at_eq pre (bytes32 N));
        [unfold seg, encode; fold N D; rewrite <- !app_assoc; reflexivity|rewrite ?len_app; fold N p1; change (len (bytes32 ?x)) with 4; lia|reflexivity]). f_equal. apply le_bytes32. lia. }
    assert (W2 : word_at seg (len pre + 4) = Some D).
    { unfold word_at. replace (bytes_at seg (len pre + 4) 4) with (Some (bytes32 D)) by (symmetry; eapply (bytes_at_eq (pre ++ bytes32 N) (bytes32 D));
        [unfold seg, encode; fold N D; rewrite <- !app_assoc; reflexivity|rewrite ?len_app; fold N p1; change (len (bytes32 ?x)) with 4; lia|reflexivity]). f_equal. apply le_bytes32. lia. }
    assert (W3 : word_at seg (len pre + 8) = Some (n_type n)).
    { unfold word_at. replace (bytes_at seg (len pre + 8) 4) with (Some (bytes32 (n_type n))) by (symmetry; eapply (bytes_at_eq (pre ++ bytes32 N ++ bytes32 D) (bytes32 (n_type n)));
        [unfold seg, encode; fold N D; rewrite <- !app_assoc; reflexivity|rewrite ?len_app; fold N p1; change (len (bytes32 ?x)) with 4; lia|reflexivity]). f_equal. apply le_bytes32. exact T. }
    assert (WN : N = 4 -> bytes_at seg (len pre + 12) 4 = Some (n_name n)).
    { intros N4. eapply (bytes_at_eq (pre ++ bytes32 N ++ bytes32 D ++ bytes32 (n_type n)));
        [unfold seg, encode; fold N D; rewrite <- !app_assoc; reflexivity|rewrite ?len_app; fold N p1; change (len (bytes32 ?x)) with 4; lia|fold N; lia]. }
    assert (WD : bytes_at seg (len pre + (12 + N + p1)) D = Some (n_desc n)).
    { eapply (bytes_at_eq (pre ++ bytes32 N ++ bytes32 D ++ bytes32 (n_type n) ++ n_name n ++ n_pad1 n));
        [unfold seg, encode; fold N D; rewrite <- !app_assoc; reflexivity|rewrite ?len_app; fold N p1; change (len (bytes32 ?x)) with 4; lia|reflexivity]. }
    rewrite W1, W2, W3.
    assert (DS : desc_start (2 ^ k) N = 12 + N + p1).
    { unfold desc_start, nhdr_size. unfold wrap64. rewrite Z.mod_small by (unfold two64; lia).
      destruct P1 as [P1 P1']. rewrite (round_up k (12 + N) p1); [apply Z.mod_small; clear P1; lia|exact K|clear P1; lia|clear P1; lia|exact P1|clear P1; lia]. }
    assert (NZ : note_size (2 ^ k) N D = len (encode n)).
    { unfold note_size. rewrite DS. unfold wrap32 at 2. rewrite Z.mod_small by lia. destruct P2 as [P2 P2']. rewrite (round_up k D p2); [|exact K|clear P2; lia|clear P2; lia|exact P2|clear P2; lia]. clear P2.
      rewrite LE. unfold wrap32. rewrite Z.mod_small; lia. }
    assert (NA : wrap32 (- 2 ^ k) = 2 ^ 32 - 2 ^ k).
    { unfold wrap32. symmetry. apply (Z.mod_unique _ _ (-1)); lia. }
    assert (CO : corrupt (2 ^ k) N D (Z.of_nat (length seg) - len pre) = false).
    { unfold corrupt, nhdr_size. rewrite DS, NZ, NA, !orb_false_iff. lia. }
    rewrite CO, NZ.
    assert (NX : forall r, scan_notes fuel seg (2 ^ k) (len pre + len (encode n)) r = acc r (ids ns)).
    { intros r'. rewrite <- len_app. unfold seg. rewrite app_assoc. apply IH. fold rest.
      change (length (encode n ++ rest) < S fuel)%nat in F. rewrite app_length in F. unfold len at 1 in LE.
      clear - F LE NN. lia. }
    unfold ids. cbn [filter]. unfold is_build_id at 1. unfold nt_gnu_build_id.
    destruct (Z.eqb_spec (n_type n) 3) as [T3|T3]; [|cbn [andb]; apply NX]. cbn [andb].
    destruct (list_eq_dec Z.eq_dec (n_name n) [71; 78; 85; 0]) as [G|G].
    + assert (N4 : N = 4) by (unfold N; rewrite G; reflexivity). rewrite (WN N4). rewrite (proj2 (Z.eqb_eq _ _) N4).
      destruct (list_eq_dec Z.eq_dec (n_name n) gnu_name) as [_|G']; [|contradiction].
      cbn [map acc]. destruct r; [|reflexivity]. rewrite DS, WD. apply NX.
    + destruct (Z.eqb_spec N 4) as [N4|N4]; [|apply NX]. rewrite (WN N4).
      destruct (list_eq_dec Z.eq_dec (n_name n) gnu_name) as [G'|_]; [contradiction|apply NX].
Qed.

(** If the note segments of a binary are sequences of notes, the result is the descriptor of its build-id note, or nothing if it has none or
    several. *)
Inductive segs_hold : list segment -> list note -> Prop :=
| Holds_nil : segs_hold [] []
| Holds_other s segs ns : sg_note s = false -> segs_hold segs ns -> segs_hold (s :: segs) ns
| Holds_note k s segs ns ns' : sg_note s = true -> 0 <= k <= 16 -> sg_align s = 2 ^ k -> Forall (note_ok (2 ^ k)) ns ->
    sg_bytes s = concat (map encode ns) -> segs_hold segs ns' -> segs_hold (s :: segs) (ns ++ ns').

Theorem build_id_exact : forall segs ns, segs_hold segs ns -> (forall d, In d (ids ns) -> d <> []) ->
  get_build_id segs = Found (match ids ns with [d] => d | _ => [] end).
Proof.
  intros segs ns H NE.
  assert (AA : forall l l' r, acc r (l ++ l') = match acc r l with Found r' => acc r' l' | o => o end).
  { induction l as [|d l IH]; intros l' r; [reflexivity|]. cbn. destruct r; [apply IH|reflexivity]. }
  assert (G : forall r, scan_segments segs r = acc r (ids ns)).
  { clear NE. induction H as [|s segs ns N H IH|k s segs ns ns' N K AL OK B H IH]; intros r; cbn [scan_segments].
    - reflexivity.
    - rewrite N. apply IH.
    - rewrite N, AL, B. assert (A : 0 < 2 ^ k <= 2 ^ 16) by (split; [apply Z.pow_pos_nonneg; lia|apply Z.pow_le_mono_r; lia]).
      unfold wrap32. rewrite Z.mod_small by lia.
      pose proof (scan_notes_exact k ns K OK (S (length (concat (map encode ns)))) [] r (Nat.lt_succ_diag_r _)) as E.
      cbn [app] in E. change (len []) with 0 in E. rewrite E. unfold ids. rewrite filter_app, map_app, AA.
      fold (ids ns) (ids ns'). destruct (acc r (ids ns)); try reflexivity. apply IH. }
  unfold get_build_id. rewrite G. destruct (ids ns) as [|d [|d' l]]; cbn; try reflexivity.
  destruct d; [exfalso; apply (NE []); [now left|reflexivity]|reflexivity].
Qed.
Print Assumptions build_id_exact.

(** A case: two note segments, of alignments 4 and 8, with a build id of 5 bytes in the first; and one in which there is a second. *)
Definition ex_note : note := Note 3 [71; 78; 85; 0] [1; 2; 3; 4; 5] [] [0; 0; 0].
Definition ex_other : note := Note 5 [71; 78; 85; 0] [9] [] [0; 0; 0; 0; 0; 0; 0].
Definition ex_other4 : note := Note 1 [88; 0] [] [7; 7] [].
Definition ex_segs (l : list note) : list segment :=
  [Segment true (concat (map encode [ex_other4; ex_note])) 4; Segment false [1] 0; Segment true (concat (map encode l)) 8].
Definition ex_note8 : note := Note 3 [71; 78; 85; 0] [8] [] [0; 0; 0; 0; 0; 0; 0].

Example ex_build_id : segs_hold (ex_segs [ex_other]) [ex_other4; ex_note; ex_other] /\
  get_build_id (ex_segs [ex_other]) = Found [1; 2; 3; 4; 5] /\
  segs_hold (ex_segs [ex_other; ex_note8]) [ex_other4; ex_note; ex_other; ex_note8] /\
  get_build_id (ex_segs [ex_other; ex_note8]) = Found [].
Proof.
  assert (H : forall l, Forall (note_ok (2 ^ 3)) l -> segs_hold (ex_segs l) ([ex_other4; ex_note] ++ l)).
  { intros l OK. apply (Holds_note 2); try reflexivity; [lia| |].
    - repeat (constructor; [constructor; vm_compute; repeat split; discriminate || reflexivity|]). constructor.
    - apply Holds_other; [reflexivity|]. rewrite <- (app_nil_r l) at 2. apply (Holds_note 3); try reflexivity; [lia|exact OK|constructor]. }
  split; [|split; [vm_compute; reflexivity|split; [|vm_compute; reflexivity]]].
  - apply (H [ex_other]). repeat (constructor; [constructor; vm_compute; repeat split; discriminate || reflexivity|]). constructor.
  - apply (H [ex_other; ex_note8]). repeat (constructor; [constructor; vm_compute; repeat split; discriminate || reflexivity|]). constructor.
Qed.
