(** C63: the sample of an object's memory and the estimate of its zero bytes. *)
From Verif Require Import Base Bitmap BitmapProps SafeIo Compress CompressSpec CompressProofs.

(** The sample is the first [cap] resident bytes of the object, in order; an error is reported
    exactly when one of those is not mapped. *)
Theorem sample_is_first_resident_bytes (mem : Z -> option Z) part N bm p ua size cap :
  bitmap N bm -> 0 < N -> 0 < p -> 0 <= size -> 0 <= cap ->
  let wanted := firstn (Z.to_nat cap) (resident_addresses N (bit bm) p ua size) in
  exists r, copy_resident mem part N bm p ua size cap = Some r /\
  match r with
  | Some sample => map Some sample = map mem wanted
  | None => exists a, In a wanted /\ mem a = None
  end.
Proof.
  intros Hb HN Hp Hs Hc wanted. destruct (copy_resident_spec N bm p ua size cap Hb Hp Hs Hc mem part HN) as (r & E & R).
  exists r. split; [exact E|]. unfold range, res in R. replace (ua + size - ua) with size in R by lia. exact R.
Qed.
Print Assumptions sample_is_first_resident_bytes.

(** So the sample of a mapped object is never longer than the destination, and has every resident
    byte if these fit. *)
Theorem sample_fits_and_is_whole (mem : Z -> option Z) part N bm p ua size cap :
  bitmap N bm -> 0 < N -> 0 < p -> 0 <= size -> 0 <= cap ->
  (forall a, In a (resident_addresses N (bit bm) p ua size) -> mem a <> None) ->
  exists sample, copy_resident mem part N bm p ua size cap = Some (Some sample) /\
    Z.of_nat (length sample) = Z.min cap (Z.of_nat (length (resident_addresses N (bit bm) p ua size))) /\
    (Z.of_nat (length (resident_addresses N (bit bm) p ua size)) <= cap ->
     map Some sample = map mem (resident_addresses N (bit bm) p ua size)).
Proof.
  intros Hb HN Hp Hs Hc M. destruct (sample_is_first_resident_bytes mem part N bm p ua size cap Hb HN Hp Hs Hc) as ([s|] & E & R).
  - exists s. split; [exact E|]. split.
    + apply (f_equal (@length _)) in R. rewrite !map_length, firstn_length in R. lia.
    + intros L. rewrite R. rewrite firstn_all2 by lia. reflexivity.
  - destruct R as (a & I & K). exfalso. apply (M a); auto. rewrite <- (firstn_skipn (Z.to_nat cap)). apply in_or_app. auto.
Qed.
Print Assumptions sample_fits_and_is_whole.

Lemma zeroes_bound (l : list Z) : 0 <= Z.of_nat (length (filter (fun c => c =? 0) l)) <= Z.of_nat (length l).
Proof. induction l as [|c l IH]; cbn [filter length]; [lia|]. destruct (c =? 0); cbn [length]; lia. Qed.

(** The estimate: memory that is neither resident nor swapped counts as zero, and of the rest the
    share that the sample shows. *)
Theorem estimate_bounds share size resident swapped sample : a_share share -> 0 <= size -> 0 <= resident -> 0 <= swapped ->
  let r := estimate_zero_bytes share size resident swapped sample in
  let absent := size - Z.min size (resident + swapped) in
  absent <= r <= size /\
  ((forall c, In c sample -> c <> 0) -> r = absent) /\
  (sample <> [] -> (forall c, In c sample -> c = 0) -> r = size).
Proof.
  intros (S1 & S2 & S3 & S4) H1 H2 H3 r absent. unfold r, estimate_zero_bytes. fold absent.
  destruct sample as [|c l]; [split; [unfold absent; lia|split; [auto|congruence]]|].
  pose proof (zeroes_bound (c :: l)) as Z.
  assert (L : 0 < Z.of_nat (length (c :: l))) by (cbn [length]; lia). remember (c :: l) as s eqn:Es.
  split; [|split].
  - pose proof (S1 _ _ (Z.min size (resident + swapped)) Z L ltac:(lia)). unfold absent. lia.
  - intros A. rewrite filter_none by (intros x Hx; apply Z.eqb_neq; auto). cbn [length]. rewrite S2 by lia. lia.
  - intros _ A. rewrite filter_all by (intros x Hx; apply Z.eqb_eq; auto). rewrite S3 by lia. unfold absent. lia.
Qed.
Print Assumptions estimate_bounds.

(** Turning bytes of the sample into zeroes never lowers the estimate. *)
Theorem estimate_grows_with_zeroes share size resident swapped s s' : a_share share -> 0 <= size -> 0 <= resident -> 0 <= swapped ->
  Forall2 (fun c c' => c = 0 -> c' = 0) s s' ->
  estimate_zero_bytes share size resident swapped s <= estimate_zero_bytes share size resident swapped s'.
Proof.
  intros (S1 & S2 & S3 & S4) H1 H2 H3 F.
  assert (Q : length s = length s' /\ (length (filter (fun c => (c =? 0)%Z) s) <= length (filter (fun c => (c =? 0)%Z) s'))%nat).
  { induction F as [|c c' l l' Hc F IH]; [auto|]. destruct IH as [IH1 IH2]. cbn [length filter]. split; [lia|].
    destruct (Z.eqb_spec c 0) as [K|K].
    - rewrite (Hc K). cbn [length Z.eqb]. lia.
    - destruct (c' =? 0); cbn [length]; lia. }
  destruct Q as [Q1 Q2]. unfold estimate_zero_bytes. destruct F as [|c c' l l' Hc F]; [lia|].
  rewrite <- Q1. pose proof (zeroes_bound (c :: l)). pose proof (zeroes_bound (c' :: l')). rewrite <- Q1 in H0.
  assert (S : 0 < Z.of_nat (length (c :: l))) by (cbn [length]; lia).
  assert (G := S4 (Z.of_nat (length (filter (fun c => c =? 0) (c :: l)))) (Z.of_nat (length (filter (fun c => c =? 0) (c' :: l')))) (Z.of_nat (length (c :: l))) (Z.min size (resident + swapped))).
  specialize (G ltac:(lia) ltac:(lia) ltac:(lia) ltac:(lia)). lia.
Qed.
Print Assumptions estimate_grows_with_zeroes.

(** End to end: the analysis of a mapped object says [size] exactly when nothing was found that is
    not zero: every byte of memory that is zero is counted when the sample reaches all of it. *)
Theorem analyze_zero_object share (mem : Z -> option Z) part N bm p ua size cap resident swapped :
  a_share share -> bitmap N bm -> 0 < N -> 0 < p -> 0 <= size -> 0 < cap -> 0 <= resident -> 0 <= swapped ->
  (forall a, ua <= a < ua + size -> mem a = Some 0) ->
  resident_addresses N (bit bm) p ua size <> [] \/ resident + swapped = 0 ->
  analyze share mem part N bm p ua size cap resident swapped = Some (Some size).
Proof.
  intros Sh Hb HN Hp Hs Hc Hr Hw M Hne.
  assert (M' : forall a, In a (resident_addresses N (bit bm) p ua size) -> mem a = Some 0).
  { intros a I. apply filter_In in I as [I _]. apply M. apply zseq_In in I. lia. }
  destruct (sample_fits_and_is_whole mem part N bm p ua size cap) as (s & E & L & _); auto; [lia|intros a I; rewrite M' by auto; discriminate|].
  destruct (sample_is_first_resident_bytes mem part N bm p ua size cap) as (r & E' & R); auto; [lia|].
  rewrite E in E'. injection E' as <-. unfold analyze. rewrite E. cbn [obind]. do 2 f_equal.
  assert (Zs : forall c, In c s -> c = 0).
  { intros c I. apply (in_map Some) in I. rewrite R in I. apply in_map_iff in I as (a & Ea & Ia). rewrite M' in Ea; [congruence|].
    rewrite <- (firstn_skipn (Z.to_nat cap)). apply in_or_app. auto. }
  destruct (estimate_bounds share size resident swapped s Sh Hs Hr Hw) as (B1 & B2 & B3).
  destruct Hne as [Hne|Hz].
  - apply B3; auto. intros ->. cbn in L. destruct (resident_addresses N (bit bm) p ua size); [congruence|cbn [length] in L; lia].
  - lia.
Qed.
Print Assumptions analyze_zero_object.

(** A concrete share: rounding down. *)
Example floor_is_a_share : a_share (fun z n b => z * b / n).
Proof.
  unfold a_share. split; [|split; [|split]].
  - intros z n b H1 H2 H3. split; [apply Z.div_pos; nia|apply Z.div_le_upper_bound; nia].
  - intros n b H1 H2. apply Z.div_0_l. lia.
  - intros n b H1 H2. rewrite Z.mul_comm. apply Z.div_mul. lia.
  - intros z z' n b H1 H2 H3 H4. apply Z.div_le_mono; nia.
Qed.
(** Pages of 4 bytes, 130 flags; an object of 14 bytes from address 6, its pages 0, 2 and 3 resident:
    bytes 6 and 7, then 12 to 19, of which 7 fit. *)
Definition ex_bits : words := upd (fun _ => 0) 0 13.
Example resident_ex : resident_addresses 130 (bit ex_bits) 4 6 14 = [6; 7; 12; 13; 14; 15; 16; 17; 18; 19].
Proof. vm_compute. reflexivity. Qed.
Example sample_ex : copy_resident (fun a => Some (a mod 5)) 0 130 ex_bits 4 6 14 7 = Some (Some [1; 2; 2; 3; 4; 0; 1]).
Proof. vm_compute. reflexivity. Qed.
Example sample_fault : copy_resident (fun a => if a =? 13 then None else Some 7) 0 130 ex_bits 4 6 14 7 = Some None.
Proof. vm_compute. reflexivity. Qed.
Example analyze_ex : analyze (fun z n b => z * b / n) (fun a => Some (a mod 5)) 0 130 ex_bits 4 6 14 7 8 2 = Some (Some 5).
Proof. vm_compute. reflexivity. Qed.
