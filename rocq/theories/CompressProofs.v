(** Lemmas for C63. *)
From Verif Require Import Base Bitmap BitmapProps SafeIo SafeIoProofs SafeIoProps Compress.

Definition range (lo hi : Z) : list Z := zseq lo (Z.to_nat (hi - lo)).
Lemma range_In lo hi x : In x (range lo hi) <-> lo <= x < hi.
Proof. unfold range. rewrite zseq_In. lia. Qed.
Lemma range_app lo mid hi : lo <= mid <= hi -> range lo hi = range lo mid ++ range mid hi.
Proof.
  intros H. unfold range. replace (Z.to_nat (hi - lo)) with (Z.to_nat (mid - lo) + Z.to_nat (hi - mid))%nat by lia.
  rewrite zseq_app. do 2 f_equal. lia.
Qed.
Lemma range_nil lo hi : hi <= lo -> range lo hi = [].
Proof. intros H. unfold range. replace (Z.to_nat (hi - lo)) with 0%nat by lia. reflexivity. Qed.
Lemma filter_all {A} (f : A -> bool) l : (forall x, In x l -> f x = true) -> filter f l = l.
Proof. induction l as [|a l IH]; intros H; [reflexivity|]. cbn. rewrite H by (left; auto). rewrite IH; auto. intros; apply H; right; auto. Qed.
Lemma filter_none {A} (f : A -> bool) l : (forall x, In x l -> f x = false) -> filter f l = [].
Proof. induction l as [|a l IH]; intros H; [reflexivity|]. cbn. rewrite H by (left; auto). apply IH. intros; apply H; right; auto. Qed.

Section Loop.
Context (N : Z) (bm : words) (p ua size cap : Z).
Hypothesis Hb : bitmap N bm.
Hypothesis Hp : 0 < p.
Hypothesis Hsize : 0 <= size.
Hypothesis Hcap : 0 <= cap.

Definition base := align_down ua p.
Definition npages := (align_up (ua + size) p - base) / p.
Definition scan := Z.min npages N.
(** The page of an address is among the first [N] and resident. *)
Definition res (a : Z) : bool := (a / p - ua / p <? N) && bit bm (a / p - ua / p).
Definition clip (i : Z) : Z := Z.min (ua + size) (Z.max ua (base + i * p)).
Definition addrs (i : Z) : list Z := filter res (range ua (clip i)).
Definition chunk_addrs (c : Z * nat) : list Z := zseq (fst c) (snd c).

Lemma base_eq : base = ua / p * p. Proof. reflexivity. Qed.
Lemma base_le : base <= ua < base + p.
Proof. rewrite base_eq. pose proof (Z.div_mod ua p). pose proof (Z.mod_pos_bound ua p). lia. Qed.

Lemma npages_eq : npages = (ua + size + p - 1) / p - ua / p.
Proof. unfold npages, align_up. rewrite base_eq. rewrite <- Z.mul_sub_distr_r. apply Z.div_mul. lia. Qed.

Lemma npages_end : ua + size <= base + npages * p /\ 0 <= npages.
Proof.
  rewrite npages_eq, base_eq. pose proof (Z.div_mod (ua + size + p - 1) p). pose proof (Z.mod_pos_bound (ua + size + p - 1) p).
  assert (ua / p <= (ua + size + p - 1) / p) by (apply Z.div_le_mono; lia). nia.
Qed.
Lemma page_start s : s < npages -> base + s * p <= ua + size.
Proof.
  rewrite npages_eq, base_eq. pose proof (Z.div_mod (ua + size + p - 1) p). pose proof (Z.mod_pos_bound (ua + size + p - 1) p). intros H1.
  assert ((ua / p + s) * p <= ((ua + size + p - 1) / p - 1) * p) by (apply Z.mul_le_mono_nonneg_r; lia). nia.
Qed.

Lemma page_of a i : base + i * p <= a < base + (i + 1) * p -> a / p - ua / p = i.
Proof.
  rewrite base_eq. intros H. assert (E : a / p = ua / p + i); [|lia].
  symmetry. apply (Z.div_unique a p (ua / p + i) (a - (ua / p + i) * p)); lia.
Qed.
Lemma page_between a i j : base + i * p <= a < base + j * p -> i <= a / p - ua / p < j.
Proof.
  rewrite base_eq. intros H. pose proof (Z.div_mod a p). pose proof (Z.mod_pos_bound a p). nia.
Qed.

Lemma clip_0 : clip 0 = ua. Proof. unfold clip. pose proof base_le. lia. Qed.
Lemma clip_mono i j : i <= j -> ua <= clip i <= clip j.
Proof. intros H. unfold clip. assert (i * p <= j * p) by (apply Z.mul_le_mono_nonneg_r; lia). lia. Qed.
Lemma clip_end i : npages <= i -> clip i = ua + size.
Proof. intros H. unfold clip. pose proof npages_end. assert (npages * p <= i * p) by (apply Z.mul_le_mono_nonneg_r; lia). lia. Qed.

Lemma addrs_split i j : i <= j -> addrs j = addrs i ++ filter res (range (clip i) (clip j)).
Proof. intros H. unfold addrs. rewrite (range_app ua (clip i) (clip j)) by (apply clip_mono; auto). apply filter_app. Qed.

Lemma clip_page i j a : 0 <= i -> clip i <= a < clip j -> i <= a / p - ua / p < j.
Proof.
  intros Hi H. apply page_between. unfold clip in H. lia.
Qed.

Lemma addrs_gap i j : 0 <= i <= j -> (forall k, i <= k < j -> k < N -> bit bm k = false) -> addrs j = addrs i.
Proof.
  intros H B. rewrite (addrs_split i j) by lia. rewrite filter_none; [apply app_nil_r|]. intros a Ha. apply range_In in Ha.
  pose proof (clip_page i j a ltac:(lia) Ha) as P. unfold res. destruct (Z.ltb_spec (a / p - ua / p) N); [|reflexivity].
  rewrite B by lia. reflexivity.
Qed.
Lemma addrs_run i j : 0 <= i <= j -> j <= N -> (forall k, i <= k < j -> bit bm k = true) -> addrs j = addrs i ++ range (clip i) (clip j).
Proof.
  intros H HN B. rewrite (addrs_split i j) by lia. f_equal. apply filter_all. intros a Ha. apply range_In in Ha.
  pose proof (clip_page i j a ltac:(lia) Ha) as P. unfold res. rewrite B by lia. rewrite andb_true_r. apply Z.ltb_lt. lia.
Qed.
Lemma addrs_all : addrs scan = filter res (range ua (ua + size)).
Proof.
  unfold scan. destruct (Z.le_gt_cases npages N).
  - rewrite Z.min_l by lia. unfold addrs. rewrite clip_end by lia. reflexivity.
  - rewrite Z.min_r by lia. assert (0 <= N \/ N < 0) as [HN|HN] by lia.
    + rewrite <- (addrs_gap N npages); [|lia|intros; lia]. unfold addrs. rewrite clip_end by lia. reflexivity.
    + unfold addrs. rewrite (filter_none _ (range ua (ua + size))). 
      * apply filter_none. intros a Ha. unfold res. apply range_In in Ha. assert (ua / p <= a / p) by (apply Z.div_le_mono; lia).
        destruct (Z.ltb_spec (a / p - ua / p) N); [lia|reflexivity].
      * intros a Ha. unfold res. apply range_In in Ha. assert (ua / p <= a / p) by (apply Z.div_le_mono; lia).
        destruct (Z.ltb_spec (a / p - ua / p) N); [lia|reflexivity].
Qed.

Lemma firstn_app_take {A} (l m : list A) c : firstn c (l ++ m) = firstn c l ++ firstn (c - length (firstn c l)) m.
Proof.
  rewrite firstn_app. f_equal. rewrite firstn_length. destruct (Nat.le_gt_cases c (length l)).
  - replace (c - length l)%nat with 0%nat by lia. replace (c - Nat.min c (length l))%nat with 0%nat by lia. reflexivity.
  - f_equal. lia.
Qed.

Lemma chunk_loop_spec fuel : forall page chunks total, 0 < N -> 0 <= page < N -> (page < scan \/ scan <= 0) -> N - page < Z.of_nat fuel ->
  flat_map chunk_addrs (rev chunks) = firstn (Z.to_nat cap) (addrs page) -> total = Z.of_nat (length (firstn (Z.to_nat cap) (addrs page))) ->
  exists chunks' total', chunk_loop fuel N bm p ua size cap scan page chunks total = Some (chunks', total') /\
    flat_map chunk_addrs (rev chunks') = firstn (Z.to_nat cap) (addrs scan) /\ total' = Z.of_nat (length (firstn (Z.to_nat cap) (addrs scan))).
Proof.
  induction fuel as [|fuel IH]; intros page chunks total HN Hpg Hps Hf Hc Ht; [lia|].
  cbn [chunk_loop].
  destruct (bitmap_find N bm true page Hb Hpg) as (s & Es & Ls & Gs & Rs). unfold find_set. rewrite Es. cbn [obind].
  assert (Sc : scan <= N) by (unfold scan; lia).
  destruct (Z.leb_spec scan s) as [Hs|Hs].
  - exists chunks, total. split; [reflexivity|].
    assert (E : addrs scan = addrs page).
    { destruct (Z.le_gt_cases page scan).
      - apply addrs_gap; [lia|]. intros k Hk _. rewrite Gs by lia. reflexivity.
      - assert (Z0 : scan <= 0) by lia. pose proof npages_end as (Q1 & Q2).
        assert (Q3 : npages = 0) by (unfold scan in Z0; lia).
        unfold addrs. rewrite (clip_end page) by lia. rewrite (clip_end scan) by (unfold scan; lia). reflexivity. }
    rewrite E. auto.
  - destruct (bitmap_find N bm false s Hb ltac:(lia)) as (e0 & Ee & Le & Ge & Re). unfold find_clear. rewrite Ee. cbn [obind].
    set (e := Z.min e0 scan).
    assert (Hse : s < e).
    { assert (e0 <> s). { intros K. assert (A : bit bm s = true) by (apply Rs; lia). assert (B : bit bm e0 = false) by (apply Re; lia). congruence. } unfold e. lia. }
    assert (Hgap : addrs s = addrs page).
    { apply addrs_gap; [lia|]. intros k Hk _. rewrite Gs by lia. reflexivity. }
    assert (Hrun : addrs e = addrs page ++ range (clip s) (clip e)).
    { rewrite <- Hgap. apply addrs_run; [lia|unfold e; lia|]. intros k Hk. rewrite Ge by (unfold e in *; lia). reflexivity. }
    assert (Hnp : s < npages) by (unfold scan in Hs; lia).
    assert (Cs : clip s = Z.max ua (align_down ua p + s * p)).
    { unfold clip. fold base. pose proof (page_start s Hnp). lia. }
    assert (Ce : clip e = Z.min (ua + size) (align_down ua p + e * p)).
    { unfold clip. fold base. pose proof base_le. assert (1 * p <= e * p) by (apply Z.mul_le_mono_nonneg_r; lia). lia. }
    rewrite <- Cs, <- Ce.
    assert (Hm : clip s <= clip e) by (apply clip_mono; lia).
    set (to_copy := Z.min (clip e - clip s) (cap - total)).
    assert (Hlen : (length (firstn (Z.to_nat cap) (addrs page)) <= Z.to_nat cap)%nat) by (rewrite firstn_length; lia).
    assert (Ht0 : 0 <= to_copy) by (unfold to_copy; lia).
    assert (Take : firstn (Z.to_nat cap) (addrs e) = firstn (Z.to_nat cap) (addrs page) ++ zseq (clip s) (Z.to_nat to_copy)).
    { rewrite Hrun, firstn_app_take. f_equal. unfold range.
      destruct (Z.le_gt_cases (clip e - clip s) (cap - total)).
      - rewrite firstn_all2. f_equal. unfold to_copy. lia. rewrite zseq_length. lia.
      - rewrite zseq_firstn by lia. f_equal. unfold to_copy. lia. }
    assert (Hc2 : flat_map chunk_addrs (rev ((clip s, Z.to_nat to_copy) :: chunks)) = firstn (Z.to_nat cap) (addrs e)).
    { cbn [rev]. rewrite flat_map_app, Hc, Take. cbn [flat_map]. rewrite app_nil_r. reflexivity. }
    assert (Ht2 : total + to_copy = Z.of_nat (length (firstn (Z.to_nat cap) (addrs e)))).
    { rewrite Take, app_length, zseq_length. lia. }
    destruct (Z.ltb_spec e scan) as [He|He]; cbn [andb].
    + destruct (Z.ltb_spec (total + to_copy) cap) as [Hl|Hl].
      * apply IH; auto; lia.
      * exists ((clip s, Z.to_nat to_copy) :: chunks), (total + to_copy). split; [reflexivity|].
        assert (E : firstn (Z.to_nat cap) (addrs scan) = firstn (Z.to_nat cap) (addrs e)).
        { rewrite (addrs_split e scan) by lia. rewrite firstn_app. 
          assert (L : (Z.to_nat cap <= length (addrs e))%nat) by (rewrite firstn_length in Ht2; lia).
          replace (Z.to_nat cap - length (addrs e))%nat with 0%nat by lia. cbn. apply app_nil_r. }
        rewrite E. auto.
    + exists ((clip s, Z.to_nat to_copy) :: chunks), (total + to_copy). split; [reflexivity|].
      replace scan with e by (unfold e in *; lia). auto.
Qed.

Lemma copy_resident_spec mem part : 0 < N ->
  exists r, copy_resident mem part N bm p ua size cap = Some r /\
  match r with
  | Some sample => map Some sample = map mem (firstn (Z.to_nat cap) (filter res (range ua (ua + size))))
  | None => exists a, In a (firstn (Z.to_nat cap) (filter res (range ua (ua + size)))) /\ mem a = None
  end.
Proof.
  intros HN. unfold copy_resident. fold base. fold npages. fold scan.
  assert (A0 : addrs 0 = []). { unfold addrs. rewrite clip_0, range_nil by lia. reflexivity. }
  destruct (chunk_loop_spec (Z.to_nat N + 1) 0 [] 0) as (chunks & total & -> & C & T).
  - lia.
  - lia.
  - destruct (Z.le_gt_cases scan 0); [right|left]; lia.
  - lia.
  - rewrite A0, firstn_nil. reflexivity.
  - rewrite A0, firstn_nil. reflexivity.
  - cbn [obind]. rewrite addrs_all in C, T. rewrite <- C. rewrite <- C in T.
    destruct (Z.ltb_spec 0 total) as [H|H].
    + destruct (safe_copy_exact mem part (rev chunks) false) as (dst & ok & -> & A & B). cbn [obind].
      eexists. split; [reflexivity|]. destruct ok.
      * rewrite (B eq_refl). clear. induction (rev chunks) as [|c l IH]; [reflexivity|]. cbn [flat_map]. rewrite map_app, IH. reflexivity.
      * destruct (existsb (fun a => match mem a with None => true | _ => false end) (flat_map chunk_addrs (rev chunks))) eqn:X.
        -- apply existsb_exists in X as (a & I & M). exists a. split; auto. destruct (mem a); [discriminate|reflexivity].
        -- exfalso. assert (false = true); [|discriminate]. apply A. split; [reflexivity|]. split.
           ++ intros K. rewrite K in T. cbn in T. lia.
           ++ intros a n x I Hx M. rewrite <- not_true_iff_false in X. apply X. apply existsb_exists. exists x. rewrite M. split; [|reflexivity].
              apply in_flat_map. exists (a, n). split; auto. unfold chunk_addrs. apply zseq_In. exact Hx.
    + eexists. split; [reflexivity|]. destruct (flat_map chunk_addrs (rev chunks)); [reflexivity|cbn in T; lia].
Qed.
End Loop.
