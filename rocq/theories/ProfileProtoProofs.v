(** Lemmas about the tables of the profile builder. *)
From Verif Require Import Base ProfileProto ProfileProtoSpec.

Record strings_ok (t : list string) (m : list (string * nat)) : Prop := StringsOk {
  so_empty : nth_error t 0 = Some "";
  so_in : forall i s, nth_error t (S i) = Some s -> s <> "" /\ find_string m s = Some (S i);
  so_find : forall s i, find_string m s = Some i -> nth_error t i = Some s }.

Record locs_ok (b : builder) : Prop := LocsOk {
  lk_in : forall i l, nth_error (b_locs b) i = Some l -> lo_id l = S i /\ find_addr (b_lmap b) (lo_address l) = Some (S i) /\
            lo_mapping l = mapping_of b (lo_address l);
  lk_find : forall a i, find_addr (b_lmap b) a = Some i ->
              exists j l, i = S j /\ nth_error (b_locs b) j = Some l /\ lo_address l = a }.

Record binv (b : builder) : Prop := Binv { bi_s : strings_ok (b_strings b) (b_smap b); bi_l : locs_ok b }.

(** [b'] has what [b] has, and perhaps more strings and locations. *)
Record ext (b b' : builder) : Prop := Ext {
  ex_s : exists t, b_strings b' = b_strings b ++ t;
  ex_l : exists t, b_locs b' = b_locs b ++ t;
  ex_m : b_maps b' = b_maps b; ex_mm : b_mmap b' = b_mmap b }.

Lemma ext_refl b : ext b b.
Proof. constructor; try reflexivity; exists []; now rewrite app_nil_r. Qed.

Lemma ext_trans a b c : ext a b -> ext b c -> ext a c.
Proof.
  intros [[t1 A1] [t2 A2] A3 A4] [[u1 B1] [u2 B2] B3 B4]. constructor; try congruence.
  - exists (t1 ++ u1). now rewrite B1, A1, app_assoc.
  - exists (t2 ++ u2). now rewrite B2, A2, app_assoc.
Qed.

Definition sres (b : builder) (i : nat) (s : string) : Prop := nth_error (b_strings b) i = Some s.
Definition lres (b : builder) (i : nat) (a : Z) : Prop := exists l, In l (b_locs b) /\ lo_id l = i /\ lo_address l = a.

Lemma nth_error_app_l {A} (l t : list A) i x : nth_error l i = Some x -> nth_error (l ++ t) i = Some x.
Proof. intros H. rewrite nth_error_app1; [exact H|]. apply nth_error_Some. congruence. Qed.

Lemma sres_ext b b' i s : ext b b' -> sres b i s -> sres b' i s.
Proof. intros [[t E] _ _ _] H. unfold sres in *. rewrite E. now apply nth_error_app_l. Qed.

Lemma lres_ext b b' i a : ext b b' -> lres b i a -> lres b' i a.
Proof. intros [_ [t E] _ _] (l & H1 & H2). exists l. split; [|exact H2]. rewrite E. apply in_or_app. now left. Qed.

Lemma strings_init : strings_ok [""] [].
Proof. constructor; [reflexivity| |]; intros i s H; [destruct i as [|[|i]]|]; discriminate. Qed.

Lemma nth_error_snoc {A} (l : list A) x i y :
  nth_error (l ++ [x]) i = Some y -> nth_error l i = Some y \/ (i = List.length l /\ y = x).
Proof.
  intros H. destruct (Nat.ltb_spec i (List.length l)).
  - left. now rewrite nth_error_app1 in H.
  - right. rewrite nth_error_app2 in H by lia. destruct (i - List.length l)%nat as [|n] eqn:E.
    + split; [lia|]. cbn in H. congruence.
    + destruct n; discriminate.
Qed.

Lemma mapping_of_eq b b' a : b_maps b' = b_maps b -> b_mmap b' = b_mmap b -> mapping_of b' a = mapping_of b a.
Proof. intros H1 H2. unfold mapping_of. now rewrite H1, H2. Qed.

Lemma intern_string_ok b s b' i : binv b -> intern_string b s = (b', i) ->
  binv b' /\ ext b b' /\ sres b' i s /\ b_locs b' = b_locs b.
Proof.
  intros [S L] H. unfold intern_string in H. destruct (String.eqb_spec s "") as [->|NE].
  - injection H as <- <-. split; [now constructor|split; [apply ext_refl|split; [exact (so_empty _ _ S)|reflexivity]]].
  - destruct (find_string (b_smap b) s) as [j|] eqn:F.
    + injection H as <- <-. split; [now constructor|split; [apply ext_refl|split; [exact (so_find _ _ S _ _ F)|reflexivity]]].
    + injection H as <- <-.
      assert (LEN : (0 < List.length (b_strings b))%nat).
      { apply nth_error_Some. rewrite (so_empty _ _ S). discriminate. }
      split; [constructor|split; [|split; [|reflexivity]]]; cbn.
      * constructor.
        -- apply nth_error_app_l, (so_empty _ _ S).
        -- intros k t Hk. cbn. apply nth_error_snoc in Hk. destruct Hk as [Hk|[Hk ->]].
           ++ destruct (so_in _ _ S _ _ Hk) as [N E]. split; [exact N|]. destruct (String.eqb_spec s t); congruence.
           ++ split; [exact NE|]. rewrite String.eqb_refl. congruence.
        -- intros t k. cbn. destruct (String.eqb_spec s t) as [->|].
           ++ intros [= <-]. rewrite nth_error_app2 by lia. now rewrite Nat.sub_diag.
           ++ intros Hk. apply nth_error_app_l, (so_find _ _ S _ _ Hk).
      * constructor; cbn; [intros k l Hk|exact (lk_find _ L)]. exact (lk_in _ L _ _ Hk).
      * constructor; cbn; try reflexivity; [now exists [s]|exists []; now rewrite app_nil_r].
      * unfold sres. cbn. rewrite nth_error_app2 by lia. now rewrite Nat.sub_diag.
Qed.

Lemma intern_location_ok b a b' i : binv b -> intern_location b a = (b', i) -> binv b' /\ ext b b' /\ lres b' i a.
Proof.
  intros [S L] H. unfold intern_location in H. destruct (find_addr (b_lmap b) a) as [j|] eqn:F.
  - injection H as <- <-. split; [now constructor|split; [apply ext_refl|]].
    destruct (lk_find _ L _ _ F) as (k & l & -> & N & <-). exists l.
    split; [now apply nth_error_In in N|split; [apply (lk_in _ L _ _ N)|reflexivity]].
  - injection H as <- <-. split; [constructor|split]; cbn.
    + exact S.
    + constructor; cbn.
      * intros k l Hk. apply nth_error_snoc in Hk. destruct Hk as [Hk|[-> ->]].
        -- destruct (lk_in _ L _ _ Hk) as (A & B & C). split; [exact A|split; [|exact C]].
           destruct (Z.eqb_spec a (lo_address l)); congruence.
        -- cbn. rewrite Z.eqb_refl. split; [reflexivity|split; reflexivity].
      * intros x k. destruct (Z.eqb_spec a x) as [->|].
        -- intros [= <-]. exists (List.length (b_locs b)), (Location (Datatypes.S (List.length (b_locs b))) x (mapping_of b x)).
           split; [reflexivity|]. split; [|reflexivity]. rewrite nth_error_app2 by lia. rewrite Nat.sub_diag. reflexivity.
        -- intros Hk. destruct (lk_find _ L _ _ Hk) as (j & l & -> & N & E). exists j, l.
           split; [reflexivity|split; [now apply nth_error_app_l|exact E]].
    + constructor; cbn; try reflexivity; [exists []; now rewrite app_nil_r|eexists; reflexivity].
    + eexists. split; [apply in_or_app; right; left; reflexivity|split; reflexivity].
Qed.

Lemma call_site_wrap f : 0 <= f < 2 ^ 64 -> wrap64 (f - 1) = call_site f.
Proof.
  intros H. unfold wrap64, two64, call_site. destruct (Z.eqb_spec f 0) as [->|]; [reflexivity|]. apply Z.mod_small. lia.
Qed.

Lemma intern_callstack_ok st : forall b b' is, binv b -> intern_callstack b st = (b', is) ->
  Forall (fun f => 0 <= f < 2 ^ 64) st ->
  binv b' /\ ext b b' /\ Forall2 (lres b') is (map call_site st).
Proof.
  induction st as [|f st IH]; intros b b' is B H F; cbn in H.
  - injection H as <- <-. split; [exact B|split; [apply ext_refl|constructor]].
  - destruct (intern_location b (wrap64 (f - 1))) as [b1 i] eqn:E1.
    destruct (intern_callstack b1 st) as [b2 is2] eqn:E2. injection H as <- <-. inversion F; subst.
    apply intern_location_ok in E1; [|exact B]. destruct E1 as (B1 & X1 & R1).
    apply IH in E2; [|exact B1|assumption]. destruct E2 as (B2 & X2 & R2).
    split; [exact B2|split; [eapply ext_trans; eassumption|]]. cbn. constructor; [|exact R2].
    rewrite <- call_site_wrap by assumption. eapply lres_ext; eassumption.
Qed.

(** ** Chains of interned strings. *)
Ltac intern_in H :=
  lazymatch type of H with
  | context [intern_string ?b ?s] =>
      let b' := fresh "b" in let i := fresh "i" in let E := fresh "E" in
      let B := fresh "B" in let X := fresh "X" in let R := fresh "R" in let L := fresh "L" in
      destruct (intern_string b s) as [b' i] eqn:E; cbv beta iota in H;
      apply intern_string_ok in E; [|assumption];
      destruct E as (B & X & R & L);
      repeat match goal with
             | R' : sres b _ _ |- _ => apply (sres_ext _ _ _ _ X) in R'
             | X' : ext _ b |- _ => apply (fun Y => ext_trans _ _ _ Y X) in X'
             | L' : b_locs b = _ |- _ => rewrite <- L in L'
             end
  end.

Lemma Forall2_app_intro {A B} (R : A -> B -> Prop) l l' m m' : Forall2 R l m -> Forall2 R l' m' -> Forall2 R (l ++ l') (m ++ m').
Proof. intros H1 H2. now apply Forall2_app. Qed.

Definition slabel (b : builder) (l : label) (r : rlabel) : Prop :=
  sres b (l_key l) (rl_key r) /\ sres b (l_str l) (rl_str r) /\ l_num l = rl_num r /\ sres b (l_unit l) (rl_unit r).

Lemma slabel_ext b b' l r : ext b b' -> slabel b l r -> slabel b' l r.
Proof. intros X (A & B & C & D). repeat split; [..|exact C|]; eapply sres_ext; eassumption. Qed.

Lemma to_int64_small x : i64 x -> to_int64 x = x.
Proof. intros H. unfold i64 in H. unfold to_int64. rewrite Z.mod_small; lia. Qed.

Lemma to_int64_wrap x : to_int64 (wrap64 x) = to_int64 x.
Proof. unfold to_int64, wrap64, two64. now rewrite Zplus_mod_idemp_l. Qed.

Lemma wrap64_zero x : i64 x -> wrap64 x = 0 -> x = 0.
Proof.
  unfold i64, wrap64, two64. intros H E. apply Z.mod_divide in E; [|lia]. destruct E as [k E]. lia.
Qed.

Lemma num_label_ok b k u ks us v : strings_ok (b_strings b) (b_smap b) -> sres b k ks -> sres b u us -> i64 v ->
  slabel b (num_label k u v) (number ks us v).
Proof. intros S K U V. split; [exact K|split; [exact (so_empty _ _ S)|split; [now apply to_int64_small|exact U]]]. Qed.

Lemma str_label_ok b k s ks ss : strings_ok (b_strings b) (b_smap b) -> sres b k ks -> sres b s ss ->
  slabel b (str_label k s) (text ks ss).
Proof. intros S K U. split; [exact K|split; [exact U|split; [reflexivity|exact (so_empty _ _ S)]]]. Qed.

Lemma positive_label_ok b k u ks us v : strings_ok (b_strings b) (b_smap b) -> sres b k ks -> sres b u us -> i64 v ->
  Forall2 (slabel b) (positive_label k u v) (number_if ks us v).
Proof.
  intros S K U V. unfold positive_label, number_if.
  assert (0 <= wrap64 v) by (apply Z.mod_pos_bound; reflexivity).
  destruct (Z.eqb_spec v 0) as [->|N].
  - constructor.
  - destruct (Z.leb_spec (wrap64 v) 0).
    + exfalso. apply N, wrap64_zero; [exact V|]. apply Z.le_antisymm; assumption.
    + constructor; [now apply num_label_ok|constructor].
Qed.

Lemma i63_i64 x : i63 x -> i64 x.
Proof. unfold i63, i64. lia. Qed.

Lemma common_tags_ok b e : binv b -> attrs_fit e ->
  match common_tags b e with
  | None => a_guarded e = TooSmall \/ a_guarded e = UnknownStatus
  | Some (b', ls) => binv b' /\ ext b b' /\ Forall2 (slabel b') ls (said_of e) /\ a_guarded e <> TooSmall /\ a_guarded e <> UnknownStatus
  end.
Proof.
  intros B0 F. destruct (common_tags b e) as [[b' ls]|] eqn:H; unfold common_tags in H.
  - assert (X0 : ext b b) by apply ext_refl.
    remember b as b0 in X0 at 1 |- * at 1. 
    repeat intern_in H.
    match type of H with (match ?o with _ => _ end = _) => destruct o as [st|] eqn:EST; [|discriminate] end.
    injection H as <- <-.
    match goal with B : binv ?x |- binv ?x /\ _ => pose proof (bi_s _ B) as S; split; [exact B|] end.
    split; [assumption|].
    match goal with |- Forall2 (slabel ?x) _ _ /\ _ => set (b' := x) in * end.
    assert (ST : sres b' st (status_name (a_guarded e)) /\ a_guarded e <> TooSmall /\ a_guarded e <> UnknownStatus).
    { destruct (a_guarded e); cbn in EST; try discriminate EST; injection EST as <-; (split; [assumption|split; discriminate]). }
    destruct ST as [ST NE]. split; [|exact NE]. unfold said_of. rewrite <- !app_assoc.
    apply Forall2_app_intro; [|apply Forall2_app_intro; [|apply Forall2_app_intro; [|apply Forall2_app_intro; [|]]]].
    + apply positive_label_ok; try assumption. apply i63_i64, (af_allocated _ F).
    + apply positive_label_ok; try assumption. apply i63_i64, (af_requested _ F).
    + destruct (a_alignment e) as [x|] eqn:EA; [|constructor].
      apply positive_label_ok; try assumption. apply i63_i64, (af_alignment _ F x EA).
    + destruct (a_returning e); [|constructor]. cbn. constructor; [|constructor].
      apply num_label_ok; try assumption; [exact (so_empty _ _ S)|split; [discriminate|reflexivity]].
    + cbn [app]. constructor.
      { rewrite Z.mod_small by exact (af_hint _ F).
        apply num_label_ok; try assumption. pose proof (af_hint _ F). unfold i64. lia. }
      fold (@app label). rewrite <- ?app_assoc. apply Forall2_app_intro.
      { destruct (a_access e); [| |constructor]; (constructor; [|constructor]); now apply str_label_ok. }
      cbn [app]. constructor.
      { rewrite Z.mod_small by exact (af_token _ F).
        apply num_label_ok; try assumption. pose proof (af_token _ F). unfold i64. lia. }
      constructor.
      { apply str_label_ok; try assumption. destruct (a_type e); assumption. }
      constructor; [|constructor]. now apply str_label_ok.
  - repeat intern_in H.
    destruct (a_guarded e); try discriminate H; [now left|now right].
Qed.
