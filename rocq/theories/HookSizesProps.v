(** Property C68: the sizes hooks are passed. *)
From Verif Require Import Base SizeMap SizeMapProofs SizeMapProofs2 Tables SizeMapProps FrontApi FrontApiProofs FrontApiProps FrontApiProps2 FrontApiProps3 HookSizes.

(** ** Specification *)

(** Histories of calls with hooks installed throughout; [l] is what the hooks were
    passed, newest first. *)
Inductive hreach (c : cfg) (m : sizemap) : world -> list hinfo -> Prop :=
| hr_init e : hreach c m (World (fun _ => None) e []) []
| hr_alloc w l p ret size o r n w' l' : hreach c m w l ->
    policy_ok c p -> u64 size -> outcome_ok w c size o -> placed c m p size o ->
    h_alloc c m p ret w l size o = Some (r, n, w', l') -> hreach c m w' l'
| hr_free w l ptr sz w' l' : hreach c m w l -> h_free m w l ptr sz = Some (w', l') -> hreach c m w' l'
| hr_realloc w l numa ptr size ws o r w' l' : hreach c m w l ->
    0 <= numa < numa_parts c -> u64 size -> outcome_ok w c size o ->
    h_realloc c m numa w l ptr size ws o = Some (r, w', l') -> hreach c m w' l'
| hr_write w l a f : hreach c m w l -> hreach c m (write_data w a f) l.

(** What a hook that keeps books knows: the allocated size of each object, and the
    total. *)
Fixpoint announced (l : list hinfo) (q : Z) : option Z :=
  match l with
  | [] => None
  | INew p _ n :: l => if p =? q then Some n else announced l q
  | IDel p _ _ :: l => if p =? q then None else announced l q
  end.
Fixpoint outstanding (l : list hinfo) : Z :=
  match l with
  | [] => 0
  | INew _ _ n :: l => n + outstanding l
  | IDel _ _ n :: l => outstanding l - n
  end.

(** ** The hooks change nothing else *)
Lemma h_alloc_world c m p ret w l size o r n w' l' : h_alloc c m p ret w l size o = Some (r, n, w', l') ->
  w_alloc c m p ret w size o = Some (r, n, w').
Proof.
  unfold h_alloc. destruct (w_alloc c m p ret w size o) as [((a & k) & w1)|]; cbn [obind]; [|discriminate]. intros E. congruence.
Qed.
Lemma h_free_world m w l ptr sz w' l' : h_free m w l ptr sz = Some (w', l') -> w_free w ptr = Some w'.
Proof.
  unfold h_free. destruct (ptr =? 0) eqn:Z0; intros E.
  - unfold w_free. rewrite Z0. congruence.
  - destruct (heap w ptr); [|discriminate]. cbn [obind] in E. destruct (w_free w ptr); [|discriminate]. cbn [obind] in E. congruence.
Qed.
Lemma h_realloc_world c m numa w l ptr size ws o r w' l' : h_realloc c m numa w l ptr size ws o = Some (r, w', l') ->
  api_realloc c m numa w ptr size ws o = Some (r, w').
Proof.
  unfold h_realloc, api_realloc. destruct (ptr =? 0).
  { intros E. destruct (h_alloc c m (malloc_policy c numa) false w l size o) as [(((a & n) & w1) & l1)|] eqn:H; [|discriminate].
    apply h_alloc_world in H. cbn [obind] in E. unfold api_malloc. rewrite H. cbn [obind]. congruence. }
  destruct (size =? 0).
  { intros E. destruct (h_free m w l ptr None) as [(w1 & l1)|] eqn:H; [|discriminate]. apply h_free_world in H. cbn [obind] in E.
    rewrite H. cbn [obind]. congruence. }
  unfold h_do_realloc, do_realloc. destruct (heap w ptr) as [b|]; [|discriminate]. cbn [obind].
  destruct (get_size_and_sampled m b) as (old & was).
  match goal with |- obind ?x _ = _ -> _ => destruct x as [actual|]; [|discriminate] end. cbn [obind].
  match goal with |- context [if ?x then _ else _] => destruct x end; [|congruence]. intros E.
  match type of E with obind ?x _ = _ => destruct x as [(((a & n) & w1) & l1)|] eqn:H; [|discriminate] end.
  apply h_alloc_world in H. rewrite H. cbn [obind] in *. destruct (a =? 0); [congruence|]. cbv zeta in *.
  match type of E with obind ?x _ = _ => destruct x as [(w2 & l2)|] eqn:F; [|discriminate] end. apply h_free_world in F.
  rewrite F. cbn [obind] in *. congruence.
Qed.

Theorem hook_sizes_same_calls : forall c m w l, hreach c m w l -> exists R, reach_w c m w R.
Proof.
  intros c m w l H. induction H as [e|w l p ret size o r n w' l' H (R & IH) Hp Hs Ho Hpl E|w l ptr sz w' l' H (R & IH) E
    |w l numa ptr size ws o r w' l' H (R & IH) Hn Hs Ho E|w l a f H (R & IH)].
  - eexists. constructor.
  - apply h_alloc_world in E. eexists. eapply rw_alloc; eauto.
  - apply h_free_world in E. eexists. eapply rw_free; eauto.
  - apply h_realloc_world in E. eexists. eapply rw_realloc; eauto.
  - eexists. eapply rw_write; eauto.
Qed.
Print Assumptions hook_sizes_same_calls.

(** ** Invariant *)
Definition entry_ok (l : list hinfo) : Prop :=
  match l with
  | [] => True
  | INew p req n :: l => p <> 0 /\ announced l p = None /\ 0 <= req <= n
  | IDel p _ n :: l => p <> 0 /\ announced l p = Some n
  end.
Fixpoint log_ok (l : list hinfo) : Prop := entry_ok l /\ match l with [] => True | _ :: l => log_ok l end.
Definition books (m : sizemap) (w : world) (l : list hinfo) : Prop :=
  log_ok l /\ forall q, announced l q = option_map (get_size m) (heap w q).

Lemma w_alloc_cases c active full t m p ret w size o r n w' : configured c active full t m -> policy_ok c p -> u64 size ->
  outcome_ok w c size o -> w_alloc c m p ret w size o = Some (r, n, w') ->
  (r = 0 /\ heap w' = heap w) \/
  (r <> 0 /\ heap w r = None /\ exists b, heap w' = upd (heap w) r (Some b) /\ n = get_size m b /\ size <= n).
Proof.
  intros Hcf Hp Hs Ho E. unfold w_alloc in E. destruct (fast_alloc c m p ret size o) as [| |a b k] eqn:F; [discriminate| |].
  - left. injection E as <- _ <-. auto.
  - right. injection E as <- <- <-.
    assert (O : a <> 0 /\ heap w a = None /\ size + page_size c <= two64).
    { unfold fast_alloc in F. destruct (get_size_class c m p size); [| |discriminate]; destruct o; try discriminate; inversion F; subst; exact Ho. }
    destruct O as (O1 & O2 & O3). split; [exact O1|]. split; [exact O2|]. exists b. split; [reflexivity|].
    unfold u64 in Hs. destruct (alloc_usable c active full t m p ret size o a b k Hcf Hp ltac:(lia) O3 F) as (x & U & G).
    assert (size <= x) by (destruct U as [(_ & _ & (_ & U & _))|(_ & U & _)]; exact U).
    destruct (is_guarded b); destruct G as (-> & ->); split; lia || reflexivity.
Qed.

Lemma w_free_cases w ptr w' : ptr <> 0 -> w_free w ptr = Some w' -> heap w' = upd (heap w) ptr None.
Proof.
  intros N E. unfold w_free in E. replace (ptr =? 0) with false in E by lia. destruct (heap w ptr); [|discriminate]. injection E as <-. reflexivity.
Qed.

Lemma write_books m w l a f : books m w l -> books m (write_data w a f) l.
Proof.
  intros (L & A). split; [exact L|]. intros q. rewrite A. unfold write_data. destruct (heap w a) as [b|] eqn:E; [|reflexivity]. cbn [heap].
  destruct (Z.eq_dec q a) as [->|D]; [rewrite upd_same, E; reflexivity|now rewrite upd_other by congruence].
Qed.

Lemma alloc_books c active full t m p ret w l size o r n w' l' : configured c active full t m -> policy_ok c p -> u64 size ->
  outcome_ok w c size o -> books m w l -> h_alloc c m p ret w l size o = Some (r, n, w', l') -> books m w' l'.
Proof.
  intros Hcf Hp Hs Ho (L & A) E. pose proof (h_alloc_world _ _ _ _ _ _ _ _ _ _ _ _ E) as W.
  unfold h_alloc in E. rewrite W in E. cbn [obind] in E. injection E as <-. unfold u64 in *.
  destruct (w_alloc_cases c active full t m p ret w size o r n w' Hcf Hp Hs Ho W) as [(-> & H)|(N & Fr & b & H & -> & S)].
  - cbn. split; [exact L|]. now rewrite H.
  - replace (r =? 0) with false by lia. split.
    + cbn. split; [|exact L]. split; [exact N|]. split; [now rewrite A, Fr|]. destruct ret; lia.
    + intros q. cbn. rewrite H. destruct (r =? q) eqn:D.
      * replace q with r by lia. now rewrite upd_same.
      * rewrite upd_other by lia. apply A.
Qed.

Lemma free_books m w l ptr sz w' l' : books m w l -> h_free m w l ptr sz = Some (w', l') -> books m w' l'.
Proof.
  intros (L & A) E. pose proof (h_free_world _ _ _ _ _ _ _ E) as W. unfold h_free in E. destruct (ptr =? 0) eqn:Z0.
  - injection E as <- <-. split; assumption.
  - destruct (heap w ptr) as [b|] eqn:Hb; [|discriminate]. cbn [obind] in E. rewrite W in E. cbn [obind] in E. injection E as <-.
    apply w_free_cases in W; [|lia]. split.
    + cbn. split; [|exact L]. split; [lia|]. now rewrite A, Hb.
    + intros q. cbn. rewrite W. destruct (ptr =? q) eqn:D.
      * replace q with ptr by lia. now rewrite upd_same.
      * rewrite upd_other by lia. apply A.
Qed.

Lemma realloc_books c active full t m numa w R l ptr size ws o r w' l' : configured c active full t m -> reach_w c m w R ->
  0 <= numa < numa_parts c -> u64 size -> outcome_ok w c size o -> books m w l ->
  h_realloc c m numa w l ptr size ws o = Some (r, w', l') -> books m w' l'.
Proof.
  intros Hcf Rw Hn Hs Ho B E. pose proof Hcf as (Hc & _). pose proof (malloc_policy_ok c numa Hc Hn) as Hmp.
  unfold h_realloc in E. destruct (ptr =? 0) eqn:Z0.
  { destruct (h_alloc c m (malloc_policy c numa) false w l size o) as [(((a & n) & w1) & l1)|] eqn:H; [|discriminate]. cbn [obind] in E.
    injection E as <- <- <-. eapply alloc_books; eauto. }
  destruct (size =? 0) eqn:S0.
  { destruct (h_free m w l ptr None) as [(w1 & l1)|] eqn:H; [|discriminate]. cbn [obind] in E. injection E as <- <- <-. eapply free_books; eauto. }
  unfold h_do_realloc in E. destruct (heap w ptr) as [b|] eqn:Hb; [|discriminate]. cbn [obind] in E.
  destruct (get_size_and_sampled m b) as (old & was) eqn:Gs.
  match type of E with obind ?x _ = _ => destruct x as [actual|] eqn:Ac; [|discriminate] end. cbn [obind] in E.
  match type of E with (if ?x then _ else _) = _ => destruct x eqn:D end.
  - match type of E with obind ?x _ = _ => destruct x as [(((a & n) & w1) & l1)|] eqn:H; [|discriminate] end.
    eapply alloc_books in H; [|exact Hcf|apply in_partition_with_token_ok; assumption|exact Hs|exact Ho|exact B].
    cbn [obind] in E. destruct (a =? 0); [injection E as <- <- <-; exact H|]. cbv zeta in E.
    match type of E with obind ?x _ = _ => destruct x as [(w2 & l2)|] eqn:F; [|discriminate] end.
    cbn [obind] in E. injection E as <- <- <-. eapply free_books; [|exact F]. apply write_books. exact H.
  - injection E as <- <- <-. destruct B as (L & A).
    assert (G : get_size m b = old) by (unfold get_size; rewrite Gs; reflexivity).
    assert (size <= old).
    { assert (was = false /\ actual = old) as (-> & ->).
      { apply orb_false_iff in D. destruct D as (D & _). apply orb_false_iff in D. destruct D as (D & _). apply orb_false_iff in D.
        destruct D as (D & ->). apply negb_false_iff in D. split; [reflexivity|lia]. }
      destruct (reach_w_blocks c active full t m w R Hcf Rw ptr b Hb) as (_ & _ & P). rewrite Gs in P. specialize (P eq_refl). rewrite G in P.
      assert (Hq : policy_ok c (in_partition c (malloc_policy c numa) (partition_from_pointer c ptr))).
      { apply in_partition_ok; [assumption|assumption|]. unfold partition_from_pointer.
        repeat match goal with |- context [if ?x then _ else _] => destruct x end; lia. }
      unfold u64 in *. destruct (lookup_cases c active full t m _ size Hcf Hq ltac:(lia)) as [(_ & _ & cl & E1 & _ & (_ & B2 & _))|(_ & E1)];
        rewrite E1 in Ac; injection Ac as <-; [exact B2|]. destruct (ceil_bytes_any c size Hc Hs) as [K|K]; lia. }
    split.
    + cbn. rewrite Z.eqb_refl. unfold u64 in Hs. repeat split; try lia; try exact L. now rewrite A, Hb, <- G.
    + intros q. cbn. destruct (ptr =? q) eqn:Q; [|apply A]. replace q with ptr by lia. now rewrite Hb, <- G.
Qed.

Lemma hreach_books c active full t m w l : configured c active full t m -> hreach c m w l -> books m w l.
Proof.
  intros Hcf H. induction H as [e|w l p ret size o r n w' l' H IH Hp Hs Ho Hpl E|w l ptr sz w' l' H IH E
    |w l numa ptr size ws o r w' l' H IH Hn Hs Ho E|w l a f H IH].
  - split; [cbn; auto|reflexivity].
  - eapply alloc_books; eauto.
  - eapply free_books; eauto.
  - destruct (hook_sizes_same_calls _ _ _ _ H) as (R & Rw). eapply realloc_books; eauto.
  - apply write_books. exact IH.
Qed.

(** ** Theorems *)

(** After any history the books of a hook agree with the allocator: for each address, the
    allocated size last announced, if not announced as freed since, is the usable size
    of the object there; every other address is free. *)
Theorem hook_sizes_exact : forall c active full t m w l, configured c active full t m -> hreach c m w l ->
  forall q, announced l q = option_map (get_size m) (heap w q).
Proof. intros c active full t m w l Hcf H. apply (hreach_books c active full t m w l Hcf H). Qed.
Print Assumptions hook_sizes_exact.

(** Each Delete announcement passes the allocated size that the New announcement of
    the object passed; each New announcement is of an address not in use, with a
    requested size no larger than the allocated one. *)
Theorem hook_sizes_paired : forall c active full t m w l, configured c active full t m -> hreach c m w l ->
  (forall l1 p sz n l2, l = l1 ++ IDel p sz n :: l2 -> announced l2 p = Some n) /\
  (forall l1 p req n l2, l = l1 ++ INew p req n :: l2 -> p <> 0 /\ announced l2 p = None /\ 0 <= req <= n).
Proof.
  intros c active full t m w l Hcf H. destruct (hreach_books c active full t m w l Hcf H) as (L & _). clear - L.
  assert (K : forall l1 l2, log_ok (l1 ++ l2) -> log_ok l2).
  { induction l1 as [|e l1 IH]; intros l2 K; [exact K|]. cbn in K. apply IH, K. }
  split; intros; subst; apply K in L; cbn in L; tauto.
Qed.
Print Assumptions hook_sizes_paired.

Fixpoint del (q : Z) (l : list Z) : list Z := match l with [] => [] | x :: l => if x =? q then del q l else x :: del q l end.
Lemma del_in q l x : In x (del q l) <-> In x l /\ x <> q.
Proof.
  induction l as [|y l IH]; cbn; [tauto|]. destruct (y =? q) eqn:E; cbn; rewrite IH; [assert (y = q) by lia; subst|assert (y <> q) by lia].
  - split; [tauto|]. intros ([->|I] & N); tauto.
  - split; [intros [->|I]; tauto|tauto].
Qed.
Lemma del_nodup q l : NoDup l -> NoDup (del q l).
Proof.
  induction l as [|y l IH]; intros N; [constructor|]. inversion N; subst. cbn. destruct (y =? q); [auto|]. constructor; [|auto].
  rewrite del_in. tauto.
Qed.
Lemma del_sum f q l : NoDup l -> In q l -> zsum (map f (del q l)) = zsum (map f l) - f q.
Proof.
  induction l as [|y l IH]; intros N I; [contradiction|]. inversion N as [|? ? N1 N2]; subst. cbn [del map zsum]. destruct (y =? q) eqn:E.
  - assert (y = q) by lia. subst. assert (del q l = l) as ->; [|lia]. clear - N1. induction l as [|x l IH]; [reflexivity|].
    cbn. destruct (x =? q) eqn:E; [exfalso; apply N1; left; lia|]. f_equal. apply IH. intros K. apply N1. now right.
  - cbn [map zsum]. rewrite IH; [lia|assumption|]. destruct I; [lia|assumption].
Qed.

Lemma sum_same (f g : Z -> Z) l : (forall x, In x l -> f x = g x) -> zsum (map f l) = zsum (map g l).
Proof. intros H. f_equal. apply map_ext_in. exact H. Qed.

(** The total a hook keeps is the total of the usable sizes of the objects in use, each
    counted once; so it is zero when nothing is in use. *)
Theorem hook_sizes_total : forall c active full t m w l, configured c active full t m -> hreach c m w l ->
  exists live, NoDup live /\ (forall q, In q live <-> heap w q <> None) /\
    outstanding l = zsum (map (fun q => match heap w q with Some b => get_size m b | None => 0 end) live).
Proof.
  intros c active full t m w l Hcf H. destruct (hreach_books c active full t m w l Hcf H) as (L & A). clear H Hcf.
  assert (K : exists live, NoDup live /\ (forall q, In q live <-> announced l q <> None) /\
    outstanding l = zsum (map (fun q => match announced l q with Some n => n | None => 0 end) live)).
  { clear A. induction l as [|e l IH]; [exists []; cbn; repeat split; [constructor|tauto|tauto]|]. destruct L as (En & L).
    destruct (IH L) as (live & N & I & S). destruct e as [p req n|p sz n]; cbn in En.
    - destruct En as (_ & Fr & _). exists (p :: live). assert (P : ~ In p live) by (rewrite I, Fr; tauto).
      split; [now constructor|]. split.
      + intros q. cbn. destruct (p =? q) eqn:D; [split; [discriminate|left; lia]|]. rewrite <- I. split; [intros [->|?]; [lia|assumption]|tauto].
      + cbn [outstanding map zsum announced]. rewrite Z.eqb_refl, S. f_equal. apply sum_same. intros x Hx.
        destruct (p =? x) eqn:D; [exfalso; apply P; now replace p with x by lia|reflexivity].
    - destruct En as (_ & Us). exists (del p live). assert (P : In p live) by (rewrite I, Us; discriminate).
      split; [now apply del_nodup|]. split.
      + intros q. rewrite del_in, I. cbn. destruct (p =? q) eqn:D; [split; [intros (_ & ?); lia|tauto]|]. split; [tauto|]. intros. split; [assumption|lia].
      + cbn [outstanding]. rewrite (sum_same _ (fun q => match announced l q with Some n => n | None => 0 end)).
        * rewrite del_sum by assumption. rewrite Us. lia.
        * intros x Hx. apply del_in in Hx. cbn. replace (p =? x) with false by lia. reflexivity. }
  destruct K as (live & N & I & S). exists live. split; [exact N|]. split.
  - intros q. rewrite I, A. destruct (heap w q); cbn; split; intros; congruence.
  - rewrite S. apply sum_same. intros x _. rewrite A. destruct (heap w x); reflexivity.
Qed.
Print Assumptions hook_sizes_total.

(** A case: malloc, realloc in place and a sized delete, each announced. *)
Example hook_sizes_case : exists t m w w3 l,
  configured (cfg13 1 1) false false t m /\ hreach (cfg13 1 1) m w l /\
  l = [INew (2 ^ 44) 303000 303104; IDel (2 ^ 44) None 303104; INew (2 ^ 44) 300000 303104] /\
  heap w (2 ^ 44) <> None /\ outstanding l = 303104 /\
  hreach (cfg13 1 1) m w3 (IDel (2 ^ 44) (Some 303000) 303104 :: l).
Proof.
  set (c := cfg13 1 1).
  assert (Hc : cfg_ok c) by (exists 1, 1; split; [lia|auto]).
  assert (Hin : In t_def_8_13 (tables (page_shift c))) by (cbn; tauto).
  destruct (shipped_tables_accepted c _ Hc Hin) as (Hv & Hf).
  destruct (accepted_table_initialises c false false _ Hc Hf Hv) as (m & Em).
  assert (Hcf : configured c false false t_def_8_13 m) by (repeat split; assumption). clear Hin Hv Hf Em.
  assert (Hp : policy_ok c (malloc_policy c 0)) by (apply malloc_policy_ok; [assumption|cbn; lia]).
  assert (L : forall s, 300000 <= s <= 303104 -> get_size_class c m (malloc_policy c 0) s = NotSmall).
  { intros s Hs. destruct (lookup_cases c false false _ m _ s Hcf Hp ltac:(lia)) as [(_ & H & _)|(_ & E)]; [|exact E].
    exfalso. change (max_size c) with 262144 in H. lia. }
  set (w0 := World (fun _ => None) 0 []).
  set (b := Block 0 (length_in_bytes c (Z.max (bytes_to_length_ceil c 300000) 1)) None (fun _ => 0)).
  set (w1 := World (upd (heap w0) (2 ^ 44) (Some b)) 0 [EvAlloc 300000 (align (malloc_policy c 0))]).
  assert (R1 : hreach c m w1 [INew (2 ^ 44) 300000 303104]).
  { apply (hr_alloc c m w0 [] (malloc_policy c 0) false 300000 (Plain (2 ^ 44) (fun _ => 0)) (2 ^ 44) 303104);
      [constructor|exact Hp|split; reflexivity || (cbv; discriminate)|cbn; split; [discriminate|split; [reflexivity|cbv; discriminate]]| |].
    - unfold placed. rewrite (L 300000 ltac:(lia)). exists (2 ^ 31). reflexivity.
    - unfold h_alloc, w_alloc, fast_alloc. rewrite (L 300000 ltac:(lia)). reflexivity. }
  assert (R2 : hreach c m w1 [INew (2 ^ 44) 303000 303104; IDel (2 ^ 44) None 303104; INew (2 ^ 44) 300000 303104]).
  { apply (hr_realloc c m w1 [INew (2 ^ 44) 300000 303104] 0 (2 ^ 44) 303000 false OutOfMemory (2 ^ 44));
      [exact R1|cbn; lia|split; reflexivity || (cbv; discriminate)|exact I|].
    unfold h_realloc, h_do_realloc. change (2 ^ 44 =? 0) with false. change (303000 =? 0) with false. cbv iota.
    change (heap w1 (2 ^ 44)) with (Some b). cbn [obind].
    change (in_partition c (malloc_policy c 0) (partition_from_pointer c (2 ^ 44))) with (malloc_policy c 0).
    rewrite (L 303000 ltac:(lia)). reflexivity. }
  eexists t_def_8_13, m, w1, _, _. split; [exact Hcf|]. split; [exact R2|]. split; [reflexivity|]. split; [discriminate|]. split; [reflexivity|].
  eapply (hr_free c m w1 _ (2 ^ 44) (Some 303000)); [exact R2|reflexivity].
Qed.
