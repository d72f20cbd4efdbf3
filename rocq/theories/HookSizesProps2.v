(** Property C68, continued: what one call announces. *)
From Verif Require Import Base SizeMap SizeMapProofs SizeMapProofs2 Tables SizeMapProps FrontApi FrontApiProofs FrontApiProps FrontApiProps2 FrontApiProps3 HookSizes HookSizesProps.

(** A successful allocation announces the size asked for (a size-returning one the
    size it returns) and the usable size of the new object; a failed one nothing. *)
Theorem hook_sizes_alloc : forall c active full t m p ret w l size o r n w' l', configured c active full t m ->
  policy_ok c p -> u64 size -> outcome_ok w c size o -> h_alloc c m p ret w l size o = Some (r, n, w', l') ->
  (r = 0 /\ l' = l /\ heap w' = heap w) \/
  (r <> 0 /\ exists b, heap w' r = Some b /\ n = get_size m b /\ l' = INew r (if ret then n else size) (get_size m b) :: l).
Proof.
  intros c active full t m p ret w l size o r n w' l' Hcf Hp Hs Ho E. pose proof (h_alloc_world _ _ _ _ _ _ _ _ _ _ _ _ E) as W.
  unfold h_alloc in E. rewrite W in E. cbn [obind] in E. injection E as <-.
  destruct (w_alloc_cases c active full t m p ret w size o r n w' Hcf Hp Hs Ho W) as [(-> & H)|(N & _ & b & H & G & _)]; [left; auto|].
  right. split; [exact N|]. exists b. rewrite H, upd_same, <- G. replace (r =? 0) with false by lia. auto.
Qed.
Print Assumptions hook_sizes_alloc.

(** A free announces the size the caller passed, if any, and the usable size. *)
Theorem hook_sizes_free : forall m w l ptr sz w' l', h_free m w l ptr sz = Some (w', l') ->
  (ptr = 0 /\ l' = l /\ w' = w) \/
  (ptr <> 0 /\ exists b, heap w ptr = Some b /\ heap w' ptr = None /\ l' = IDel ptr sz (get_size m b) :: l).
Proof.
  intros m w l ptr sz w' l' E. pose proof (h_free_world _ _ _ _ _ _ _ E) as W. unfold h_free in E. destruct (ptr =? 0) eqn:Z0.
  - left. injection E as <- <-. repeat split. lia.
  - right. split; [lia|]. destruct (heap w ptr) as [b|] eqn:Hb; [|discriminate]. cbn [obind] in E. rewrite W in E. cbn [obind] in E.
    injection E as <-. apply w_free_cases in W; [|lia]. exists b. rewrite W, upd_same. auto.
Qed.
Print Assumptions hook_sizes_free.

(** A realloc of an object to a size other than 0, if it succeeds, announces one Delete
    with the usable size before and one New with the size asked for and the usable
    size after: New first when the object moves, Delete first when it stays. If it
    fails it announces nothing and the object stays. *)
Theorem hook_sizes_realloc : forall c active full t m numa w l ptr size ws o r w' l', configured c active full t m ->
  0 <= numa < numa_parts c -> u64 size -> outcome_ok w c size o -> ptr <> 0 -> size <> 0 ->
  h_realloc c m numa w l ptr size ws o = Some (r, w', l') ->
  exists b, heap w ptr = Some b /\
    ((r = 0 /\ l' = l /\ heap w' ptr = Some b) \/
     (r <> 0 /\ exists b', heap w' r = Some b' /\
       ((r <> ptr /\ heap w' ptr = None /\ l' = IDel ptr None (get_size m b) :: INew r size (get_size m b') :: l) \/
        (r = ptr /\ b' = b /\ l' = INew r size (get_size m b') :: IDel ptr None (get_size m b) :: l)))).
Proof.
  intros c active full t m numa w l ptr size ws o r w' l' Hcf Hn Hs Ho P0 S0 E. pose proof Hcf as (Hc & _).
  pose proof (malloc_policy_ok c numa Hc Hn) as Hmp. unfold h_realloc in E.
  replace (ptr =? 0) with false in E by lia. replace (size =? 0) with false in E by lia.
  unfold h_do_realloc in E. destruct (heap w ptr) as [b|] eqn:Hb; [|discriminate]. exists b. split; [reflexivity|]. cbn [obind] in E.
  destruct (get_size_and_sampled m b) as (old & was) eqn:Gs.
  assert (G : get_size m b = old) by (unfold get_size; rewrite Gs; reflexivity).
  match type of E with obind ?x _ = _ => destruct x as [actual|]; [|discriminate] end. cbn [obind] in E.
  match type of E with (if ?x then _ else _) = _ => destruct x end.
  - match type of E with obind ?x _ = _ => destruct x as [(((a & n) & w1) & l1)|] eqn:H; [|discriminate] end.
    assert (Hq := in_partition_with_token_ok c (malloc_policy c numa) (partition_from_pointer c ptr) Hc Hmp).
    pose proof (h_alloc_world _ _ _ _ _ _ _ _ _ _ _ _ H) as W.
    destruct (hook_sizes_alloc c active full t m _ false w l size o a n w1 l1 Hcf Hq Hs Ho H) as [(-> & -> & H1)|(N & b1 & H1 & G1 & ->)];
      cbn [obind] in E.
    + injection E as <- <- <-. left. now rewrite H1.
    + destruct (w_alloc_cases c active full t m _ false w size o a n w1 Hcf Hq Hs Ho W) as [(? & _)|(_ & Fr & b2 & H2 & _)]; [contradiction|].
      assert (D : a <> ptr) by (intros ->; congruence).
      replace (a =? 0) with false in E by lia. cbv zeta in E.
      match type of E with obind (h_free m ?x _ _ _) _ = _ => set (w2 := x) in E end.
      destruct (h_free m w2 _ ptr None) as [(w3 & l3)|] eqn:F; [|discriminate]. cbn [obind] in E. injection E as <- <- <-.
      pose proof (h_free_world _ _ _ _ _ _ _ F) as W3. apply w_free_cases in W3; [|exact P0].
      assert (Hp2 : heap w2 ptr = Some b).
      { unfold w2, write_data. rewrite H1. cbn [heap]. rewrite upd_other by congruence. rewrite H2, upd_other by congruence. exact Hb. }
      destruct (hook_sizes_free m w2 _ ptr None w3 l3 F) as [(? & _)|(_ & b3 & E3 & _ & ->)]; [contradiction|].
      rewrite Hp2 in E3. injection E3 as <-. right. split; [exact N|].
      assert (Hq2 : heap w3 a = Some (set_data b1 (mem_copy (b_data b1) (b_data b) (if old <? size then old else size)))).
      { rewrite W3, upd_other by congruence. unfold w2, write_data. rewrite H1. cbn [heap]. now rewrite upd_same. }
      eexists. split; [exact Hq2|]. left. split; [exact D|]. split; [rewrite W3; apply upd_same|].
      unfold get_size. rewrite get_size_set_data. reflexivity.
  - injection E as <- <- <-. right. split; [exact P0|]. exists b. split; [exact Hb|]. right. rewrite G. auto.
Qed.
Print Assumptions hook_sizes_realloc.
