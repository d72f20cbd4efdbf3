(** Every call on the caches of a size class ends (C44): a malloc or free after a fixed number of its own steps, whatever the
    other threads do. *)
From Verif Require Import Base TransferCache TransferCacheProps CpuCache Flow FlowProofs.
From Coq Require Import Permutation.

(** ** What is left to do in a call *)
Definition rank (fr : list (tier * tact)) : Z := zsum (map (fun x => match snd x with TPlunder => 1 | _ => 0 end) fr).
Definition ins_w (T : tier) : Z := match T with TShard _ => 10 | TMain => 6 | TCfl => 2 end.
Definition rem_w (T : tier) : Z := match T with TShard _ => 8 | TMain => 5 | TCfl => 2 end.
Definition frame_w (x : tier * tact) : Z :=
  let T := fst x in
  match snd x with
  | TInsert _ => ins_w T | TInsertLock _ => ins_w T - 1 | TInsertMiss _ => ins_w T - 2
  | TRemove _ => rem_w T | TRemoveLock _ => rem_w T - 1 | TRemoveMiss _ => rem_w T - 2
  | TPlunder => 0 | TPlunderFlush _ r => 9 + 10 * r | TPlunderLoop r => 2 + 10 * r
  | TGrow => 2 | TShrink => 9 | TShrinkFlush _ => 8 | TDone _ _ => 1
  end.
Definition kont_w (k : kont) : Z :=
  match k with
  | KFetch target total _ => 40 * (target - total) - 20
  | KOver target total _ => 40 * (target - total) + 5
  | KDrain _ rest => 20 * zlen rest + 5
  | _ => 1
  end.
Definition big : Z := 40 * max_target.
Definition work (q : pc) : Z :=
  match q with
  | Idle => 0
  | AFast | DFast _ => big + 4 | ASlow | DSlow _ => big + 3 | AFast2 _ | DFast2 _ _ => big + 2 | AUpd _ | DUpd _ _ => big + 1
  | ALoop target total _ | DLoop target total _ => 40 * (target - total)
  | APush target total _ _ _ => 40 * (target - total) + 15
  | RDrain _ rest => 20 * zlen rest + 1
  | InCall fr k => zsum (map frame_w fr) + kont_w k
  end.
Definition plunders (q : pc) : Z := match q with InCall fr _ => rank fr | _ => 0 end.

Lemma frame_w_pos p x : ins_ok p x -> 0 <= frame_w x.
Proof. destruct x as (T & a). intros (_ & H). unfold frame_w, ins_w, rem_w. cbn [fst snd] in *. destruct T, a; try contradiction; lia. Qed.
Lemma frames_w_pos p fr : Forall (quiet p) fr -> 0 <= zsum (map frame_w fr).
Proof. induction 1 as [|x fr (H & _) _ IH]; [cbn; lia|]. cbn [map zsum]. pose proof (frame_w_pos p x H). lia. Qed.
Lemma work_pos p o q : pc_ok p o q -> 0 <= work q.
Proof.
  destruct q as [| | |cpu|cpu|target total r|target total r got b|x|x|cpu x|cpu x|target total b|cpu rest|fr k]; cbn [work]; unfold big, max_target; intros Q; try lia; cbn [pc_ok] in Q; try lia.
  - unfold zlen. lia.
  - assert (F : 0 <= zsum (map frame_w fr)).
    { destruct (waits k) eqn:Ew.
      - destruct (rem_of _ _ _ _ Q Ew) as (Rf & _). destruct fr as [|(T & a) [|? ?]]; try contradiction. destruct Rf as (_ & Rf). cbn [snd] in Rf. cbn [map zsum]. unfold frame_w, rem_w. cbn [fst snd]. destruct T, a; try contradiction; lia.
      - pose proof (ins_of _ _ _ _ Q Ew) as If. destruct fr as [|x fr]; [contradiction|]. destruct If as (I1 & I2). cbn [map zsum]. pose proof (frame_w_pos _ _ I1). pose proof (frames_w_pos _ _ I2). lia. }
    destruct k; cbn [kont_w pc_ok] in *; try lia. unfold zlen. lia.
Qed.
Lemma rank_pos fr : 0 <= rank fr.
Proof. unfold rank. induction fr as [|(T & a) fr IH]; cbn [map zsum]; [lia|]. cbn [snd]. destruct a; lia. Qed.

Definition less (q' q : pc) : Prop := q' = Idle \/ plunders q' < plunders q \/ (plunders q' = plunders q /\ work q' < work q).

Lemma rank_cons x fr : rank (x :: fr) = match snd x with TPlunder => 1 | _ => 0 end + rank fr.
Proof. reflexivity. Qed.

(** A call on a transfer cache. *)
Lemma tstep_less p s T a fr k lock x a' l oom : fpar_ok p -> pc_ok p oom (InCall ((T, a) :: fr) k) -> T <> TCfl -> (forall got ok, a <> TDone got ok) -> (forall n, a <> TRemoveMiss n) ->
  tstep (f_batch p) (get_tc s T) a lock [] = (x, a', l) ->
  match l with
  | LInsert b => less (InCall ((below T, TInsert b) :: (T, a') :: fr) k) (InCall ((T, a) :: fr) k)
  | _ => less (InCall ((T, a') :: fr) k) (InCall ((T, a) :: fr) k)
  end.
Proof.
  intros Hp Q HT Hd Hm E.
  assert (Hl : match l with LInsert b => frame_w (below T, TInsert b) + frame_w (T, a') | _ => frame_w (T, a') end < frame_w (T, a) /\ a' <> TPlunder /\ a <> TPlunder \/
               a = TPlunder /\ a' <> TPlunder).
  { destruct a; cbn [tstep] in E; try (exfalso; eapply Hd; reflexivity); try (exfalso; eapply Hm; reflexivity).
    - left. injection E as <- <- <-. unfold frame_w. cbn [fst snd]. destruct (_ <? _); cbn [snd]; (split; [lia|split; discriminate]).
    - left. destruct (insert_locked _ _) as (t1 & rest). injection E as <- <- <-. unfold frame_w, tdone, ins_w. destruct rest; cbn [fst snd]; (split; [destruct T; try congruence; lia|split; discriminate]).
    - left. injection E as <- <- <-. unfold frame_w, tdone, ins_w. cbn [fst snd]. split; [|split; discriminate]. destruct T; cbn [below]; try congruence; lia.
    - left. injection E as <- <- <-. unfold frame_w. cbn [fst snd]. destruct (_ =? _); cbn [snd]; (split; [lia|split; discriminate]).
    - left. destruct (remove_locked _ _) as (t1 & rest). injection E as <- <- <-. unfold frame_w, tdone, rem_w. destruct rest; cbn [fst snd]; (split; [destruct T; try congruence; lia|split; discriminate]).
    - right. split; [reflexivity|]. destruct (t_max _ =? 0); [injection E as <- <- <-; discriminate|]. destruct (negb lock); [injection E as <- <- <-; discriminate|].
      cbv zeta in E. destruct (plunder_round _ _ _) as ((t1 & buf) & r1). cbn [plunder_next] in E. injection E as <- <- <-. destruct buf; discriminate.
    - left. injection E as <- <- <-. unfold frame_w, ins_w. cbn [fst snd]. split; [|split; discriminate]. destruct T; cbn [below]; try congruence; lia.
    - left. assert (Hr : 0 <= to_return).
      { destruct (waits k) eqn:Ew; [destruct (rem_of _ _ _ _ Q Ew) as (Rf & _); destruct fr; [|contradiction]; destruct Rf as (_ & []) | destruct (ins_of _ _ _ _ Q Ew) as ((_ & If) & _); cbn [snd] in If; lia]. }
      destruct (negb lock); [injection E as <- <- <-; unfold frame_w; cbn [snd tdone]; split; [lia|split; discriminate]|].
      unfold plunder_round in E. destruct (Z.eqb_spec (Z.min (Z.min (f_batch p) (t_used (get_tc s T))) to_return) 0) as [G|G]; cbn [plunder_next] in E.
      + injection E as <- <- <-. unfold frame_w; cbn [snd tdone]; split; [lia|split; discriminate].
      + destruct (slots_read _ _ _) eqn:Es; injection E as <- <- <-; unfold frame_w; cbn [snd tdone]; (split; [|split; discriminate]); [lia|].
        assert (L : zlen (slots_read (t_slots (get_tc s T)) (t_used (get_tc s T) - Z.min (Z.min (f_batch p) (t_used (get_tc s T))) to_return) (Z.min (Z.min (f_batch p) (t_used (get_tc s T))) to_return)) >= 1) by (rewrite Es; unfold zlen; cbn [length]; lia).
        assert (0 < Z.min (Z.min (f_batch p) (t_used (get_tc s T))) to_return); [|lia].
        destruct (Z.lt_ge_cases 0 (Z.min (Z.min (f_batch p) (t_used (get_tc s T))) to_return)) as [|Hn]; [assumption|]. exfalso. unfold slots_read in L. revert L. generalize (Z.min (Z.min (f_batch p) (t_used (get_tc s T))) to_return) Hn. intros w Hw.
        replace (Z.to_nat w) with 0%nat by lia. unfold zlen. cbn [zseq map length]. lia.
    - left. destruct (grow_locked _ _) as (t1 & ok). injection E as <- <- <-. unfold frame_w. cbn [snd]. split; [lia|split; discriminate].
    - left. destruct (shrink_locked _ _) as ((t1 & buf) & ok). injection E as <- <- <-. unfold frame_w. destruct buf; cbn [snd]; (split; [lia|split; discriminate]).
    - left. injection E as <- <- <-. unfold frame_w, tdone, ins_w. cbn [fst snd]. split; [|split; discriminate]. destruct T; cbn [below]; try congruence; lia. }
  destruct Hl as [(Hl & H1 & H2)|(-> & H1)].
  - assert (R : forall y : tact, y <> TPlunder -> match y with TPlunder => 1 | _ => 0 end = 0) by (intros [] Hy; try reflexivity; congruence).
    destruct l; right; right; cbn [plunders work map zsum]; rewrite !rank_cons; cbn [snd]; rewrite (R a H2), (R a' H1); (split; [lia|]); lia.
  - assert (R : forall y : tact, y <> TPlunder -> match y with TPlunder => 1 | _ => 0 end = 0) by (intros [] Hy; try reflexivity; congruence).
    destruct l; right; left; cbn [plunders]; rewrite !rank_cons; cbn [snd]; rewrite (R a' H1); lia.
Qed.

Lemma set_tc_pc s T x : s_pc (set_tc s T x) = s_pc s.
Proof. destruct T; reflexivity. Qed.
Lemma pop_pc s t x s' : slab_pop s t = Some (x, s') -> s_pc s' = s_pc s.
Proof. unfold slab_pop. destruct (s_at s t); [|discriminate]. destruct (s_slab s z); [discriminate|]. intros H. injection H as _ <-. reflexivity. Qed.
Lemma push_pc s t x s' : slab_push s t x = Some s' -> s_pc s' = s_pc s.
Proof. unfold slab_push. destruct (s_at s t); [|discriminate]. destruct (_ <? _); [|discriminate]. intros H. injection H as <-. reflexivity. Qed.

(** In a step of its own a thread gets nearer to the end of its call. *)
Lemma step_less p s t c s' l : fpar_ok p -> finv p s -> s_pc s t <> Idle -> choice_ok p s t c -> thread_step p s t c = Some (s', l) -> less (s_pc s' t) (s_pc s t).
Proof.
  intros Hp Iv Hi Hc E. pose proof (i_w _ _ Iv) as W. pose proof (i_pc _ _ Iv t) as Q. pose proof Hc as (Hcpu & Hsucc & Hcc). unfold thread_step in E.
  assert (Gm : forall s1 r, ret_malloc s1 t r = Some (s', l) -> less (s_pc s' t) (s_pc s t)).
  { unfold ret_malloc. intros s1 r X. injection X as <- _. left. cbn [s_pc set_live set_pc]. apply upd_same. }
  assert (Gf : forall s1, ret_free s1 t = Some (s', l) -> less (s_pc s' t) (s_pc s t)).
  { unfold ret_free. intros s1 X. injection X as <- _. left. cbn [s_pc set_pc]. apply upd_same. }
  assert (Gb : forall s1, ret_bg s1 t = Some (s', l) -> less (s_pc s' t) (s_pc s t)).
  { unfold ret_bg. intros s1 X. injection X as <- _. left. cbn [s_pc set_pc]. apply upd_same. }
  assert (Gg : forall s1 q, go s1 t q = Some (s', l) -> s_pc s' t = q).
  { unfold go. intros s1 q X. injection X as <- _. cbn [s_pc set_pc]. apply upd_same. }
  assert (Gi : forall s1 T b fr k, enter_insert s1 t T b fr k = Some (s', l) -> s_pc s' t = InCall ((T, TInsert b) :: fr) k /\ 0 < zlen b).
  { unfold enter_insert. intros s1 T b fr k X. destruct (_ && _) eqn:Eb; [|discriminate]. split; [eapply Gg; exact X|]. apply andb_prop in Eb. lia. }
  assert (Gr : forall s1 T n fr k, enter_remove s1 t T n fr k = Some (s', l) -> s_pc s' t = InCall ((T, TRemove n) :: fr) k).
  { unfold enter_remove. intros s1 T b fr k X. destruct (_ && _); [|discriminate]. eapply Gg; exact X. }
  assert (Gt : forall s1 target total r got i, refill_test s1 t target total r got i = Some (s', l) -> s_pc s' t = Idle \/ s_pc s' t = ALoop target total r).
  { unfold refill_test, ret_malloc. intros s1 target total r got i X. destruct (_ && _); [right; eapply Gg; exact X|left; injection X as <- _; cbn [s_pc set_live set_pc]; apply upd_same]. }
  destruct (s_pc s t) as [| | |cpu|cpu|target total r|target total r got b|x|x|cpu x|cpu x|target total b|cpu rest|fr k] eqn:Epc; cbn [pc_ok] in Q.
  - congruence.
  - destruct (slab_pop s t) as [(x & s1)|]; [eapply Gm; exact E|]. rewrite (Gg _ _ E). right. right. cbn [plunders work]. lia.
  - right. right. destruct (f_bypass p); [rewrite (Gr _ _ _ _ _ E); unfold shard_tier; cbn; unfold big, max_target; lia|].
    destruct (cache_cpu_slab s t c) as (s1 & r). destruct r; [rewrite (Gg _ _ E); cbn [plunders work]; lia| |rewrite (Gg _ _ E); cbn [plunders work]; lia].
    rewrite (Gr _ _ _ _ _ E). unfold backing, shard_tier. destruct (f_sharded p); cbn; unfold big, max_target; lia.
  - destruct (slab_pop s t) as [(x & s1)|]; [eapply Gm; exact E|]. rewrite (Gg _ _ E). right. right. cbn [plunders work]. lia.
  - right. right. unfold update_capacity in E. destruct (_ && _); [|discriminate]. cbn [obind fst snd] in E. rewrite (Gg _ _ E). cbn [plunders work].
    destruct (target_bounds (c_cap c) (f_batch p) (c_succ c)) as (T1 & T2); [pose proof (w_cap _ _ W cpu); unfold zlen in *; lia|apply Hp|exact Hsucc|]. unfold big. lia.
  - right. right. rewrite (Gr _ _ _ _ _ E). unfold backing, shard_tier. destruct (f_sharded p); cbn; lia.
  - destruct (slab_push_batch s t b) as (s1 & rest). destruct rest as [|y rest].
    + destruct (Gt _ _ _ _ _ _ E) as [->| ->]; [left; reflexivity|]. right. right. cbn [plunders work]. lia.
    + destruct (Gi _ _ _ _ _ E) as (-> & _). right. right. unfold backing, shard_tier. destruct (f_sharded p); cbn; lia.
  - destruct (slab_push s t x) as [s1|]; [eapply Gf; exact E|]. rewrite (Gg _ _ E). right. right. cbn [plunders work]. lia.
  - right. right. destruct (f_bypass p); [destruct (Gi _ _ _ _ _ E) as (-> & _); unfold shard_tier; cbn; unfold big, max_target; lia|].
    destruct (cache_cpu_slab s t c) as (s1 & r). destruct r; [rewrite (Gg _ _ E); cbn [plunders work]; lia| |rewrite (Gg _ _ E); cbn [plunders work]; lia].
    destruct (Gi _ _ _ _ _ E) as (-> & _). unfold backing, shard_tier. destruct (f_sharded p); cbn; unfold big, max_target; lia.
  - destruct (slab_push s t x) as [s1|]; [eapply Gf; exact E|]. rewrite (Gg _ _ E). right. right. cbn [plunders work]. lia.
  - right. right. unfold update_capacity in E. destruct (_ && _); [|discriminate]. cbn [obind fst snd] in E. rewrite (Gg _ _ E). cbn [plunders work].
    destruct (target_bounds (c_cap c) (f_batch p) (c_succ c)) as (T1 & T2); [pose proof (w_cap _ _ W cpu); unfold zlen in *; lia|apply Hp|exact Hsucc|]. unfold big. lia.
  - destruct (if zlen b <? _ then _ else _) as (s1 & more). destruct (b ++ more) as [|y m] eqn:Eb; [eapply Gf; exact E|]. destruct (Gi _ _ _ _ _ E) as (-> & Hb).
    right. right. unfold backing, shard_tier. set (z := zlen (y :: m)) in *. clearbody z. destruct (f_sharded p); cbn; lia.
  - destruct rest as [|y rest]; [eapply Gb; exact E|]. destruct (Gi _ _ _ _ _ E) as (-> & Hb). right. right.
    set (n := Z.to_nat (Z.min (f_batch p) (zlen (y :: rest)))) in *.
    assert (L : zlen (y :: rest) = zlen (firstn n (y :: rest)) + zlen (skipn n (y :: rest))) by (rewrite <- zlen_app, firstn_skipn; reflexivity).
    cbn [plunders work]. rewrite L. set (u := zlen (firstn n (y :: rest))) in *. cbn [map zsum kont_w]. set (v := zlen (skipn n (y :: rest))) in *. clearbody u v. unfold backing, shard_tier. destruct (f_sharded p); cbn; lia.
  - destruct fr as [|(T & a) fr]; [discriminate|]. unfold call_step in E.
    assert (Done : forall got ok, a = TDone got ok -> less (s_pc s' t) (InCall ((T, a) :: fr) k)).
    { intros got ok ->. destruct fr as [|y fr]; [|rewrite (Gg _ _ E); right; right; cbn [plunders work map zsum]; rewrite (rank_cons (T, TDone got ok)); change (frame_w (T, TDone got ok)) with 1; cbn [snd]; lia].
      destruct k as [|target total r|r| |target total count|cpu rest|cpu|]; cbn [resume] in E.
      - eapply Gm; exact E.
      - destruct (zlen got =? 0) eqn:Ez; [eapply Gm; exact E|]. assert (0 < zlen got) by (unfold zlen in *; lia).
        destruct Q as (Q1 & Q2 & Q3 & Q4). cbn in Q4. destruct Q4 as (_ & Q4 & _).
        destruct (match r with Some x => _ | None => _ end) as (r' & b'). destruct b' as [|y b'].
        + destruct (Gt _ _ _ _ _ _ E) as [->| ->]; [left; reflexivity|]. right. right. cbn [plunders work map zsum kont_w]. unfold rank, frame_w. cbn [map zsum snd]. lia.
        + rewrite (Gg _ _ E). right. right. cbn [plunders work map zsum kont_w]. unfold rank, frame_w. cbn [map zsum snd]. lia.
      - eapply Gm; exact E.
      - eapply Gf; exact E.
      - destruct (negb _); [eapply Gf; exact E|]. destruct (_ <? _); [|eapply Gf; exact E]. rewrite (Gg _ _ E). right. right. cbn [plunders work map zsum kont_w]. unfold rank, frame_w. cbn [map zsum snd]. lia.
      - rewrite (Gg _ _ E). right. right. cbn [plunders work map zsum kont_w]. unfold rank, frame_w. cbn [map zsum snd]. lia.
      - eapply Gb; exact E.
      - eapply Gb; exact E. }
    destruct T as [i| |].
    { assert (Rm : forall n, a = TRemoveMiss n -> less (s_pc s' t) (InCall ((TShard i, a) :: fr) k)).
      { intros n ->. rewrite (Gr _ _ _ _ _ E). right. right. cbn [plunders work map zsum]. rewrite !rank_cons. cbn. lia. }
      assert (Tn : TShard i <> TCfl) by discriminate.
      destruct a; try (eapply Done; reflexivity); try (eapply Rm; reflexivity);
      (destruct (tstep _ _ _ _ _) as ((x & a') & l1) eqn:Es;
       pose proof (tstep_less p s (TShard i) _ fr k (c_lock c) x a' l1 _ Hp Q Tn ltac:(discriminate) ltac:(discriminate) Es) as Lt;
       destruct l1; first [destruct (Gi _ _ _ _ _ E) as (-> & _)|rewrite (Gg _ _ E)]; exact Lt). }
    { assert (Rm : forall n, a = TRemoveMiss n -> less (s_pc s' t) (InCall ((TMain, a) :: fr) k)).
      { intros n ->. rewrite (Gr _ _ _ _ _ E). right. right. cbn [plunders work map zsum]. rewrite !rank_cons. cbn. lia. }
      assert (Tn : TMain <> TCfl) by discriminate.
      destruct a; try (eapply Done; reflexivity); try (eapply Rm; reflexivity);
      (destruct (tstep _ _ _ _ _) as ((x & a') & l1) eqn:Es;
       pose proof (tstep_less p s (TMain) _ fr k (c_lock c) x a' l1 _ Hp Q Tn ltac:(discriminate) ltac:(discriminate) Es) as Lt;
       destruct l1; first [destruct (Gi _ _ _ _ _ E) as (-> & _)|rewrite (Gg _ _ E)]; exact Lt). }
    destruct a; try discriminate; try (eapply Done; reflexivity).
    + rewrite (Gg _ _ E). right. right. cbn [plunders work map zsum]. rewrite !rank_cons. cbn. lia.
    + rewrite (Gg _ _ E). right. right. cbn [plunders work map zsum]. rewrite !rank_cons. cbn. lia.
Qed.

Lemma fstep_other p s l s' t : fpar_ok p -> finv p s -> fstep p s l s' -> 0 <= t -> fst l <> t -> s_pc s' t = s_pc s t.
Proof.
  intros Hp Iv H Ht N. destruct H as [s u o s' Hu Hi Hs|s u c s' l Hu Hi Hc Hs|s s' He]; cbn [fst] in N.
  - destruct (start_post p s u o s' Hp Iv Hi Hs) as (c & i & new & A & _). apply (a_pc _ _ _ _ _ _ A). congruence.
  - destruct (thread_step_good p s u c Hp Iv Hi Hc) as (s1 & l1 & E & (c' & i & new & A & _) & _). rewrite E in Hs. injection Hs as <- <-. apply (a_pc _ _ _ _ _ _ A). congruence.
  - destruct He; reflexivity.
Qed.
Lemma fstep_own p s l s' t : fpar_ok p -> finv p s -> fstep p s l s' -> 0 <= t -> fst l = t -> s_pc s t <> Idle -> less (s_pc s' t) (s_pc s t).
Proof.
  intros Hp Iv H Ht E Hn. destruct H as [s u o s' Hu Hi Hs|s u c s' l Hu Hi Hc Hs|s s' He]; cbn [fst] in E.
  - subst. contradiction.
  - subst u. eapply step_less; eassumption.
  - lia.
Qed.

(** * Specification

    An execution: the states [e 0], [e 1], ...; [lab i] says whose step leads from [e i] to the next state. *)
Definition execution (p : fpar) (e : nat -> fstate) (lab : nat -> Z * flabel) : Prop :=
  freach p (e 0%nat) /\ forall i, fstep p (e i) (lab i) (e (S i)).
(** The number of steps of thread [t] among the first [n]. *)
Fixpoint own_steps (lab : nat -> Z * flabel) (t : Z) (n : nat) : Z :=
  match n with O => 0 | S m => own_steps lab t m + (if fst (lab m) =? t then 1 else 0) end.

(** * Theorems *)

Lemma execution_inv p e lab : fpar_ok p -> execution p e lab -> forall i, finv p (e i).
Proof. intros Hp (H0 & Hs) i. apply (freach_inv _ _ Hp). induction i as [|i IH]; [exact H0|]. econstructor; [exact IH|apply Hs]. Qed.

(** A malloc or a free that has begun returns after at most 5242884 steps of its own, whatever the other threads, the background
    work and the scheduler do in between. *)
Theorem flow_call_bounded : forall p e lab t n, fpar_ok p -> execution p e lab -> 0 <= t < f_nthr p ->
  (s_pc (e 0%nat) t = AFast \/ exists x, s_pc (e 0%nat) t = DFast x) ->
  (forall i, (i <= n)%nat -> s_pc (e i) t <> Idle) ->
  own_steps lab t n <= 40 * 131072 + 4.
Proof.
  intros p e lab t n Hp He Ht H0 Hn. pose proof (execution_inv _ _ _ Hp He) as Iv.
  assert (G : forall i, (i <= n)%nat -> plunders (s_pc (e i) t) = 0 /\ work (s_pc (e i) t) + own_steps lab t i <= big + 4).
  { induction i as [|i IH]; intros Hi.
    - cbn [own_steps]. destruct H0 as [->|(x & ->)]; cbn [plunders work]; lia.
    - specialize (IH ltac:(lia)). destruct IH as (I1 & I2). destruct He as (_ & Hs). cbn [own_steps]. destruct (Z.eqb_spec (fst (lab i)) t) as [E|E].
      + destruct (fstep_own _ _ _ _ t Hp (Iv i) (Hs i) (proj1 Ht) E (Hn i ltac:(lia))) as [L|[L|(L1 & L2)]]; [exfalso; exact (Hn (S i) Hi L)| |lia].
        exfalso. assert (0 <= plunders (s_pc (e (S i)) t)) by (destruct (s_pc (e (S i)) t); cbn [plunders]; try lia; apply rank_pos). lia.
      + rewrite (fstep_other _ _ _ _ t Hp (Iv i) (Hs i) (proj1 Ht) E). lia. }
  destruct (G n (le_n n)) as (_ & Gn). pose proof (work_pos _ _ _ (i_pc _ _ (Iv n) t)). unfold big, max_target in Gn. lia.
Qed.
Print Assumptions flow_call_bounded.

(** So does every other call (the drain of a CPU, the shrinking of a cache, plundering): if the thread goes on taking steps, it
    ends. *)
Theorem flow_calls_end : forall p e lab t, fpar_ok p -> execution p e lab -> 0 <= t < f_nthr p ->
  (forall n, exists i, (n <= i)%nat /\ fst (lab i) = t) ->
  forall n, exists i, (n <= i)%nat /\ s_pc (e i) t = Idle.
Proof.
  intros p e lab t Hp He Ht Hf. pose proof (execution_inv _ _ _ Hp He) as Iv. destruct He as (_ & Hs).
  assert (Pos : forall j, 0 <= plunders (s_pc (e j) t) /\ 0 <= work (s_pc (e j) t)).
  { intros j. split; [destruct (s_pc (e j) t); cbn [plunders]; try lia; apply rank_pos|apply (work_pos _ _ _ (i_pc _ _ (Iv j) t))]. }
  assert (Next : forall j, s_pc (e j) t = Idle \/ exists k, (j < k)%nat /\ less (s_pc (e k) t) (s_pc (e j) t)).
  { intros j. destruct (Hf j) as (i & Hi & Ei). remember (i - j)%nat as d eqn:Ed. revert j Hi Ed. induction d as [|d IH]; intros j Hi Ed.
    - assert (i = j) by lia. subst i. assert (D : s_pc (e j) t = Idle \/ s_pc (e j) t <> Idle) by (destruct (s_pc (e j) t); (left; reflexivity) || (right; discriminate)).
      destruct D as [D|D]; [left; exact D|]. right. exists (S j). split; [lia|]. eapply fstep_own; eauto; lia.
    - assert (D : s_pc (e j) t = Idle \/ s_pc (e j) t <> Idle) by (destruct (s_pc (e j) t); (left; reflexivity) || (right; discriminate)).
      destruct D as [D|D]; [left; exact D|]. destruct (Z.eq_dec (fst (lab j)) t) as [E|E].
      + right. exists (S j). split; [lia|]. eapply fstep_own; eauto; lia.
      + pose proof (fstep_other _ _ _ _ t Hp (Iv j) (Hs j) (proj1 Ht) E) as Eq. destruct (IH (S j) ltac:(lia) ltac:(lia)) as [D'|(k & Hk & L)]; [congruence|].
        right. exists k. split; [lia|]. rewrite <- Eq. exact L. }
  assert (Main : forall a b j, Z.to_nat (plunders (s_pc (e j) t)) = a -> Z.to_nat (work (s_pc (e j) t)) = b -> exists i, (j <= i)%nat /\ s_pc (e i) t = Idle).
  { induction a as [a IHa] using lt_wf_ind. induction b as [b IHb] using lt_wf_ind. intros j Ea Eb.
    destruct (Next j) as [D|(k & Hk & [D|[L|(L1 & L2)]])]; [exists j; split; [lia|exact D]|exists k; split; [lia|exact D]| |].
    - destruct (IHa (Z.to_nat (plunders (s_pc (e k) t)))) with (b := Z.to_nat (work (s_pc (e k) t))) (j := k) as (i & Hi & D); try reflexivity; [pose proof (Pos j); pose proof (Pos k); lia|]. exists i. split; [lia|exact D].
    - destruct (IHb (Z.to_nat (work (s_pc (e k) t)))) with (j := k) as (i & Hi & D); try reflexivity; [pose proof (Pos j); pose proof (Pos k); lia|congruence|]. exists i. split; [lia|exact D]. }
  intros n. eapply Main; reflexivity.
Qed.
Print Assumptions flow_calls_end.
