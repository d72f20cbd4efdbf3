(** Property C34: the counting filter of stack traces, under every interleaving. *)
From Verif Require Import Base StackFilter.

(** ** The hash positions of a trace *)

(** How often [cell] is among the first [k] positions of the hash sequence from [h]. *)
Fixpoint hits (c : fcfg) (h : Z) (k : nat) (cell : Z) : Z :=
  match k with O => 0 | S k => (if h mod f_size c =? cell then 1 else 0) + hits c (f_next c h) k cell end.
Definition iter_hash (c : fcfg) (h : Z) (k : nat) : Z := Nat.iter k (f_next c) h.
Definition all_hits (c : fcfg) (h cell : Z) : Z := hits c h (f_hashes c) cell.

Lemma iter_hash_S c h k : iter_hash c h (S k) = iter_hash c (f_next c h) k.
Proof. unfold iter_hash. induction k as [|k IH]; [reflexivity|]. cbn [Nat.iter nat_rect] in *. rewrite IH. reflexivity. Qed.
Lemma iter_hash_S' c h k : iter_hash c h (S k) = f_next c (iter_hash c h k).
Proof. reflexivity. Qed.
Lemma hits_add c cell a : forall h b, hits c h (a + b) cell = hits c h a cell + hits c (iter_hash c h a) b cell.
Proof.
  induction a as [|a IH]; intros h b; [reflexivity|]. cbn [Nat.add hits]. rewrite IH, iter_hash_S. lia.
Qed.
Lemma hits_bound c cell k : forall h, 0 <= hits c h k cell <= Z.of_nat k.
Proof. induction k as [|k IH]; intros h; cbn [hits]; [lia|]. specialize (IH (f_next c h)). destruct (_ =? _); lia. Qed.
Lemma hits_mono c cell h a b : (a <= b)%nat -> hits c h a cell <= hits c h b cell.
Proof. intros. replace b with (a + (b - a))%nat by lia. rewrite hits_add. pose proof (hits_bound c cell (b - a) (iter_hash c h a)). lia. Qed.
Lemma hits_pos c h n i : (i < n)%nat -> 1 <= hits c h n (iter_hash c h i mod f_size c).
Proof.
  intros. replace n with (i + (1 + (n - i - 1)))%nat by lia. rewrite hits_add. cbn [Nat.add hits]. rewrite Z.eqb_refl.
  pose proof (hits_bound c (iter_hash c h i mod f_size c) i h).
  pose proof (hits_bound c (iter_hash c h i mod f_size c) (n - i - 1) (f_next c (iter_hash c h i))). lia.
Qed.

(** * The filter without decay *)

(** ** Specification: any number of calls in progress, advancing in any order *)
Inductive call := CAdd (t v : Z) | CContains (t : Z).
Definition trace_of (x : call * act) : Z := match fst x with CAdd t _ => t | CContains t => t end.
Definition start (c : fcfg) (x : call) : act := match x with CAdd t v => call_add c t v | CContains t => call_contains c t end.

Inductive reach_f (c : fcfg) : filter -> list (call * act) -> Prop :=
| F_new : reach_f c filter0 []
| F_call s pool x : reach_f c s pool -> reach_f c s ((x, start c x) :: pool)
| F_step s l1 x a l2 : reach_f c s (l1 ++ (x, a) :: l2) ->
    reach_f c (fst (act_step c s a)) (l1 ++ (x, snd (act_step c s a)) :: l2).

(** A call has returned. *)
Definition returned (a : act) : bool := match a with ADone _ => true | AAdd _ _ O None => true | _ => false end.

(** For one trace: what was added by calls that have returned, and what was
    removed by calls that have at least started. *)
Definition added (t : Z) (pool : list (call * act)) : Z :=
  zsum (map (fun x => match fst x with CAdd t' v => if (t' =? t) && (0 <? v) && returned (snd x) then v else 0 | _ => 0 end) pool).
Definition removed (t : Z) (pool : list (call * act)) : Z :=
  zsum (map (fun x => match fst x with CAdd t' v => if (t' =? t) && (v <? 0) then - v else 0 | _ => 0 end) pool).
(** Everything ever added, returned or not. *)
Definition ever_added (pool : list (call * act)) : Z :=
  zsum (map (fun x => match fst x with CAdd _ v => Z.max 0 v | _ => 0 end) pool).

(** The callers remove only what an earlier call has added. *)
Definition disciplined (pool : list (call * act)) : Prop := forall t, removed t pool <= added t pool.
(** The counters cannot wrap around. *)
Definition no_wrap (c : fcfg) (pool : list (call * act)) : Prop := Z.of_nat (f_hashes c) * ever_added pool < 2 ^ 16.

(** ** Invariant *)
Definition applied (c : fcfg) (a : act) : nat := match a with AAdd _ _ n _ => f_hashes c - n | _ => f_hashes c end.
Definition contrib (c : fcfg) (cell : Z) (x : call * act) : Z :=
  match fst x with CAdd t v => v * hits c (f_first c t) (applied c (snd x)) cell | CContains _ => 0 end.
Definition entry_ok (c : fcfg) (x : call * act) : Prop :=
  match fst x with
  | CAdd t v => (exists k n, (k + n = f_hashes c)%nat /\ snd x = AAdd (iter_hash c (f_first c t) k) v n None) \/ snd x = ADone true
  | CContains t => (exists k n, (k + n = f_hashes c)%nat /\ snd x = AContains (iter_hash c (f_first c t) k) n) \/ exists b, snd x = ADone b
  end.
Definition inv_f (c : fcfg) (s : filter) (pool : list (call * act)) : Prop :=
  Forall (entry_ok c) pool /\ forall cell, f_counts s cell = wrap16 (zsum (map (contrib c cell) pool)).

Lemma wrap16_add a b : wrap16 (wrap16 a + b) = wrap16 (a + b).
Proof. unfold wrap16. apply Z.add_mod_idemp_l. lia. Qed.

Lemma reach_inv c s pool : reach_f c s pool -> inv_f c s pool.
Proof.
  induction 1 as [|s pool x R (F & I)|s l1 x a l2 R (F & I)].
  - split; [constructor|]. intros. reflexivity.
  - split.
    + constructor; [|assumption]. destruct x as [t v|t]; unfold entry_ok; cbn [fst snd start call_add call_contains].
      * left. exists O, (f_hashes c). split; [lia|reflexivity].
      * left. exists O, (f_hashes c). split; [lia|reflexivity].
    + intros cell. cbn [map]. rewrite zsum_cons, I. f_equal. destruct x as [t v|t]; unfold contrib; cbn [fst snd start call_add applied]; [|lia].
      replace (f_hashes c - f_hashes c)%nat with O by lia. cbn [hits]. lia.
  - apply Forall_app in F as (F1 & F2). inversion F2 as [|? ? Fa F3]; subst.
    destruct x as [t v|t]; unfold entry_ok in Fa; cbn [fst snd] in Fa.
    + destruct Fa as [(k & n & Ek & ->)| ->].
      * destruct n as [|n]; cbn [act_step fst snd after].
        -- split.
           ++ apply Forall_app. split; [assumption|]. constructor; [|assumption]. right. reflexivity.
           ++ intros cell. rewrite I. rewrite !map_app. cbn [map]. rewrite !zsum_app, !zsum_cons. f_equal. f_equal. f_equal.
              unfold contrib. cbn [fst snd applied]. f_equal. f_equal. lia.
        -- split.
           ++ apply Forall_app. split; [assumption|]. constructor; [|assumption]. left. exists (S k), n. split; [lia|]. cbn [snd]. rewrite iter_hash_S'. reflexivity.
           ++ intros cell. cbn [f_counts]. set (i := iter_hash c (f_first c t) k mod f_size c).
              assert (E : zsum (map (contrib c cell) (l1 ++ (CAdd t v, AAdd (f_next c (iter_hash c (f_first c t) k)) v n None) :: l2)) =
                zsum (map (contrib c cell) (l1 ++ (CAdd t v, AAdd (iter_hash c (f_first c t) k) v (S n) None) :: l2)) + (if i =? cell then v else 0)).
              { rewrite !map_app. cbn [map]. rewrite !zsum_app, !zsum_cons. unfold contrib at 2 5. cbn [fst snd applied].
                replace (f_hashes c - n)%nat with (k + 1)%nat by lia. replace (f_hashes c - S n)%nat with k by lia. rewrite hits_add. cbn [hits]. fold i.
                destruct (i =? cell); lia. }
              rewrite E. destruct (Z.eqb_spec i cell) as [<-|N].
              ** rewrite upd_same, I, wrap16_add. reflexivity.
              ** rewrite upd_other by congruence. rewrite Z.add_0_r. apply I.
      * cbn [act_step fst snd]. split; [|exact I]. apply Forall_app. split; [assumption|]. constructor; [|assumption]. right. reflexivity.
    + assert (G : fst (act_step c s a) = s /\ entry_ok c (CContains t, snd (act_step c s a))).
      { destruct Fa as [(k & n & Ek & ->)|(b & ->)].
        - destruct n as [|n]; cbn [act_step fst snd]; (split; [reflexivity|]).
          + right. exists true. reflexivity.
          + destruct (_ =? 0); [right; exists false; reflexivity|]. left. exists (S k), n. split; [lia|]. cbn [snd]. rewrite iter_hash_S'. reflexivity.
        - cbn. split; [reflexivity|]. right. exists b. reflexivity. }
      destruct G as (-> & Ga). split.
      * apply Forall_app. split; [assumption|]. constructor; assumption.
      * intros cell. rewrite I. f_equal. rewrite !map_app. cbn [map]. rewrite !zsum_app, !zsum_cons. reflexivity.
Qed.

(** ** Sums by trace *)
Lemma zsum_filter_one {E} (key : E -> Z) (f : E -> Z) e l k :
  zsum (map f (List.filter (fun x => key x =? k) (e :: l))) = (if key e =? k then f e else 0) + zsum (map f (List.filter (fun x => key x =? k) l)).
Proof. cbn. destruct (key e =? k); cbn; lia. Qed.
Lemma zsum_map_add {E} (f g : E -> Z) l : zsum (map (fun x => f x + g x) l) = zsum (map f l) + zsum (map g l).
Proof. induction l; cbn; lia. Qed.
Lemma zsum_pick k0 v ks : NoDup ks -> In k0 ks -> zsum (map (fun k => if k0 =? k then v else 0) ks) = v.
Proof.
  induction 1 as [|k ks N D IH]; intros H; [destruct H|]. cbn. destruct H as [->|H].
  - rewrite Z.eqb_refl. assert (G : forall l, ~ In k0 l -> zsum (map (fun k => if k0 =? k then v else 0) l) = 0).
    { induction l as [|y l IHl]; intros Hn; [reflexivity|]. cbn in *. destruct (Z.eqb_spec k0 y); [exfalso; auto|]. rewrite IHl; [lia|tauto]. }
    rewrite G by assumption. lia.
  - destruct (Z.eqb_spec k0 k) as [->|]; [contradiction|]. rewrite IH by assumption. lia.
Qed.
Lemma zsum_group {E} (key f : E -> Z) l ks : NoDup ks -> (forall e, In e l -> In (key e) ks) ->
  zsum (map f l) = zsum (map (fun k => zsum (map f (List.filter (fun x => key x =? k) l))) ks).
Proof.
  intros D. induction l as [|e l IH]; intros H.
  - cbn. clear. induction ks; cbn; lia.
  - cbn [map]. rewrite zsum_cons. rewrite (map_ext _ (fun k => (if key e =? k then f e else 0) + zsum (map f (List.filter (fun x => key x =? k) l)))).
    2:{ intros k. apply (zsum_filter_one key f e l k). }
    rewrite zsum_map_add, zsum_pick; [|assumption|apply H; now left]. f_equal. apply IH. intros; apply H; now right.
Qed.
Lemma zsum_le {E} (f g : E -> Z) l : (forall x, In x l -> f x <= g x) -> zsum (map f l) <= zsum (map g l).
Proof. induction l as [|x l IH]; intros H; cbn; [lia|]. pose proof (H x (or_introl eq_refl)). pose proof (IH (fun y Hy => H y (or_intror Hy))). lia. Qed.
Lemma zsum_ge_one {E} (f : E -> Z) l x : (forall y, In y l -> 0 <= f y) -> In x l -> f x <= zsum (map f l).
Proof.
  induction l as [|y l IH]; intros H Hx; [destruct Hx|]. cbn. assert (0 <= zsum (map f l)).
  { clear -H. induction l as [|z l IH]; cbn; [lia|]. pose proof (H z (or_intror (or_introl eq_refl))). assert (0 <= zsum (map f l)); [apply IH; intros w [->|Hw]; apply H; [now left|right; now right]|lia]. }
  pose proof (H y (or_introl eq_refl)). destruct Hx as [->|Hx]; [lia|]. pose proof (IH (fun z Hz => H z (or_intror Hz)) Hx). lia.
Qed.

(** What one trace contributes to a cell. *)
Definition group (c : fcfg) (cell t : Z) (pool : list (call * act)) : Z :=
  zsum (map (contrib c cell) (List.filter (fun x => trace_of x =? t) pool)).

Lemma group_lower c cell t pool : Forall (entry_ok c) pool ->
  (added t pool - removed t pool) * all_hits c (f_first c t) cell <= group c cell t pool.
Proof.
  unfold group, added, removed. induction 1 as [|(x & a) pool Fe F IH]; [cbn; lia|].
  rewrite (zsum_filter_one trace_of (contrib c cell) (x, a) pool t). cbn [map]. rewrite !zsum_cons. cbn [fst snd] in *.
  set (A := zsum (map _ pool)) in *. set (B := zsum (map _ pool)) in *. set (G := zsum (map _ (List.filter _ pool))) in *. clearbody A B G.
  set (H := all_hits c (f_first c t) cell) in *. pose proof (hits_bound c cell (f_hashes c) (f_first c t)) as HB. change (hits c (f_first c t) (f_hashes c) cell) with H in HB.
  destruct x as [t' v|t']; cbn [trace_of fst].
  2:{ destruct (t' =? t); unfold contrib; cbn [fst]; lia. }
  destruct (Z.eqb_spec t' t) as [->|N]; cbn [andb]; [|lia].
  enough (((if (0 <? v) && returned a then v else 0) - (if v <? 0 then - v else 0)) * H <= contrib c cell (CAdd t v, a)) by lia.
  unfold contrib. cbn [fst snd]. pose proof (hits_mono c cell (f_first c t) (applied c a) (f_hashes c)) as Hm. change (hits c (f_first c t) (f_hashes c) cell) with H in Hm.
  assert (Ha : (applied c a <= f_hashes c)%nat) by (unfold applied; destruct a; lia). specialize (Hm Ha).
  pose proof (hits_bound c cell (applied c a) (f_first c t)) as Hb.
  unfold entry_ok in Fe. cbn [fst snd] in Fe. destruct (Z.ltb_spec 0 v) as [V|V]; cbn [andb].
  - replace (v <? 0) with false by lia. destruct (returned a) eqn:Er.
    + assert (E : applied c a = f_hashes c).
      { destruct Fe as [(k & n & Ek & ->)| ->]; [|reflexivity]. destruct n; [|discriminate]. cbn. lia. }
      rewrite E. change (hits c (f_first c t) (f_hashes c) cell) with H. lia.
    + assert (0 <= v * hits c (f_first c t) (applied c a) cell) by (apply Z.mul_nonneg_nonneg; lia). lia.
  - destruct (Z.ltb_spec v 0) as [W|W].
    + replace ((0 - - v) * H) with (v * H) by lia. apply Z.mul_le_mono_nonpos_l; lia.
    + replace v with 0 by lia. lia.
Qed.

Lemma contrib_upper c cell x : contrib c cell x <= Z.of_nat (f_hashes c) * match fst x with CAdd _ v => Z.max 0 v | _ => 0 end.
Proof.
  unfold contrib. destruct (fst x) as [t v|t]; [|lia]. assert (Ha : (applied c (snd x) <= f_hashes c)%nat) by (unfold applied; destruct (snd x); lia).
  pose proof (hits_bound c cell (applied c (snd x)) (f_first c t)) as Hb.
  destruct (Z.max_spec 0 v) as [(V & ->)|(V & ->)].
  - rewrite Z.mul_comm. apply Z.mul_le_mono_nonneg_r; lia.
  - assert (v * hits c (f_first c t) (applied c (snd x)) cell <= 0) by (apply Z.mul_nonpos_nonneg; lia). lia.
Qed.

Lemma contained_cell c s pool t i : reach_f c s pool -> disciplined pool -> no_wrap c pool -> removed t pool < added t pool -> (i < f_hashes c)%nat ->
  f_counts s (iter_hash c (f_first c t) i mod f_size c) <> 0.
Proof.
  intros R D W Ht Hi. destruct (reach_inv c s pool R) as (F & I). set (cell := iter_hash c (f_first c t) i mod f_size c). rewrite I.
  assert (L : 1 <= zsum (map (contrib c cell) pool)).
  { rewrite (zsum_group trace_of (contrib c cell) pool (nodup Z.eq_dec (map trace_of pool))).
    2: apply NoDup_nodup. 2:{ intros e He. apply nodup_In. now apply in_map. }
    change (1 <= zsum (map (fun k => group c cell k pool) (nodup Z.eq_dec (map trace_of pool)))).
    assert (G0 : forall k, 0 <= group c cell k pool).
    { intros k. pose proof (group_lower c cell k pool F) as GL. specialize (D k). pose proof (hits_bound c cell (f_hashes c) (f_first c k)) as HB.
      assert (0 <= (added k pool - removed k pool) * all_hits c (f_first c k) cell) by (apply Z.mul_nonneg_nonneg; unfold all_hits; lia). lia. }
    assert (G1 : 1 <= group c cell t pool).
    { pose proof (group_lower c cell t pool F) as GL. pose proof (hits_pos c (f_first c t) (f_hashes c) i Hi) as HP. fold cell in HP. fold (all_hits c (f_first c t) cell) in HP.
      assert (1 * 1 <= (added t pool - removed t pool) * all_hits c (f_first c t) cell) by (apply Z.mul_le_mono_nonneg; lia). lia. }
    assert (Hin : In t (nodup Z.eq_dec (map trace_of pool))).
    { apply nodup_In. assert (E : added t pool <> 0).
      { assert (0 <= removed t pool); [|lia]. unfold removed. clear. induction pool as [|(x & a) pool IH]; cbn [map zsum fst]; [lia|].
        destruct x; cbn [zsum]; [|lia]. destruct (_ && _) eqn:E; lia. }
      clear - E. unfold added in E. induction pool as [|(x & a) pool IH]; [cbn in E; lia|]. cbn [map zsum fst snd] in E. cbn [map]. destruct x as [t' v|t'].
      - destruct (Z.eqb_spec t' t) as [->|N]; [left; reflexivity|]. right. apply IH. cbn [andb] in E. exact E.
      - right. apply IH. exact E. }
    pose proof (zsum_ge_one (fun k => group c cell k pool) _ t (fun y _ => G0 y) Hin). cbv beta in *. lia. }
  assert (U : zsum (map (contrib c cell) pool) < 2 ^ 16).
  { unfold no_wrap in W. eapply Z.le_lt_trans; [|exact W].
    eapply Z.le_trans; [apply (zsum_le _ (fun x => Z.of_nat (f_hashes c) * match fst x with CAdd _ v => Z.max 0 v | _ => 0 end)); intros; apply contrib_upper|].
    unfold ever_added. clear. induction pool as [|x pool IH]; cbn [map zsum]; lia. }
  unfold wrap16. rewrite Z.mod_small; lia.
Qed.

(** In every interleaving of any number of calls: while the additions of [t] that have
    returned outweigh the removals of [t] that have started (and callers remove only
    what was added, and the counters do not wrap), no step of a Contains call for [t]
    answers false. *)
Theorem stackfilter_contains : forall c s pool t a,
  reach_f c s pool -> In (CContains t, a) pool -> returned a = false ->
  disciplined pool -> no_wrap c pool -> removed t pool < added t pool ->
  snd (act_step c s a) <> ADone false.
Proof.
  intros c s pool t a R Hin Hr D W Ht. destruct (reach_inv c s pool R) as (F & _). rewrite Forall_forall in F. specialize (F _ Hin).
  unfold entry_ok in F. cbn [fst snd] in F. destruct F as [(k & n & Ek & ->)|(b & ->)]; [|discriminate].
  destruct n as [|n]; cbn [act_step snd]; [discriminate|].
  destruct (Z.eqb_spec (f_counts s (iter_hash c (f_first c t) k mod f_size c)) 0) as [E|E]; [|discriminate].
  exfalso. revert E. apply (contained_cell c s pool t k R D W Ht). lia.
Qed.
Print Assumptions stackfilter_contains.

(** ** A Contains call that runs alone *)
Definition contains (c : fcfg) (s : filter) (t : Z) : act := snd (run_alone c (S (f_hashes c)) s (call_contains c t)).

Lemma contains_alone c s t : contains c s t = ADone (forallb (fun i => negb (f_counts s (iter_hash c (f_first c t) i mod f_size c) =? 0)) (seq 0 (f_hashes c))).
Proof.
  unfold contains, call_contains.
  assert (G : forall n h, snd (run_alone c (S n) s (AContains h n)) = ADone (forallb (fun i => negb (f_counts s (iter_hash c h i mod f_size c) =? 0)) (seq 0 n))).
  { induction n as [|n IH]; intros h; [reflexivity|]. change (snd (run_alone c (S n) (fst (act_step c s (AContains h (S n)))) (snd (act_step c s (AContains h (S n))))) =
      ADone (forallb (fun i => negb (f_counts s (iter_hash c h i mod f_size c) =? 0)) (seq 0 (S n)))).
    cbn [act_step fst snd]. cbn [seq forallb]. change (iter_hash c h 0) with h. destruct (f_counts s (h mod f_size c) =? 0) eqn:E; cbn [negb andb]; [reflexivity|].
    rewrite IH. f_equal. rewrite <- seq_shift. 
    clear. induction (seq 0 n) as [|i l IHl]; cbn [map forallb]; [reflexivity|]. rewrite iter_hash_S, IHl. reflexivity. }
  apply G.
Qed.

Theorem stackfilter_contains_alone : forall c s pool t,
  reach_f c s pool -> disciplined pool -> no_wrap c pool -> removed t pool < added t pool -> contains c s t = ADone true.
Proof.
  intros c s pool t R D W Ht. rewrite contains_alone. f_equal. apply forallb_forall. intros i Hi. apply in_seq in Hi.
  pose proof (contained_cell c s pool t i R D W Ht ltac:(lia)) as H. destruct (Z.eqb_spec (f_counts s (iter_hash c (f_first c t) i mod f_size c)) 0); [contradiction|reflexivity].
Qed.
Print Assumptions stackfilter_contains_alone.

(** The net count of a trace. *)
Definition net (t : Z) (pool : list (call * act)) : Z :=
  zsum (map (fun x => match fst x with CAdd t' v => if t' =? t then v else 0 | _ => 0 end) pool).

Lemma group_quiet c cell t pool : Forall (fun x => returned (snd x) = true) pool -> Forall (entry_ok c) pool ->
  group c cell t pool = net t pool * all_hits c (f_first c t) cell.
Proof.
  unfold group, net. induction 1 as [|(x & a) pool Q F IH]; intros E; [reflexivity|]. inversion E as [|? ? Ea E']; subst.
  rewrite (zsum_filter_one trace_of (contrib c cell) (x, a) pool t), (IH E'). cbn [map]. rewrite zsum_cons. cbn [fst snd] in *.
  destruct x as [t' v|t']; cbn [trace_of fst]; [|destruct (t' =? t); unfold contrib; cbn [fst]; lia].
  destruct (Z.eqb_spec t' t) as [->|N]; [|lia]. unfold contrib. cbn [fst snd]. unfold entry_ok in Ea. cbn [fst snd] in Ea.
  assert (Ap : applied c a = f_hashes c). { destruct Ea as [(k & n & Ek & ->)| ->]; [|reflexivity]. destruct n; [|discriminate]. cbn. lia. }
  rewrite Ap. unfold all_hits. lia.
Qed.

(** When no call is in progress each counter is, modulo 2^16, the sum over the traces
    of their net count times the number of their positions that fall on it, whatever the
    interleaving was. *)
Theorem stackfilter_counters : forall c s pool cell ts,
  reach_f c s pool -> Forall (fun x => returned (snd x) = true) pool ->
  NoDup ts -> (forall x, In x pool -> In (trace_of x) ts) ->
  f_counts s cell = wrap16 (zsum (map (fun t => net t pool * all_hits c (f_first c t) cell) ts)).
Proof.
  intros c s pool cell ts R Q D H. destruct (reach_inv c s pool R) as (F & I). rewrite I. f_equal.
  rewrite (zsum_group trace_of (contrib c cell) pool ts D H). f_equal. apply map_ext. intros t. apply group_quiet; assumption.
Qed.
Print Assumptions stackfilter_counters.

(** When every addition has been undone, nothing is contained. *)
Theorem stackfilter_empty : forall c s pool t,
  (0 < f_hashes c)%nat -> reach_f c s pool -> Forall (fun x => returned (snd x) = true) pool -> (forall t, net t pool = 0) ->
  contains c s t = ADone false.
Proof.
  intros c s pool t Hh R Q N. rewrite contains_alone. f_equal. destruct (f_hashes c) as [|n] eqn:E; [lia|]. cbn [seq forallb].
  rewrite (stackfilter_counters c s pool _ (nodup Z.eq_dec (map trace_of pool)) R Q (NoDup_nodup _ _)).
  2:{ intros x Hx. apply nodup_In. now apply in_map. }
  rewrite (map_ext _ (fun _ => 0)). 2:{ intros y. rewrite N. lia. }
  replace (zsum (map (fun _ => 0) (nodup Z.eq_dec (map trace_of pool)))) with 0; [reflexivity|].
  generalize (nodup Z.eq_dec (map trace_of pool)) as l. induction l; cbn; lia.
Qed.
Print Assumptions stackfilter_empty.

(** * The decaying filter *)

Inductive dcall := DAdd (t v : Z) | DDecay | DContains (t : Z).
Definition dstart (c : fcfg) (x : dcall) : act :=
  match x with DAdd t v => call_decaying_add c t v | DDecay => call_decay | DContains t => call_contains c t end.
(** [log]: the values given to Add, by trace. *)
Definition dlog (x : dcall) : list (Z * Z) := match x with DAdd t v => [(t, v)] | _ => [] end.
Inductive reach_d (c : fcfg) : filter -> list act -> list (Z * Z) -> Prop :=
| D_new : reach_d c filter0 [] []
| D_call s pool log x : reach_d c s pool log -> reach_d c s (dstart c x :: pool) (dlog x ++ log)
| D_step s l1 a l2 log : reach_d c s (l1 ++ a :: l2) log ->
    reach_d c (fst (act_step c s a)) (l1 ++ snd (act_step c s a) :: l2) log.

Definition weight (c : fcfg) (cell h : Z) : Z := if h =? 0 then 0 else all_hits c h cell.
Definition owed_k (c : fcfg) (cell : Z) (k : option (Z * Z)) : Z := match k with Some (h, v) => v * all_hits c h cell | None => 0 end.
Definition owed (c : fcfg) (cell : Z) (a : act) : Z :=
  match a with
  | AAdd h v n k => v * hits c h n cell + owed_k c cell k
  | ADecay r k | AExchange _ r k => owed_k c cell k - weight c cell r
  | _ => 0
  end.
Definition ring_sum (c : fcfg) (s : filter) (cell : Z) : Z := zsum (map (fun i => weight c cell (f_ring s i)) (zseq 0 (Z.to_nat (f_steps c)))).
Definition log_sum (c : fcfg) (log : list (Z * Z)) (cell : Z) : Z := zsum (map (fun x => snd x * all_hits c (f_first c (fst x)) cell) log).

Lemma zsum_upd (f : Z -> Z) i v n : 0 <= i < Z.of_nat n -> forall g : Z -> Z,
  zsum (map (fun j => g (upd f i v j)) (zseq 0 n)) = zsum (map (fun j => g (f j)) (zseq 0 n)) + g v - g (f i).
Proof.
  intros Hi g. replace n with (Z.to_nat i + (1 + (n - Z.to_nat i - 1)))%nat by lia. rewrite !zseq_app, !map_app, !zsum_app. cbn [zseq map zsum].
  rewrite !Z.add_0_l, !Z2Nat.id by lia. rewrite upd_same.
  rewrite (map_ext_in (fun j => g (upd f i v j)) (fun j => g (f j)) (zseq 0 (Z.to_nat i))).
  2:{ intros j Hj. apply zseq_In in Hj. rewrite upd_other by lia. reflexivity. }
  rewrite (map_ext_in (fun j => g (upd f i v j)) (fun j => g (f j)) (zseq (i + Z.of_nat 1) _)).
  2:{ intros j Hj. apply zseq_In in Hj. rewrite upd_other by lia. reflexivity. }
  lia.
Qed.

Lemma owed_after c cell k : owed c cell (after c k) = owed_k c cell k.
Proof. destruct k as [(h & v)|]; cbn; unfold all_hits; lia. Qed.

Lemma cong_trans a b d : wrap16 a = wrap16 b -> wrap16 (a + d) = wrap16 (b + d).
Proof. unfold wrap16. intros H. rewrite (Z.add_mod a), (Z.add_mod b), H by lia. reflexivity. Qed.

Lemma reach_d_inv c s pool log : 0 < f_steps c -> reach_d c s pool log -> forall cell,
  0 <= f_counts s cell < 2 ^ 16 /\
  wrap16 (f_counts s cell + zsum (map (owed c cell) pool)) = wrap16 (log_sum c log cell + ring_sum c s cell).
Proof.
  intros Hs R cell. induction R as [|s pool log x R (B & I)|s l1 a l2 log R (B & I)].
  - split; [cbn; lia|]. cbn [filter0 f_counts map zsum]. unfold log_sum, ring_sum. cbn [map zsum filter0 f_ring].
    replace (zsum (map (fun _ : Z => weight c cell 0) (zseq 0 (Z.to_nat (f_steps c))))) with 0; [reflexivity|].
    unfold weight. cbn [Z.eqb]. generalize (zseq 0 (Z.to_nat (f_steps c))) as l. induction l; cbn; lia.
  - split; [assumption|]. cbn [map]. rewrite zsum_cons.
    assert (E : owed c cell (dstart c x) = zsum (map (fun y => snd y * all_hits c (f_first c (fst y)) cell) (dlog x))).
    { destruct x as [t v| |t]; cbn [dstart dlog call_decay call_contains owed owed_k weight map zsum fst snd]; try reflexivity.
      unfold call_decaying_add. cbv zeta. destruct (0 <=? v); cbn [owed owed_k]; [|unfold all_hits; lia].
      unfold weight. destruct (f_first c t =? 0); lia. }
    unfold log_sum in *. rewrite map_app, zsum_app, <- E. apply (cong_trans _ _ (owed c cell (dstart c x))) in I.
    rewrite <- Z.add_assoc in I. rewrite (Z.add_comm (zsum (map (owed c cell) pool))) in I. rewrite I. f_equal. lia.
  - rewrite !map_app in *. cbn [map] in *. rewrite !zsum_app, !zsum_cons in *. destruct a as [h v n k|r k|p r k|h n|b].
    + destruct n as [|n]; cbn [act_step fst snd].
      * split; [assumption|]. rewrite owed_after. cbn [owed hits] in I. rewrite Z.mul_0_r in I. exact I.
      * cbn [f_counts]. unfold ring_sum in *. cbn [f_ring]. set (i := h mod f_size c) in *. cbn [owed hits] in *. fold i in I.
        destruct (Z.eq_dec cell i) as [->|N].
        -- rewrite upd_same. split; [apply Z.mod_pos_bound; lia|]. rewrite wrap16_add. rewrite <- I. f_equal. rewrite Z.eqb_refl. lia.
        -- rewrite upd_other by assumption. split; [assumption|]. rewrite <- I. f_equal. replace (i =? cell) with false by lia. lia.
    + cbn [act_step fst snd f_counts]. split; [assumption|]. exact I.
    + cbn [act_step fst snd f_counts]. split; [assumption|]. unfold ring_sum in *. cbn [f_ring].
      pose proof (Z.mod_pos_bound p (f_steps c) Hs) as Hp. set (i := p mod f_steps c) in *. set (d := f_ring s i) in *.
      assert (Hi : 0 <= i < Z.of_nat (Z.to_nat (f_steps c))) by lia.
      rewrite (zsum_upd (f_ring s) i r _ Hi (weight c cell)). fold d.
      assert (E : owed c cell (if d =? 0 then after c k else AAdd d (-1) (f_hashes c) k) = owed_k c cell k - weight c cell d).
      { unfold weight. destruct (d =? 0); [rewrite owed_after; lia|]. cbn [owed]. unfold all_hits. lia. }
      rewrite E. cbn [owed] in I. apply (cong_trans _ _ (weight c cell r - weight c cell d)) in I.
      match goal with |- wrap16 ?a = wrap16 ?b => match type of I with wrap16 ?a' = wrap16 ?b' => replace a with a' by lia; replace b with b' by lia end end. exact I.
    + split; [destruct n; cbn [act_step fst]; assumption|]. destruct n as [|n]; cbn [act_step fst snd]; [exact I|]. destruct (_ =? 0); exact I.
    + split; [cbn; assumption|]. exact I.
Qed.

(** When no call is in progress each counter is, modulo 2^16, the sum of the values
    given to Add plus one for each trace still waiting in the ring to be decayed, whatever
    the interleaving was: no decay is lost or applied twice. *)
Theorem decaying_counters : forall c s pool log cell,
  0 < f_steps c -> reach_d c s pool log -> Forall (fun a => exists b, a = ADone b) pool ->
  f_counts s cell = wrap16 (
    zsum (map (fun x => snd x * all_hits c (f_first c (fst x)) cell) log) +
    zsum (map (fun i => if f_ring s i =? 0 then 0 else all_hits c (f_ring s i) cell) (zseq 0 (Z.to_nat (f_steps c))))).
Proof.
  intros c s pool log cell Hs R Q. destruct (reach_d_inv c s pool log Hs R cell) as (B & I).
  assert (E : zsum (map (owed c cell) pool) = 0).
  { clear - Q. induction Q as [|a pool (b & ->) Q IH]; cbn [map zsum owed]; lia. }
  rewrite E, Z.add_0_r in I. unfold wrap16 at 1 in I. rewrite Z.mod_small in I by lia. exact I.
Qed.
Print Assumptions decaying_counters.

(** DecayAll run alone. *)
Fixpoint decay_n (c : fcfg) (n : nat) (s : filter) : filter :=
  match n with O => s | S n => decay_n c n (fst (run_alone c (f_hashes c + 4) s call_decay)) end.

Lemma run_alone_add c n : forall fuel h v s, (n < fuel)%nat ->
  f_ring (fst (run_alone c fuel s (AAdd h v n None))) = f_ring s /\ f_pos (fst (run_alone c fuel s (AAdd h v n None))) = f_pos s.
Proof.
  induction n as [|n IH]; intros fuel h v s Hf; (destruct fuel as [|fuel]; [lia|]).
  - cbn. destruct fuel; split; reflexivity.
  - cbn [run_alone act_step]. match goal with |- context [run_alone c fuel ?w _] => destruct (IH fuel (f_next c h) v w ltac:(lia)) as (-> & ->) end. split; reflexivity.
Qed.
Lemma decay_one c s : let s' := fst (run_alone c (f_hashes c + 4) s call_decay) in
  f_ring s' = upd (f_ring s) (f_pos s mod f_steps c) 0 /\ f_pos s' = wrap64 (f_pos s + 1).
Proof.
  cbv zeta. replace (f_hashes c + 4)%nat with (S (S (f_hashes c + 2))) by lia. cbn [run_alone call_decay act_step f_pos f_ring f_counts].
  destruct (f_ring s (f_pos s mod f_steps c) =? 0).
  - cbn [after]. destruct (f_hashes c + 2)%nat; split; reflexivity.
  - destruct (run_alone_add c (f_hashes c) (f_hashes c + 2) (f_ring s (f_pos s mod f_steps c)) (-1)
      (Filter (f_counts s) (upd (f_ring s) (f_pos s mod f_steps c) 0) (wrap64 (f_pos s + 1))) ltac:(lia)) as (-> & ->). split; reflexivity.
Qed.

(** DecayAll empties the ring: afterwards every trace has been decayed. *)
Theorem decay_all_empties : forall c s, 0 < f_steps c -> 0 <= f_pos s -> f_pos s + f_steps c <= 2 ^ 64 ->
  forall i, 0 <= i < f_steps c -> f_ring (decay_n c (Z.to_nat (f_steps c)) s) i = 0.
Proof.
  intros c s Hs Hp Hw.
  assert (G : forall n s0, 0 <= f_pos s0 -> f_pos s0 + Z.of_nat n <= 2 ^ 64 -> Z.of_nat n <= f_steps c ->
    (forall i, 0 <= i < f_steps c -> (forall j, 0 <= j < Z.of_nat n -> i <> (f_pos s0 + j) mod f_steps c) -> f_ring s0 i = 0) ->
    forall i, 0 <= i < f_steps c -> f_ring (decay_n c n s0) i = 0).
  { induction n as [|n IH]; intros s0 H0 H1 H2 H3 i Hi; [apply H3; [assumption|intros; lia]|]. cbn [decay_n].
    pose proof (decay_one c s0) as (Er & Ep). cbv zeta in Er, Ep. rewrite Nat2Z.inj_succ in *.
    destruct (Z.eq_dec (f_pos s0 + 1) (2 ^ 64)) as [E|E].
    - assert (n = O) by lia. subst n. cbn [decay_n]. rewrite Er. destruct (Z.eq_dec i (f_pos s0 mod f_steps c)) as [->|N]; [apply upd_same|].
      rewrite upd_other by assumption. apply H3; [assumption|]. intros j Hj. assert (j = 0) by lia. subst j. rewrite Z.add_0_r. assumption.
    - rewrite wrap64_small in Ep by (unfold two64; lia). apply IH; [lia|lia|lia| |assumption].
      rewrite Er, Ep. intros i' Hi' Hn. destruct (Z.eq_dec i' (f_pos s0 mod f_steps c)) as [->|N]; [apply upd_same|].
      rewrite upd_other by assumption. apply H3; [assumption|]. intros j Hj. destruct (Z.eq_dec j 0) as [->|J]; [rewrite Z.add_0_r; assumption|].
      specialize (Hn (j - 1) ltac:(lia)). replace (f_pos s0 + 1 + (j - 1)) with (f_pos s0 + j) in Hn by lia. exact Hn. }
  apply G; [assumption|lia|lia|]. intros i Hi Hn. exfalso.
  apply (Hn ((i - f_pos s) mod f_steps c)); [rewrite Z2Nat.id by lia; apply Z.mod_pos_bound; lia|].
  rewrite Z.add_mod_idemp_r by lia. replace (f_pos s + (i - f_pos s)) with i by lia. symmetry. apply Z.mod_small. lia.
Qed.
Print Assumptions decay_all_empties.

(** Finding: an Add of the decaying filter publishes its trace in the ring before it
    counts it.  If another thread decays it in between, the counters are low by one and
    an unrelated trace whose net count is 1, and whose calls have all returned, is
    reported as not contained. *)
Definition cfg_race : fcfg := FCfg 1 1 1 (fun t => t) (fun h => h).

(** A run given by the numbers of the calls to advance. *)
Definition step_nth (c : fcfg) (w : filter * list act) (i : nat) : filter * list act :=
  let (s, pool) := w in
  match nth_error pool i with
  | Some a => (fst (act_step c s a), firstn i pool ++ snd (act_step c s a) :: skipn (S i) pool)
  | None => w
  end.
Lemma reach_steps c log is : forall w, reach_d c (fst w) (snd w) log -> reach_d c (fst (fold_left (step_nth c) is w)) (snd (fold_left (step_nth c) is w)) log.
Proof.
  induction is as [|i is IH]; intros (s & pool) R; [exact R|]. cbn [fold_left]. apply IH. unfold step_nth. destruct (nth_error pool i) as [a|] eqn:E; [|exact R].
  cbn [fst snd] in *. apply D_step. apply nth_error_split in E as (l1 & l2 & -> & <-).
  rewrite firstn_app, firstn_all, Nat.sub_diag. cbn [firstn]. rewrite app_nil_r. rewrite skipn_app, skipn_all2 by lia.
  replace (S (length l1) - length l1)%nat with 1%nat by lia. cbn [skipn app]. exact R.
Qed.

(* Add(1, 1) and a Decay return; Add(2, 1) publishes; another Decay takes it; *)
Definition race1 := fold_left (step_nth cfg_race) [0;0;0;0]%nat (filter0, [dstart cfg_race (DAdd 1 1)]).
Definition race2 := fold_left (step_nth cfg_race) [0;0;0;0]%nat (fst race1, dstart cfg_race DDecay :: snd race1).
Definition race3 := fold_left (step_nth cfg_race) [0;0]%nat (fst race2, dstart cfg_race (DAdd 2 1) :: snd race2).
Definition race4 := fold_left (step_nth cfg_race) [0;0;0;0]%nat (fst race3, dstart cfg_race DDecay :: snd race3).

Theorem decaying_race_refuted :
  exists c s pool log, 0 < f_steps c /\ reach_d c s pool log /\
    log = [(2, 1); (1, 1)] /\
    pool = [ADone true; AAdd 2 2 1 None; ADone true; ADone true] /\
    contains c s 1 = ADone false.
Proof.
  exists cfg_race, (fst race4), (snd race4), [(2, 1); (1, 1)]. split; [reflexivity|]. split; [|repeat split; reflexivity].
  unfold race4. apply reach_steps. cbn [fst snd]. apply (D_call cfg_race _ _ _ DDecay).
  unfold race3. apply reach_steps. cbn [fst snd]. apply (D_call cfg_race _ _ [(1, 1)] (DAdd 2 1)).
  unfold race2. apply reach_steps. cbn [fst snd]. apply (D_call cfg_race _ _ _ DDecay).
  unfold race1. apply reach_steps. cbn [fst snd]. apply (D_call cfg_race _ _ [] (DAdd 1 1)). constructor.
Qed.
Print Assumptions decaying_race_refuted.

(** ** Examples *)
Definition ex_fc : fcfg := FCfg 5 2 2 (fun t => 3 * t + 1) (fun h => h * 7 + 2).
(** Two additions of trace 4 interleaved with an addition and a removal of trace 6. *)
Definition ex_pool_s : filter * list (call * act) :=
  let s1 := fst (act_step ex_fc filter0 (call_add ex_fc 4 1)) in
  (s1, [(CAdd 4 1, AAdd (f_next ex_fc (f_first ex_fc 4)) 1 1 None)]).
Example ex_reach_f : reach_f ex_fc (fst ex_pool_s) (snd ex_pool_s).
Proof. unfold ex_pool_s. cbn [fst snd]. apply (F_step ex_fc filter0 [] (CAdd 4 1) (call_add ex_fc 4 1) []). apply (F_call ex_fc filter0 [] (CAdd 4 1)). constructor. Qed.

Definition ex_w : filter * list (call * act) :=
  let a0 := call_add ex_fc 4 1 in
  let (s1, a1) := act_step ex_fc filter0 a0 in
  let b0 := call_add ex_fc 6 1 in
  let (s2, b1) := act_step ex_fc s1 b0 in
  let (s3, a2) := act_step ex_fc s2 a1 in
  (s3, [(CContains 4, call_contains ex_fc 4); (CAdd 6 1, b1); (CAdd 4 1, a2)]).
Example ex_w_reach : reach_f ex_fc (fst ex_w) (snd ex_w).
Proof.
  unfold ex_w. cbn [call_add act_step fst snd].
  apply (F_call ex_fc _ _ (CContains 4)).
  pose proof (F_call ex_fc _ _ (CAdd 6 1) ex_reach_f) as R1.
  pose proof (F_step ex_fc _ [] (CAdd 6 1) (call_add ex_fc 6 1) [(CAdd 4 1, AAdd (f_next ex_fc (f_first ex_fc 4)) 1 1 None)] R1) as R2.
  exact (F_step ex_fc _ [(CAdd 6 1, _)] (CAdd 4 1) (AAdd (f_next ex_fc (f_first ex_fc 4)) 1 1 None) [] R2).
Qed.
Example ex_w_meets : disciplined (snd ex_w) /\ no_wrap ex_fc (snd ex_w) /\ removed 4 (snd ex_w) < added 4 (snd ex_w).
Proof.
  split; [|split; reflexivity]. intros t. unfold removed, added.
  change (snd ex_w) with [(CContains 4, AContains 13 2); (CAdd 6 1, AAdd 135 1 1 None); (CAdd 4 1, AAdd 653 1 0 None)].
  cbn [map zsum fst snd returned]. change (1 <? 0) with false. change (0 <? 1) with true.
  generalize (4 =? t) (6 =? t). intros [] []; cbn; lia.
Qed.
Example ex_w_contains : contains ex_fc (fst ex_w) 4 = ADone true /\ contains ex_fc (fst ex_w) 7 = ADone false.
Proof. split; reflexivity. Qed.
Example ex_decay : f_ring (decay_n ex_fc 2 (Filter (fun _ => 1) (fun i => i + 1) 7)) 1 = 0.
Proof. reflexivity. Qed.
