(** The invariant of the per-thread caches. *)
From Coq Require Import Permutation.
From Verif Require Import Base ThreadCache ThreadCacheProofs.

(** ** The list of caches *)
Fixpoint dll (nx pv : Z -> Z) (prev : Z) (L : list Z) (h : Z) : Prop :=
  match L with
  | [] => h = 0
  | i :: r => h = i /\ pv i = prev /\ dll nx pv i r (nx i)
  end.

Lemma dll_frame nx pv nx' pv' L : forall prev h, (forall x, In x L -> nx' x = nx x /\ pv' x = pv x) -> dll nx pv prev L h -> dll nx' pv' prev L h.
Proof.
  induction L as [|i L IH]; intros prev h H; cbn [dll]; [auto|]. intros (-> & Hp & Hd).
  destruct (H i (or_introl eq_refl)) as (En & Ep). split; [reflexivity|]. split; [congruence|]. rewrite En. apply IH; [|exact Hd].
  intros x Hx. apply H. right. exact Hx.
Qed.
Lemma dll_head nx pv prev L h : dll nx pv prev L h -> h = 0 \/ In h L.
Proof. destruct L; cbn [dll]; [auto|]. intros (-> & _). right. left. reflexivity. Qed.
Lemma dll_next nx pv L : forall prev h x, dll nx pv prev L h -> In x L -> nx x = 0 \/ In (nx x) L.
Proof.
  induction L as [|i L IH]; intros prev h x; cbn [dll]; [intros _ []|]. intros (-> & _ & Hd) [<-|Hx].
  - destruct (dll_head _ _ _ _ _ Hd); [left; assumption|right; right; assumption].
  - destruct (IH _ _ x Hd Hx); [left; assumption|right; right; assumption].
Qed.
Lemma dll_empty nx pv prev L h : ~ In 0 L -> dll nx pv prev L h -> (h = 0 <-> L = []).
Proof.
  intros Hn. destruct L as [|i L]; cbn [dll]; [intuition|]. intros (-> & _). split; [intros ->; exfalso; apply Hn; left; reflexivity|discriminate].
Qed.
Lemma walk_dll nx pv L : forall f prev h, ~ In 0 L -> (length L <= f)%nat -> dll nx pv prev L h -> walk f nx h = Some L.
Proof.
  induction L as [|i L IH]; intros f prev h Hn Hf; cbn [dll].
  - intros ->. destruct f; reflexivity.
  - intros (-> & _ & Hd). destruct f as [|f]; [cbn in Hf; lia|]. cbn [walk]. destruct (i =? 0) eqn:E; [apply Z.eqb_eq in E; subst; exfalso; apply Hn; left; reflexivity|].
    rewrite (IH f i (nx i)); [reflexivity| |cbn in Hf; lia|exact Hd]. intros X. apply Hn. right. exact X.
Qed.
Lemma dll_push nx pv L h i : i <> 0 -> ~ In i L -> ~ In 0 L -> NoDup L -> dll nx pv 0 L h ->
  dll (upd nx i h) (if h =? 0 then upd pv i 0 else upd (upd pv i 0) h i) 0 (i :: L) i.
Proof.
  intros Hi HiL H0 Nd Hd. cbn [dll]. split; [reflexivity|]. destruct L as [|b r].
  - cbn [dll] in Hd. subst h. cbn [dll]. rewrite Z.eqb_refl, !upd_same. auto.
  - cbn [dll] in Hd. destruct Hd as (-> & Hp & Hd). destruct (b =? 0) eqn:E; [apply Z.eqb_eq in E; subst; exfalso; apply H0; left; reflexivity|].
    assert (Hib : i <> b) by (intros ->; apply HiL; left; reflexivity).
    split; [rewrite upd_other by exact Hib; apply upd_same|]. rewrite upd_same. cbn [dll]. split; [reflexivity|]. split; [apply upd_same|].
    rewrite upd_other by (intros X; apply Hib; symmetry; exact X). apply (dll_frame nx pv); [|exact Hd]. intros x Hx. inversion Nd as [|? ? Hb Nr]; subst.
    assert (x <> i) by (intros ->; apply HiL; right; exact Hx). assert (x <> b) by (intros ->; tauto).
    rewrite upd_other by assumption. split; [reflexivity|]. rewrite !upd_other by assumption. reflexivity.
Qed.
Lemma dll_prev_in nx pv i L2 L1 : forall prev h, dll nx pv prev (L1 ++ i :: L2) h -> L1 <> [] -> In (pv i) L1.
Proof.
  induction L1 as [|a L1 IH]; intros prev h Hd Hn; [congruence|]. cbn [app dll] in Hd. destruct Hd as (_ & _ & Hd). destruct L1 as [|b L1].
  - cbn [app dll] in Hd. destruct Hd as (_ & Hp & _). left. symmetry. exact Hp.
  - right. apply (IH a (nx a) Hd). discriminate.
Qed.
Lemma dll_tail nx pv L2 i : NoDup (i :: L2) -> ~ In 0 L2 -> dll nx pv i L2 (nx i) ->
  dll nx (if nx i =? 0 then pv else upd pv (nx i) (pv i)) (pv i) L2 (nx i).
Proof.
  intros Nd H0 Hd. destruct L2 as [|b r]; [exact Hd|]. cbn [dll] in *. destruct Hd as (-> & Hp & Hd).
  destruct (b =? 0) eqn:E; [apply Z.eqb_eq in E; subst; exfalso; apply H0; left; reflexivity|]. rewrite upd_same. split; [reflexivity|]. split; [reflexivity|].
  apply (dll_frame nx pv); [|exact Hd]. intros x Hx. split; [reflexivity|]. apply upd_other. intros ->. inversion Nd as [|? ? _ Nd']; subst. inversion Nd'; subst. tauto.
Qed.
Lemma dll_delete nx pv i L2 L1 : forall prev h, NoDup (L1 ++ i :: L2) -> ~ In 0 (L1 ++ i :: L2) -> dll nx pv prev (L1 ++ i :: L2) h -> L1 <> [] ->
  dll (upd nx (pv i) (nx i)) (if nx i =? 0 then pv else upd pv (nx i) (pv i)) prev (L1 ++ L2) h.
Proof.
  induction L1 as [|a L1 IH]; intros prev h Nd H0 Hd Hn; [congruence|]. 
  set (pv' := if nx i =? 0 then pv else upd pv (nx i) (pv i)) in *.
  assert (Hni : nx i = 0 \/ In (nx i) L2).
  { assert (Hdi : forall M prev h, dll nx pv prev (M ++ i :: L2) h -> dll nx pv i L2 (nx i)).
    { clear. induction M as [|m M IH]; intros prev h; cbn [app dll]; [tauto|]. intros (_ & _ & H). eapply IH. exact H. }
    apply (dll_head nx pv i). eapply Hdi. exact Hd. }
  cbn [app] in Nd, H0. inversion Nd as [|? ? Na Nd']; subst. cbn [app dll] in Hd |- *. destruct Hd as (-> & Hp & Hd).
  split; [reflexivity|]. split.
  { unfold pv'. destruct (nx i =? 0) eqn:E; [exact Hp|]. apply Z.eqb_neq in E. rewrite upd_other; [exact Hp|]. intros ->. apply Na. rewrite in_app_iff. right. right. tauto. }
  destruct L1 as [|b L1].
  - cbn [app dll] in *. destruct Hd as (Ea & Hpi & Hd). rewrite Hpi, upd_same.
    assert (T := dll_tail nx pv L2 i Nd' ltac:(intros X; apply H0; right; right; exact X) Hd). rewrite Hpi in T.
    apply (dll_frame nx (if nx i =? 0 then pv else upd pv (nx i) a)); [|exact T].
    intros x Hx. split; [apply upd_other; intros ->; apply Na; right; exact Hx|unfold pv'; rewrite Hpi; reflexivity].
  - assert (Hin : In (pv i) (b :: L1)) by (apply (dll_prev_in nx pv i L2 (b :: L1) a (nx a) Hd); discriminate).
    rewrite upd_other; [|intros ->; apply Na; rewrite in_app_iff; left; exact Hin].
    apply IH; [exact Nd'|intros X; apply H0; right; exact X|exact Hd|discriminate].
Qed.

(** ** Sums of max_size_ *)
Definition maxsum (cs : Z -> tcache) (L : list Z) : Z := zsum (map (fun i => c_max (cs i)) L).
Lemma maxsum_ext cs cs' L : (forall i, In i L -> c_max (cs' i) = c_max (cs i)) -> maxsum cs' L = maxsum cs L.
Proof. intros H. unfold maxsum. f_equal. apply map_ext_in. exact H. Qed.
Lemma maxsum_upd cs L i c : NoDup L -> In i L -> maxsum (upd cs i c) L = maxsum cs L + c_max c - c_max (cs i).
Proof.
  intros Nd Hi. unfold maxsum. destruct (zsum_map_split (fun i => c_max (cs i)) L i Nd Hi) as (r & E & H). rewrite E.
  rewrite (H (fun j => c_max (upd cs i c j))); [rewrite upd_same; lia|]. intros j Hj. rewrite upd_other by exact Hj. reflexivity.
Qed.
Lemma maxsum_out cs L i c : ~ In i L -> maxsum (upd cs i c) L = maxsum cs L.
Proof. intros Hi. apply maxsum_ext. intros j Hj. rewrite upd_other; [reflexivity|]. intros ->. tauto. Qed.
Lemma maxsum_cons cs i L : maxsum cs (i :: L) = c_max (cs i) + maxsum cs L. Proof. reflexivity. Qed.

(** ** IncreaseCacheLimitLocked *)
Definition grown (p : tpar) (g : tstate) (L : list Z) (this : Z) (g' : tstate) : Prop :=
  exists s', (s' = 0 \/ In s' L) /\
    ((0 < t_unclaimed g /\ s' = t_steal g /\ g' = add_max (set_unclaimed g (t_unclaimed g - q_steal p)) this (q_steal p)) \/
     (t_unclaimed g <= 0 /\ g' = set_steal g s') \/
     (t_unclaimed g <= 0 /\ exists s, In s L /\ s <> this /\ q_min p < c_max (t_cache g s) /\
        g' = set_steal (add_max (add_max g s (- q_steal p)) this (q_steal p)) s')).

Lemma set_steal_steal g a b : set_steal (set_steal g a) b = set_steal g b. Proof. reflexivity. Qed.
Lemma steal_loop_spec p L this n : forall g pv, ~ In 0 L -> L <> [] -> dll (t_next g) pv 0 L (t_heaps g) -> (t_steal g = 0 \/ In (t_steal g) L) ->
  exists g' s', steal_loop p n g this = Some g' /\ (s' = 0 \/ In s' L) /\
    (g' = set_steal g s' \/ exists s, In s L /\ s <> this /\ q_min p < c_max (t_cache g s) /\
        g' = set_steal (add_max (add_max g s (- q_steal p)) this (q_steal p)) s').
Proof.
  induction n as [|n IH]; intros g pv H0 Hn Hd Hs; cbn [steal_loop].
  - exists g, (t_steal g). split; [reflexivity|]. split; [exact Hs|]. left. destruct g; reflexivity.
  - set (s := if t_steal g =? 0 then t_heaps g else t_steal g).
    assert (Hin : In s L).
    { unfold s. destruct (t_steal g =? 0) eqn:E; [|apply Z.eqb_neq in E; tauto]. destruct (dll_head _ _ _ _ _ Hd) as [X|X]; [|exact X].
      apply (dll_empty _ _ _ _ _ H0 Hd) in X. congruence. }
    destruct (s =? 0) eqn:E0; [apply Z.eqb_eq in E0; rewrite E0 in Hin; tauto|].
    destruct (dll_next _ _ _ _ _ s Hd Hin) as [Hnx|Hnx].
    + assert (Hs' : t_next g s = 0 \/ In (t_next g s) L) by (left; exact Hnx).
      destruct ((s =? this) || (c_max (t_cache g s) <=? q_min p)) eqn:E.
      * destruct (IH (set_steal g (t_next g s)) pv H0 Hn Hd Hs') as (g' & s' & A & B & C). exists g', s'. split; [exact A|]. split; [exact B|]. exact C.
      * apply Bool.orb_false_iff in E. destruct E as (E1 & E2). apply Z.eqb_neq in E1. apply Z.leb_gt in E2.
        eexists. exists (t_next g s). split; [reflexivity|]. split; [exact Hs'|]. right. exists s. auto.
    + assert (Hs' : t_next g s = 0 \/ In (t_next g s) L) by (right; exact Hnx).
      destruct ((s =? this) || (c_max (t_cache g s) <=? q_min p)) eqn:E.
      * destruct (IH (set_steal g (t_next g s)) pv H0 Hn Hd Hs') as (g' & s' & A & B & C). exists g', s'. split; [exact A|]. split; [exact B|]. exact C.
      * apply Bool.orb_false_iff in E. destruct E as (E1 & E2). apply Z.eqb_neq in E1. apply Z.leb_gt in E2.
        eexists. exists (t_next g s). split; [reflexivity|]. split; [exact Hs'|]. right. exists s. auto.
Qed.
Lemma increase_spec p g L this pv : ~ In 0 L -> (t_unclaimed g <= 0 -> L <> []) -> dll (t_next g) pv 0 L (t_heaps g) -> (t_steal g = 0 \/ In (t_steal g) L) ->
  exists g', increase_limit p g this = Some g' /\ grown p g L this g'.
Proof.
  intros H0 Hn Hd Hs. unfold increase_limit. destruct (0 <? t_unclaimed g) eqn:E.
  - apply Z.ltb_lt in E. eexists. split; [reflexivity|]. exists (t_steal g). split; [exact Hs|]. left. auto.
  - apply Z.ltb_ge in E. destruct (steal_loop_spec p L this 10 g pv H0 (Hn E) Hd Hs) as (g' & s' & A & B & C).
    exists g'. split; [exact A|]. exists s'. split; [exact B|]. right. destruct C as [C|C]; [left|right]; auto.
Qed.

(** ** The invariant *)
Definition pc_at (x : tpc) : option Z := match x with Slow k => Some k | _ => None end.
Record tinv (p : tpar) (tr : list tev) (g : tstate) (L : list Z) : Prop := {
  v_nodup : NoDup L; v_no0 : ~ In 0 L;
  v_dll : dll (t_next g) (t_prev g) 0 L (t_heaps g);
  v_count : t_count g = Z.of_nat (length L);
  v_steal : t_steal g = 0 \/ In (t_steal g) L;
  v_pcs : forall i, In i L <-> t_pc g i <> Absent;
  v_slow : forall i k, t_pc g i = Slow k -> q_used p k;
  v_space : t_unclaimed g + maxsum (t_cache g) L = t_overall g;
  v_overall : q_min p <= t_overall g;
  v_max : forall i, In i L -> 0 <= c_max (t_cache g i);
  v_ok : forall i, In i L -> cache_ok p (pc_at (t_pc g i)) (t_cache g i);
  v_out : forall i, In i L -> forall k, ~ (0 <= k < q_classes p) -> objs (t_cache g i) k = [];
  v_size : forall i, In i L -> c_size (t_cache g i) = bytes p (t_cache g i);
  v_dying : forall i, t_pc g i = Dying -> forall k, objs (t_cache g i) k = [];
  v_evs : Forall (ev_ok p) tr;
  v_cons : forall k, Permutation (freed k tr ++ fetched k tr) (alloced k tr ++ returned k tr ++ flat_map (fun i => objs (t_cache g i) k) L) }.

(** A step of one thread on its own lists. *)
Lemma local_step p tr g L i c e x : tinv p tr g L -> t_pc g i <> Absent -> lrel p (t_cache g i) e c ->
  (forall k, ~ (0 <= k < q_classes p) -> objs c k = []) -> cache_ok p (pc_at x) c -> x <> Absent -> (forall k, x = Slow k -> q_used p k) -> (x = Dying -> forall k, objs c k = []) ->
  tinv p (tr ++ e) (set_cache g i c x) L.
Proof.
  intros I Hi R Ho Hc Hx Hs Hdy. destruct R as [R1 R2 R3 R4]. pose proof (proj2 (v_pcs _ _ _ _ I i) Hi) as Hin.
  constructor; cbn [set_cache t_cache t_pc t_next t_prev t_heaps t_count t_steal t_unclaimed t_overall t_per]; try apply I.
  - intros j. destruct (Z.eq_dec j i) as [->|Hj]; [rewrite upd_same; tauto|rewrite upd_other by exact Hj; apply I].
  - intros j k. destruct (Z.eq_dec j i) as [->|Hj]; [rewrite upd_same; apply Hs|rewrite upd_other by exact Hj; apply I].
  - rewrite maxsum_upd; [|apply I|exact Hin]. rewrite R3. pose proof (v_space _ _ _ _ I). lia.
  - intros j. destruct (Z.eq_dec j i) as [->|Hj]; [rewrite upd_same, R3; apply I|rewrite upd_other by exact Hj; apply I].
  - intros j. destruct (Z.eq_dec j i) as [->|Hj]; [rewrite !upd_same; intros _; exact Hc|rewrite !upd_other by exact Hj; apply I].
  - intros j. destruct (Z.eq_dec j i) as [->|Hj]; [rewrite !upd_same; intros _; exact Ho|rewrite !upd_other by exact Hj; apply I].
  - intros j. destruct (Z.eq_dec j i) as [->|Hj]; [rewrite upd_same; intros Hj; pose proof (v_size _ _ _ _ I i Hj); lia|rewrite upd_other by exact Hj; apply I].
  - intros j. destruct (Z.eq_dec j i) as [->|Hj]; [rewrite !upd_same; exact Hdy|rewrite !upd_other by exact Hj; apply I].
  - apply Forall_app. split; [apply I|exact R4].
  - intros k. pose proof (v_cons _ _ _ _ I k) as A. specialize (R1 k).
    destruct (flat_map_split (fun j => objs (t_cache g j) k) L i (v_nodup _ _ _ _ I) Hin) as (R & E & H).
    specialize (H (fun j => objs (upd (t_cache g) i c j) k)). cbn beta in H. rewrite upd_same in H.
    assert (H' := H ltac:(intros j Hj; rewrite upd_other by exact Hj; reflexivity)). clear H.
    unfold freed, fetched, alloced, returned in *. rewrite !flat_map_app. clear - A R1 E H'.
    remember (flat_map (fun i0 : Z => objs (t_cache g i0) k) L) as X. remember (flat_map (fun j : Z => objs (upd (t_cache g) i c j) k) L) as Y. clear HeqX HeqY. pcnt.
Qed.

Lemma out_kept p c e c' k : lrel p c e c' -> ~ (0 <= k < q_classes p) -> objs c k = [] -> objs c' k = [].
Proof.
  intros [R1 _ _ R4] Hk H0. specialize (R1 k). rewrite H0 in R1.
  assert (N : freed k e = [] /\ fetched k e = []).
  { clear - R4 Hk. unfold freed, fetched. induction e as [|x e IH]; [auto|]. inversion R4; subst. destruct (IH H2) as (A & B). cbn [flat_map]. rewrite A, B.
    destruct x; cbn [ev_freed ev_fetched ev_ok] in *; auto; destruct (k0 =? k) eqn:E; auto; apply Z.eqb_eq in E; subst; exfalso; apply Hk; unfold q_used in *; tauto. }
  destruct N as (N1 & N2). rewrite N1, N2 in R1. cbn [app] in R1. apply Permutation_nil in R1. apply app_eq_nil in R1. tauto.
Qed.

Lemma nil_absent i g p tr L : tinv p tr g L -> t_pc g i = Absent -> ~ In i L.
Proof. intros I E Hi. apply (v_pcs _ _ _ _ I) in Hi. congruence. Qed.

(** New limits: only max_size_ of some caches, the space left and the next cache to steal from change. *)
Lemma limits_step p tr g L g' : tinv p tr g L ->
  t_pc g' = t_pc g -> t_next g' = t_next g -> t_prev g' = t_prev g -> t_heaps g' = t_heaps g -> t_count g' = t_count g -> t_overall g' = t_overall g ->
  (t_steal g' = 0 \/ In (t_steal g') L) -> (forall i, c_list (t_cache g' i) = c_list (t_cache g i) /\ c_size (t_cache g' i) = c_size (t_cache g i)) ->
  t_unclaimed g' + maxsum (t_cache g') L = t_overall g -> (forall i, In i L -> 0 <= c_max (t_cache g' i)) -> tinv p tr g' L.
Proof.
  intros I E1 E2 E3 E4 E5 E6 Hs Hc Hm Hx.
  constructor; rewrite ?E1, ?E2, ?E3, ?E4, ?E5, ?E6; try apply I; try assumption.
  - intros i Hi k Hk. unfold list_ok. destruct (Hc i) as (-> & _). exact (v_ok _ _ _ _ I i Hi k Hk).
  - intros i Hi k Hk. unfold objs. destruct (Hc i) as (-> & _). exact (v_out _ _ _ _ I i Hi k Hk).
  - intros i Hi. unfold bytes. destruct (Hc i) as (-> & ->). exact (v_size _ _ _ _ I i Hi).
  - intros i Hi k. unfold objs. destruct (Hc i) as (-> & _). exact (v_dying _ _ _ _ I i Hi k).
  - intros k. rewrite (flat_map_ext _ (fun i => objs (t_cache g i) k)); [apply I|]. intros i. unfold objs. destruct (Hc i) as (-> & _). reflexivity.
Qed.

Lemma add_max_list g i d j : c_list (t_cache (add_max g i d) j) = c_list (t_cache g j) /\ c_size (t_cache (add_max g i d) j) = c_size (t_cache g j).
Proof. unfold add_max. cbn [t_cache]. destruct (Z.eq_dec j i) as [->|Hj]; [rewrite upd_same; auto|rewrite upd_other by exact Hj; auto]. Qed.
Lemma add_max_max g i d j : c_max (t_cache (add_max g i d) j) = c_max (t_cache g j) + (if j =? i then d else 0).
Proof. unfold add_max. cbn [t_cache]. destruct (j =? i) eqn:E; [apply Z.eqb_eq in E; subst; rewrite upd_same; reflexivity|apply Z.eqb_neq in E; rewrite upd_other by exact E; lia]. Qed.
Lemma add_max_sum g i d L : NoDup L -> maxsum (t_cache (add_max g i d)) L = maxsum (t_cache g) L + (if in_dec Z.eq_dec i L then d else 0).
Proof.
  intros Nd. destruct (in_dec Z.eq_dec i L) as [Hi|Hi].
  - unfold add_max. cbn [t_cache]. rewrite maxsum_upd by assumption. cbn [c_max]. lia.
  - unfold add_max. cbn [t_cache]. rewrite maxsum_out by assumption. lia.
Qed.

(** What [grown] does to the limits of the listed caches and of [this]. *)
Lemma grown_facts p g L this g' : tpar_ok p -> NoDup L -> (forall i, In i L -> 0 <= c_max (t_cache g i)) -> 0 <= c_max (t_cache g this) -> grown p g L this g' ->
  t_pc g' = t_pc g /\ t_next g' = t_next g /\ t_prev g' = t_prev g /\ t_heaps g' = t_heaps g /\ t_count g' = t_count g /\ t_overall g' = t_overall g /\
  ((t_steal g = 0 \/ In (t_steal g) L) -> t_steal g' = 0 \/ In (t_steal g') L) /\
  (forall i, c_list (t_cache g' i) = c_list (t_cache g i) /\ c_size (t_cache g' i) = c_size (t_cache g i)) /\
  (forall i, In i L -> 0 <= c_max (t_cache g' i)) /\
  (let d := c_max (t_cache g' this) - c_max (t_cache g this) in
   0 <= d /\ t_unclaimed g' + maxsum (t_cache g') L = t_unclaimed g + maxsum (t_cache g) L - (if in_dec Z.eq_dec this L then 0 else d) /\
   (d = 0 -> t_unclaimed g' = t_unclaimed g /\ t_unclaimed g <= 0)) /\
  (L = [] -> t_unclaimed g <= 0 -> t_steal g' = 0).
Proof.
  intros (_ & _ & Hst & _) Nd Hm Ht (s' & Hs' & [(Hu & Es & ->)|[(Hu & ->)|(Hu & s & Hin & Hne & Hmx & ->)]]).
  - repeat (split; [reflexivity|]). split; [intros _; cbn [add_max set_unclaimed t_steal]; rewrite <- Es; exact Hs'|]. split; [intros i; apply (add_max_list (set_unclaimed g (t_unclaimed g - q_steal p)))|].
    split. { intros i Hi. rewrite add_max_max. cbn [set_unclaimed t_cache]. specialize (Hm i Hi). destruct (i =? this); lia. }
    cbn zeta. rewrite add_max_max, Z.eqb_refl, add_max_sum by exact Nd. cbn [add_max set_unclaimed t_cache t_unclaimed]. split.
    + split; [lia|]. split; [destruct (in_dec Z.eq_dec this L); lia|lia].
    + intros; lia.
  - repeat (split; [reflexivity|]). split; [intros _; exact Hs'|]. split; [auto|]. split; [exact Hm|]. cbn zeta. cbn [set_steal t_cache t_unclaimed t_steal].
    split; [split; [lia|]; split; [destruct (in_dec Z.eq_dec this L); lia|lia]|]. intros -> _. destruct Hs' as [Hs'|[]]. exact Hs'.
  - repeat (split; [reflexivity|]). split; [intros _; exact Hs'|]. 
    split. { intros i. change (t_cache (set_steal ?x s')) with (t_cache x). destruct (add_max_list (add_max g s (- q_steal p)) this (q_steal p) i) as (-> & ->). apply add_max_list. }
    change (t_cache (set_steal ?x s')) with (t_cache x). change (t_unclaimed (set_steal ?x s')) with (t_unclaimed x).
    split. { intros i Hi. rewrite !add_max_max. specialize (Hm i Hi). destruct (i =? this); destruct (i =? s) eqn:E; try lia. all: apply Z.eqb_eq in E; subst i; lia. }
    cbn zeta. rewrite !add_max_max, Z.eqb_refl, !add_max_sum by exact Nd. change (t_unclaimed (add_max ?x _ _)) with (t_unclaimed x).
    destruct (this =? s) eqn:E; [apply Z.eqb_eq in E; congruence|]. destruct (in_dec Z.eq_dec s L) as [_|X]; [|tauto].
    change (t_unclaimed (add_max g s (- q_steal p))) with (t_unclaimed g).
    split; [|intros ->; destruct Hin]. split; [lia|]. split; [destruct (in_dec Z.eq_dec this L); lia|lia].
Qed.

Lemma fresh_cache_ok p : tpar_ok p -> cache_ok p None (TCa (fun _ => fl_init) 0 0).
Proof. intros _ k _. cbn [c_list]. unfold list_ok, fl_init, fl_len, kMaxDynamicFreeListLength, kMaxOverages. cbn [fl_objs fl_low fl_max fl_over]. rewrite len_nil. repeat apply conj; try lia; try reflexivity. Qed.
Lemma zsum_zero (f : Z -> Z) ks : (forall k, f k = 0) -> zsum (map f ks) = 0.
Proof. intros H. induction ks as [|k ks IH]; cbn [map zsum]; [reflexivity|]. rewrite H. lia. Qed.

(** A new cache *)
Lemma new_step p tr g L i : tpar_ok p -> tinv p tr g L -> i <> 0 -> t_pc g i = Absent ->
  exists g', new_heap p g i = Some g' /\ tinv p tr g' (i :: L).
Proof.
  intros Hp I Hi0 Ha. pose proof (nil_absent _ _ _ _ _ I Ha) as HiL. unfold new_heap, construct.
  set (ga := TS (upd (t_cache g) i (TCa (fun _ => fl_init) 0 0)) _ _ _ _ _ _ _ _ _).
  assert (Dl : dll (t_next ga) (t_prev ga) 0 L (t_heaps ga)).
  { apply (dll_frame (t_next g) (t_prev g)); [|apply I]. intros x Hx. cbn [ga t_next t_prev]. assert (x <> i) by (intros ->; tauto). rewrite !upd_other by assumption. auto. }
  assert (Hm : forall j, In j L -> 0 <= c_max (t_cache ga j)).
  { intros j Hj. cbn [ga t_cache]. rewrite upd_other by (intros ->; tauto). apply I. exact Hj. }
  assert (Hmi : c_max (t_cache ga i) = 0) by (cbn [ga t_cache]; rewrite upd_same; reflexivity).
  assert (Hsp : t_unclaimed ga + maxsum (t_cache ga) L = t_overall g).
  { cbn [ga t_cache t_unclaimed]. rewrite maxsum_out by exact HiL. apply I. }
  assert (Hne : t_unclaimed ga <= 0 -> L <> []).
  { intros Hu ->. unfold maxsum in Hsp. cbn [map zsum] in Hsp. pose proof (v_overall _ _ _ _ I). destruct Hp as (_ & _ & Hp & _). lia. }
  destruct (increase_spec p ga L i (t_prev ga) (v_no0 _ _ _ _ I) Hne Dl (v_steal _ _ _ _ I)) as (g1 & -> & Gr). cbn [obind].
  apply grown_facts in Gr; [|exact Hp|apply I|exact Hm|lia].
  destruct Gr as (G1 & G2 & G3 & G4 & G5 & G6 & G7 & G8 & G9 & (Gd & Gs & Gz) & G10). specialize (G7 (v_steal _ _ _ _ I)).
  destruct (in_dec Z.eq_dec i L) as [X|_]; [tauto|].
  set (g2 := if c_max (t_cache g1 i) =? 0 then add_max (set_unclaimed g1 (t_unclaimed g1 - q_min p)) i (q_min p) else g1).
  assert (E2 : (if c_max (t_cache g1 i) =? 0 then Some (add_max (set_unclaimed g1 (t_unclaimed g1 - q_min p)) i (q_min p)) else Some g1) = Some g2).
  { unfold g2. destruct (c_max (t_cache g1 i) =? 0); reflexivity. }
  rewrite E2. clear E2. cbn [obind].
  assert (F : t_pc g2 = t_pc g /\ t_next g2 = t_next ga /\ t_prev g2 = t_prev ga /\ t_heaps g2 = t_heaps g /\ t_count g2 = t_count g /\ t_overall g2 = t_overall g /\ t_steal g2 = t_steal g1).
  { unfold g2. destruct (c_max (t_cache g1 i) =? 0); cbn [add_max set_unclaimed t_pc t_next t_prev t_heaps t_count t_overall t_steal]; auto 10. }
  destruct F as (F1 & F2 & F3 & F4 & F5 & F6 & F7).
  assert (Fc : forall j, c_list (t_cache g2 j) = c_list (t_cache ga j) /\ c_size (t_cache g2 j) = c_size (t_cache ga j)).
  { intros j. destruct (G8 j) as (<- & <-). unfold g2. destruct (c_max (t_cache g1 i) =? 0); [|auto]. apply (add_max_list (set_unclaimed g1 (t_unclaimed g1 - q_min p))). }
  assert (Fm : forall j, In j L -> 0 <= c_max (t_cache g2 j)).
  { intros j Hj. unfold g2. destruct (c_max (t_cache g1 i) =? 0); [|apply G9; exact Hj]. rewrite add_max_max. cbn [set_unclaimed t_cache]. specialize (G9 j Hj). destruct Hp as (_ & _ & Hp & _). destruct (j =? i); lia. }
  assert (Fi : 0 <= c_max (t_cache g2 i) /\ t_unclaimed g2 + maxsum (t_cache g2) L + c_max (t_cache g2 i) = t_overall g).
  { destruct Hp as (_ & _ & Hp & _). unfold g2. destruct (c_max (t_cache g1 i) =? 0) eqn:E.
    - apply Z.eqb_eq in E. rewrite add_max_max, Z.eqb_refl, add_max_sum by apply I. destruct (in_dec Z.eq_dec i L) as [X|_]; [tauto|]. cbn [add_max set_unclaimed t_cache t_unclaimed]. cbn zeta in *. lia.
    - apply Z.eqb_neq in E. lia. }
  destruct (t_heaps g2 =? 0) eqn:Eh.
  - eexists. split; [reflexivity|]. rewrite F4 in Eh. assert (EL : L = []) by (apply Z.eqb_eq in Eh; apply (dll_empty _ _ _ _ _ (v_no0 _ _ _ _ I) (v_dll _ _ _ _ I)); exact Eh).
    subst L. apply Z.eqb_eq in Eh.
    constructor; cbn [t_cache t_pc t_next t_prev t_heaps t_count t_steal t_unclaimed t_overall t_per].
    + constructor; [intros []|constructor].
    + intros [X|[]]. congruence.
    + cbn [dll]. rewrite F4, Eh, !upd_same. auto.
    + rewrite F5, (v_count _ _ _ _ I). reflexivity.
    + right. left. reflexivity.
    + intros j. destruct (Z.eq_dec j i) as [->|Hj]; [rewrite upd_same; split; [discriminate|left; reflexivity]|]. rewrite upd_other by exact Hj. rewrite F1. cbn [In]. pose proof (v_pcs _ _ _ _ I j) as X. cbn [In] in X. intuition congruence.
    + intros j k. destruct (Z.eq_dec j i) as [->|Hj]; [rewrite upd_same; discriminate|]. rewrite upd_other by exact Hj. rewrite F1. apply I.
    + rewrite maxsum_cons, F6. destruct Fi as (_ & Fi). lia.
    + rewrite F6. apply I.
    + intros j [<-|[]]. tauto.
    + intros j [<-|[]]. rewrite upd_same. cbn [pc_at]. intros k Hk. destruct (Fc i) as (-> & _). cbn [ga t_cache]. rewrite upd_same. exact (fresh_cache_ok p Hp k Hk).
    + intros j [<-|[]] k _. unfold objs. destruct (Fc i) as (-> & _). cbn [ga t_cache]. rewrite upd_same. reflexivity.
    + intros j [<-|[]]. unfold bytes. destruct (Fc i) as (-> & ->). cbn [ga t_cache]. rewrite upd_same. cbn [c_size c_list]. symmetry. apply zsum_zero. intros k. unfold fl_len, fl_init. cbn [fl_objs]. rewrite len_nil. lia.
    + intros j. destruct (Z.eq_dec j i) as [->|Hj]; [rewrite upd_same; discriminate|]. rewrite upd_other by exact Hj. rewrite F1. intros X. exfalso. assert (t_pc g j <> Absent) as Y by congruence. apply (v_pcs _ _ _ _ I) in Y. destruct Y.
    + apply I.
    + intros k. rewrite (v_cons _ _ _ _ I k). cbn [flat_map]. unfold objs. destruct (Fc i) as (-> & _). cbn [ga t_cache]. rewrite upd_same. reflexivity.
  - eexists. split; [reflexivity|]. rewrite F4 in Eh. 
    constructor; cbn [t_cache t_pc t_next t_prev t_heaps t_count t_steal t_unclaimed t_overall t_per].
    + constructor; [exact HiL|apply I].
    + intros [X|X]; [congruence|]. apply (v_no0 _ _ _ _ I). exact X.
    + rewrite F4, F2, F3. assert (X := dll_push (t_next ga) (t_prev ga) L (t_heaps g) i Hi0 HiL (v_no0 _ _ _ _ I) (v_nodup _ _ _ _ I) Dl). rewrite Eh in X. exact X.
    + rewrite F5, (v_count _ _ _ _ I). cbn [length]. lia.
    + rewrite F7. destruct G7 as [G7|G7]; [left; exact G7|right; right; exact G7].
    + intros j. destruct (Z.eq_dec j i) as [->|Hj]; [rewrite upd_same; split; [discriminate|left; reflexivity]|]. rewrite upd_other by exact Hj. rewrite F1. cbn [In]. pose proof (v_pcs _ _ _ _ I j) as X. intuition congruence.
    + intros j k. destruct (Z.eq_dec j i) as [->|Hj]; [rewrite upd_same; discriminate|]. rewrite upd_other by exact Hj. rewrite F1. apply I.
    + rewrite maxsum_cons, F6. destruct Fi as (_ & Fi). lia.
    + rewrite F6. apply I.
    + intros j [<-|Hj]; [tauto|apply Fm; exact Hj].
    + intros j [<-|Hj] k Hk.
      * rewrite upd_same. cbn [pc_at]. destruct (Fc i) as (-> & _). cbn [ga t_cache]. rewrite upd_same. exact (fresh_cache_ok p Hp k Hk).
      * assert (j <> i) by (intros ->; tauto). rewrite upd_other by assumption. rewrite F1. destruct (Fc j) as (-> & _). cbn [ga t_cache]. rewrite upd_other by assumption. exact (v_ok _ _ _ _ I j Hj k Hk).
    + intros j [<-|Hj] k Hk; unfold objs.
      * destruct (Fc i) as (-> & _). cbn [ga t_cache]. rewrite upd_same. reflexivity.
      * assert (j <> i) by (intros ->; tauto). destruct (Fc j) as (-> & _). cbn [ga t_cache]. rewrite upd_other by assumption. exact (v_out _ _ _ _ I j Hj k Hk).
    + intros j [<-|Hj]; unfold bytes.
      * destruct (Fc i) as (-> & ->). cbn [ga t_cache]. rewrite upd_same. cbn [c_size c_list]. symmetry. apply zsum_zero. intros k. unfold fl_len, fl_init. cbn [fl_objs]. rewrite len_nil. lia.
      * assert (j <> i) by (intros ->; tauto). destruct (Fc j) as (-> & ->). cbn [ga t_cache]. rewrite upd_other by assumption. exact (v_size _ _ _ _ I j Hj).
    + intros j. destruct (Z.eq_dec j i) as [->|Hj]; [rewrite upd_same; discriminate|]. rewrite upd_other by exact Hj. rewrite F1. intros Hd k. unfold objs.
      destruct (Fc j) as (-> & _). cbn [ga t_cache]. rewrite upd_other by assumption. exact (v_dying _ _ _ _ I j Hd k).
    + apply I.
    + intros k. rewrite (v_cons _ _ _ _ I k). cbn [flat_map]. 
      assert (E1 : objs (t_cache g2 i) k = []) by (unfold objs; destruct (Fc i) as (-> & _); cbn [ga t_cache]; rewrite upd_same; reflexivity).
      assert (E3 : flat_map (fun i0 => objs (t_cache g2 i0) k) L = flat_map (fun i0 => objs (t_cache g i0) k) L).
      { clear - HiL Fc. induction L as [|a L IH]; [reflexivity|]. cbn [flat_map]. rewrite IH by (intros X; apply HiL; right; exact X). f_equal. unfold objs. destruct (Fc a) as (-> & _). subst ga. cbn [t_cache]. rewrite upd_other; [reflexivity|]. intros ->. apply HiL. left. reflexivity. }
      rewrite E1, E3. reflexivity.
Qed.

(** DeleteCache *)
Lemma delete_step p tr g L i : tinv p tr g L -> t_pc g i = Dying ->
  exists L1 L2, L = L1 ++ i :: L2 /\ tinv p tr (delete_cache g i) (L1 ++ L2).
Proof.
  intros I Hd. assert (Hin : In i L) by (apply (v_pcs _ _ _ _ I); congruence).
  apply in_split in Hin. destruct Hin as (L1 & L2 & ->). exists L1, L2. split; [reflexivity|].
  pose proof (v_nodup _ _ _ _ I) as Nd. pose proof (v_no0 _ _ _ _ I) as N0. pose proof (v_dll _ _ _ _ I) as D.
  pose proof (NoDup_remove_1 _ _ _ Nd) as Nd'. pose proof (NoDup_remove_2 _ _ _ Nd) as Ni.
  assert (Hi0 : i <> 0) by (intros ->; apply N0; rewrite in_app_iff; right; left; reflexivity).
  assert (N0' : ~ In 0 (L1 ++ L2)) by (intros X; apply N0; rewrite in_app_iff in *; cbn [In]; tauto).
  assert (Dt : dll (t_next g) (t_prev g) i L2 (t_next g i)).
  { clear - D. revert D. generalize 0 at 1. generalize (t_heaps g). induction L1 as [|m M IH]; intros h prev; cbn [app dll]; [tauto|]. intros (_ & _ & H). eapply IH. exact H. }
  assert (Hnx : t_next g i = 0 \/ In (t_next g i) L2) by (exact (dll_head _ _ _ _ _ Dt)).
  assert (Hni : t_next g i <> i) by (intros X; rewrite X in Hnx; destruct Hnx as [Y|Y]; [congruence|apply Ni; rewrite in_app_iff; tauto]).
  unfold delete_cache. set (pv := if t_next g i =? 0 then t_prev g else upd (t_prev g) (t_next g i) (t_prev g i)).
  assert (Epv : pv i = t_prev g i). { unfold pv. destruct (t_next g i =? 0); [reflexivity|]. apply upd_other. congruence. }
  rewrite Epv. set (nx := if t_prev g i =? 0 then t_next g else upd (t_next g) (t_prev g i) (t_next g i)).
  assert (Hpv : L1 = [] /\ t_prev g i = 0 /\ t_heaps g = i \/ L1 <> [] /\ In (t_prev g i) L1 /\ t_heaps g <> i).
  { destruct L1 as [|a L1]; [left|right].
    - cbn [app dll] in D. tauto.
    - split; [discriminate|]. split; [apply (dll_prev_in _ _ i L2 (a :: L1) _ _ D); discriminate|]. cbn [app dll] in D. destruct D as (-> & _). intros ->. apply Ni. left. reflexivity. }
  assert (Enx : nx i = t_next g i).
  { unfold nx. destruct (t_prev g i =? 0) eqn:E; [reflexivity|]. apply upd_other. destruct Hpv as [(_ & X & _)|(_ & X & _)]; [apply Z.eqb_neq in E; congruence|].
    intros Y. rewrite <- Y in X. apply Ni. rewrite in_app_iff. tauto. }
  rewrite Enx. set (heaps := if t_heaps g =? i then t_next g i else t_heaps g).
  assert (D' : dll nx pv 0 (L1 ++ L2) heaps).
  { destruct Hpv as [(-> & Hp0 & Hh)|(Hne & Hp & Hh)].
    - unfold heaps, nx, pv. rewrite Hh, Z.eqb_refl. rewrite Hp0. cbn [app Z.eqb]. pose proof (dll_tail (t_next g) (t_prev g) L2 i Nd ltac:(intros X; apply N0'; exact X) Dt) as T. rewrite Hp0 in T. exact T.
    - unfold heaps. destruct (t_heaps g =? i) eqn:E; [apply Z.eqb_eq in E; congruence|]. unfold nx.
      destruct (t_prev g i =? 0) eqn:E0; [apply Z.eqb_eq in E0; exfalso; apply N0'; rewrite in_app_iff; left; rewrite <- E0; exact Hp|].
      apply dll_delete; assumption. }
  assert (Rest : forall j, In j (L1 ++ L2) -> In j (L1 ++ i :: L2) /\ j <> i).
  { intros j Hj. split; [rewrite in_app_iff in *; cbn [In]; tauto|]. intros ->. tauto. }
  constructor; cbn [t_cache t_pc t_next t_prev t_heaps t_count t_steal t_unclaimed t_overall t_per].
  - exact Nd'.
  - exact N0'.
  - exact D'.
  - rewrite (v_count _ _ _ _ I). rewrite !app_length. cbn [length]. lia.
  - pose proof (v_steal _ _ _ _ I) as S. set (s := if t_steal g =? i then t_next g i else t_steal g).
    assert (Ss : s = 0 \/ In s (L1 ++ L2)).
    { unfold s. destruct (t_steal g =? i) eqn:E; [destruct Hnx as [X|X]; [left; exact X|right; rewrite in_app_iff; tauto]|]. apply Z.eqb_neq in E. rewrite in_app_iff in *. cbn [In] in S. intuition congruence. }
    destruct (s =? 0) eqn:E0; [|apply Z.eqb_neq in E0; tauto]. exact (dll_head _ _ _ _ _ D').
  - intros j. destruct (Z.eq_dec j i) as [->|Hj]; [rewrite upd_same; tauto|]. rewrite upd_other by exact Hj. rewrite <- (v_pcs _ _ _ _ I j). rewrite !in_app_iff. cbn [In]. intuition congruence.
  - intros j k. destruct (Z.eq_dec j i) as [->|Hj]; [rewrite upd_same; discriminate|]. rewrite upd_other by exact Hj. apply I.
  - pose proof (v_space _ _ _ _ I) as S. unfold maxsum in *. rewrite map_app, zsum_app in *. cbn [map zsum] in S. lia.
  - apply I.
  - intros j Hj. apply I. apply Rest. exact Hj.
  - intros j Hj. destruct (Rest j Hj) as (Hj1 & Hj2). rewrite upd_other by exact Hj2. apply I. exact Hj1.
  - intros j Hj. apply I. apply Rest. exact Hj.
  - intros j Hj. apply I. apply Rest. exact Hj.
  - intros j. destruct (Z.eq_dec j i) as [->|Hj]; [rewrite upd_same; discriminate|]. rewrite upd_other by exact Hj. apply I.
  - apply I.
  - intros k. rewrite (v_cons _ _ _ _ I k). rewrite !flat_map_app. cbn [flat_map]. rewrite (v_dying _ _ _ _ I i Hd k). reflexivity.
Qed.

(** RecomputePerThreadCacheSize *)
Lemma rescale_spec scale sh ids : (forall m, 0 <= m -> 0 <= scale m <= m) -> forall cs cs' n, NoDup ids -> (forall i, In i ids -> 0 <= c_max (cs i)) -> rescale scale sh cs ids = (cs', n) ->
  n = maxsum cs' ids /\ (forall i, c_list (cs' i) = c_list (cs i) /\ c_size (cs' i) = c_size (cs i)) /\ (forall i, In i ids -> 0 <= c_max (cs' i) <= c_max (cs i)) /\
  (forall i, ~ In i ids -> cs' i = cs i).
Proof.
  intros Hs. induction ids as [|i ids IH]; intros cs cs' n Nd Hc; cbn [rescale].
  - intros X. injection X as <- <-. repeat split; try reflexivity; destruct H.
  - set (m := if sh then scale (c_max (cs i)) else c_max (cs i)).
    assert (Hm : 0 <= m <= c_max (cs i)). { pose proof (Hc i (or_introl eq_refl)) as X. unfold m. destruct sh; [apply Hs; exact X|lia]. }
    inversion Nd as [|? ? Ni Nd']; subst.
    destruct (rescale scale sh (upd cs i (TCa (c_list (cs i)) (c_size (cs i)) m)) ids) as (cs1, n1) eqn:E. intros X. injection X as <- <-.
    assert (Hc' : forall j, In j ids -> 0 <= c_max (upd cs i (TCa (c_list (cs i)) (c_size (cs i)) m) j)) by (intros j Hj; rewrite upd_other by (intros ->; tauto); apply Hc; right; exact Hj).
    destruct (IH _ _ _ Nd' Hc' E) as (A & B & C & D).
    pose proof (D i Ni) as Di. rewrite upd_same in Di.
    split; [rewrite maxsum_cons, Di; cbn [c_max]; lia|]. split.
    + intros j. destruct (B j) as (-> & ->). destruct (Z.eq_dec j i) as [->|Hj]; [rewrite upd_same; auto|rewrite upd_other by exact Hj; auto].
    + split.
      * intros j [<-|Hj]; [rewrite Di; cbn [c_max]; exact Hm|]. specialize (C j Hj). rewrite upd_other in C by (intros ->; tauto). exact C.
      * intros j Hj. rewrite D by (intros X; apply Hj; right; exact X). apply upd_other. intros ->. apply Hj. left. reflexivity.
Qed.

Lemma walk_inv p tr g L : tinv p tr g L -> t_walk g = Some L.
Proof. intros I. unfold t_walk. eapply walk_dll; [apply I| |apply I]. rewrite (v_count _ _ _ _ I). lia. Qed.

Lemma overall_step p tr g L scale v : tinv p tr g L -> (forall m, 0 <= m -> 0 <= scale m <= m) ->
  exists g', set_overall p scale g v = Some g' /\ tinv p tr g' L.
Proof.
  intros I Hs. unfold set_overall, recompute. set (v' := if v <? q_min p then q_min p else v).
  cbn [t_count t_overall t_per t_cache t_pc t_next t_prev t_heaps t_steal].
  change (t_walk (TS (t_cache g) (t_pc g) (t_next g) (t_prev g) (t_heaps g) (t_count g) (t_steal g) (t_unclaimed g) v' (t_per g))) with (t_walk g).
  rewrite (walk_inv _ _ _ _ I). cbn [obind]. set (n := if 0 <? t_count g then t_count g else 1). set (s1 := if v' / n <? q_min p then q_min p else v' / n). set (s2 := if q_max p <? s1 then q_max p else s1).
  destruct (rescale scale (s2 <? Z.max 1 (t_per g)) (t_cache g) L) as (cs, claimed) eqn:E.
  destruct (rescale_spec _ _ _ Hs _ _ _ (v_nodup _ _ _ _ I) (v_max _ _ _ _ I) E) as (A & B & C & D).
  eexists. split; [reflexivity|].
  assert (Hv : q_min p <= v') by (unfold v'; destruct (v <? q_min p) eqn:X; [lia|apply Z.ltb_ge in X; exact X]).
  constructor; cbn [t_cache t_pc t_next t_prev t_heaps t_count t_steal t_unclaimed t_overall t_per]; try apply I.
  - lia.
  - exact Hv.
  - intros i Hi. apply C. exact Hi.
  - intros i Hi k Hk. unfold list_ok. destruct (B i) as (-> & _). exact (v_ok _ _ _ _ I i Hi k Hk).
  - intros i Hi k Hk. unfold objs. destruct (B i) as (-> & _). exact (v_out _ _ _ _ I i Hi k Hk).
  - intros i Hi. unfold bytes. destruct (B i) as (-> & ->). exact (v_size _ _ _ _ I i Hi).
  - intros i Hi k. unfold objs. destruct (B i) as (-> & _). exact (v_dying _ _ _ _ I i Hi k).
  - intros k. rewrite (flat_map_ext _ (fun i => objs (t_cache g i) k)); [apply I|]. intros i. unfold objs. destruct (B i) as (-> & _). reflexivity.
Qed.

(** IncreaseCacheLimit *)
Lemma limit_step p tr g L i : tpar_ok p -> tinv p tr g L -> t_pc g i = Limit ->
  exists g', increase_limit p g i = Some g' /\ tinv p tr (set_cache g' i (t_cache g' i) Idle) L.
Proof.
  intros Hp I Hl. assert (Hin : In i L) by (apply (v_pcs _ _ _ _ I); congruence).
  destruct (increase_spec p g L i (t_prev g) (v_no0 _ _ _ _ I)) as (g' & E & Gr); [intros _ ->; destruct Hin|apply I|apply I|].
  exists g'. split; [exact E|]. apply grown_facts in Gr; [|exact Hp|apply I|apply I|apply I; exact Hin].
  destruct Gr as (G1 & G2 & G3 & G4 & G5 & G6 & G7 & G8 & G9 & (Gd & Gs & Gz) & G10). specialize (G7 (v_steal _ _ _ _ I)).
  destruct (in_dec Z.eq_dec i L) as [_|X]; [|tauto].
  assert (I' : tinv p tr g' L).
  { apply (limits_step p tr g L g' I); try assumption. pose proof (v_space _ _ _ _ I). lia. }
  rewrite <- (app_nil_r tr). apply local_step; try assumption; try discriminate.
  - rewrite G1. congruence.
  - apply lrel_refl.
  - apply (v_out _ _ _ _ I' i Hin).
  - pose proof (v_ok _ _ _ _ I' i Hin) as X. rewrite G1, Hl in X. exact X.
Qed.

Theorem tstep_inv p tr g L evs o : tpar_ok p -> tinv p tr g L -> tstep p g evs o -> exists g' L', o = Some g' /\ tinv p (tr ++ evs) g' L'.
Proof.
  intros Hp I St.
  assert (Lo : forall i c e x, t_pc g i <> Absent -> lrel p (t_cache g i) e c -> cache_ok p (pc_at x) c -> x <> Absent -> (forall k, x = Slow k -> q_used p k) -> (x = Dying -> forall k, objs c k = []) ->
    exists g' L', Some (set_cache g i c x) = Some g' /\ tinv p (tr ++ e) g' L').
  { intros i c e x Hi R Hc Hx Hs Hy. eexists. exists L. split; [reflexivity|]. apply local_step; try assumption.
    intros k Hk. apply (out_kept p _ e c k R Hk). apply (v_out _ _ _ _ I i); [|exact Hk]. apply (v_pcs _ _ _ _ I). exact Hi. }
  assert (Ok : forall i, t_pc g i <> Absent -> cache_ok p (pc_at (t_pc g i)) (t_cache g i)).
  { intros i Hi. apply (v_ok _ _ _ _ I). apply (v_pcs _ _ _ _ I). exact Hi. }
  inversion St as [? i Hi Ha|? i k x c Hi U H|? i k got r c Hi U H0 Hg H|? i k x c slow Hi U H|? i k c e Hi H|? i Hi H|? i c e Hi H0 H|? i g' Hi H|? i Hi H|? i c e Hi H|? i Hi|? v scale Hv Hs]; subst.
  - destruct (new_step p tr g L i Hp I Hi Ha) as (g' & -> & I'). rewrite app_nil_r. exists g', (i :: L). split; [reflexivity|exact I'].
  - assert (Hn : t_pc g i <> Absent) by congruence. pose proof (Ok i Hn) as Oi. rewrite Hi in Oi. destruct (alloc_hit_spec _ _ _ _ _ Oi U H) as (A & B). apply Lo; try assumption; try discriminate.
  - assert (Hn : t_pc g i <> Absent) by congruence. pose proof (Ok i Hn) as Oi. rewrite Hi in Oi.
    assert (E : objs (t_cache g i) k = []). { unfold alloc_hit, fl_try_pop in H0. unfold objs. destruct (fl_objs (c_list (t_cache g i) k)); [reflexivity|discriminate]. }
    destruct (fetch_spec _ _ _ _ _ _ Hp Oi U E Hg H) as (A & B & _). apply Lo; try assumption; try discriminate.
  - assert (Hn : t_pc g i <> Absent) by congruence. pose proof (Ok i Hn) as Oi. rewrite Hi in Oi.
    destruct (dealloc_spec _ _ _ _ _ _ Oi U H) as (A & B & _). apply Lo; try assumption; try (destruct slow; discriminate).
    + destruct slow; exact A.
    + intros k' X. destruct slow; [injection X as <-; exact U|discriminate].
  - assert (Hn : t_pc g i <> Absent) by congruence. pose proof (Ok i Hn) as Oi. rewrite Hi in Oi.
    destruct (slow_list_spec _ _ _ _ _ Hp Oi (v_slow _ _ _ _ I i k Hi) H) as (A & B). apply Lo; try assumption; try discriminate.
  - assert (Hn : t_pc g i <> Absent) by congruence. pose proof (Ok i Hn) as Oi. rewrite Hi in Oi. apply Lo; try assumption; try discriminate. apply lrel_refl.
  - assert (Hn : t_pc g i <> Absent) by congruence. pose proof (Ok i Hn) as Oi. rewrite Hi in Oi.
    destruct (scavenge_spec _ _ _ _ Hp Oi H) as (A & B). apply Lo; try assumption; try discriminate.
  - destruct (limit_step p tr g L i Hp I Hi) as (g1 & E & I'). rewrite E in H. injection H as <-. rewrite app_nil_r. eexists. exists L. split; [reflexivity|exact I'].
  - destruct (limit_step p tr g L i Hp I Hi) as (g1 & E & I'). congruence.
  - assert (Hn : t_pc g i <> Absent) by congruence. pose proof (Ok i Hn) as Oi. rewrite Hi in Oi.
    destruct (cleanup_spec _ _ _ _ Hp Oi H) as (A & B & C). apply Lo; try assumption; try discriminate. intros _ k.
    destruct (Z_le_dec 0 k) as [K1|K1]; [destruct (Z_lt_dec k (q_classes p)) as [K2|K2]; [apply C; lia|]|].
    all: apply (out_kept p _ evs c k B); [lia|]; apply (v_out _ _ _ _ I i); [apply (v_pcs _ _ _ _ I); exact Hn|lia].
  - destruct (delete_step p tr g L i I Hi) as (L1 & L2 & _ & I'). rewrite app_nil_r. eexists. exists (L1 ++ L2). split; [reflexivity|exact I'].
  - destruct (overall_step p tr g L scale v I Hs) as (g' & -> & I'). rewrite app_nil_r. exists g', L. split; [reflexivity|exact I'].
Qed.

Theorem treach_inv p tr g : tpar_ok p -> treach p tr g -> exists L, tinv p tr g L.
Proof.
  intros Hp R. induction R as [cs nx pv|tr g evs g' R (L & I) St].
  - exists []. unfold t_init. constructor; cbn [t_cache t_pc t_next t_prev t_heaps t_count t_steal t_unclaimed t_overall t_per]; try (intros; discriminate); try (intros i []); try reflexivity.
    all: try solve [constructor | left; reflexivity | intros i; split; [intros []|intros X; exfalso; apply X; reflexivity] | unfold maxsum; cbn; lia | apply Hp].
  - destruct (tstep_inv p tr g L evs _ Hp I St) as (g1 & L' & E & I'). injection E as <-. exists L'. exact I'.
Qed.
