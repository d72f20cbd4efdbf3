(** Lemmas for Flow.v: the invariant. *)
From Verif Require Import Base TransferCache TransferCacheProps CpuCache Flow.
From Verif Require ThreadCacheProofs.
From Coq Require Import Permutation.
Notation flat_map_split := ThreadCacheProofs.flat_map_split.

Definition oobj (o : option Z) : list Z := match o with Some x => [x] | None => [] end.
Definition kont_objs (k : kont) : list Z :=
  match k with KFetch _ _ r | KRel r => oobj r | KDrain _ l => l | _ => [] end.
(** The objects that a thread has. *)
Definition pc_objs (q : pc) : list Z :=
  match q with
  | ALoop _ _ r => oobj r
  | APush _ _ r _ b => oobj r ++ b
  | DFast x | DSlow x | DFast2 _ x | DUpd _ x => [x]
  | DLoop _ _ b => b
  | RDrain _ l => l
  | InCall fr k => flat_map (fun x => held (snd x)) fr ++ kont_objs k
  | _ => []
  end.

Definition cpus (p : fpar) : list Z := zseq 0 (Z.to_nat (f_ncpu p)).
Definition shards (p : fpar) : list Z := zseq 0 (Z.to_nat (f_nshard p)).
Definition threads (p : fpar) : list Z := zseq 0 (Z.to_nat (f_nthr p)).
Definition in_caches (p : fpar) (s : fstate) : list Z :=
  flat_map (s_slab s) (cpus p) ++ flat_map (fun i => cached (s_shard s i)) (shards p) ++ cached (s_main s) ++ s_cfl s.
Definition in_calls (p : fpar) (s : fstate) : list Z := flat_map (fun t => pc_objs (s_pc s t)) (threads p).
Definition all (p : fpar) (s : fstate) : list Z := in_caches p s ++ in_calls p s ++ s_live s.

Definition is_cpu (p : fpar) (c : Z) : Prop := 0 <= c < f_ncpu p.
Definition tier_ok (p : fpar) (T : tier) : Prop := match T with TShard i => 0 <= i < f_nshard p | _ => True end.
Definition sized (l : list Z) : Prop := 0 < zlen l <= kMaxObjectsToMove.
(** A call that gives objects to the caches below, or works on them, and returns none. *)
Definition ins_ok (p : fpar) (x : tier * tact) : Prop :=
  tier_ok p (fst x) /\
  match snd x with
  | TInsert b => sized b
  | TInsertLock b | TInsertMiss b | TShrinkFlush b => sized b /\ fst x <> TCfl
  | TPlunderFlush b r => sized b /\ 0 <= r /\ fst x <> TCfl
  | TPlunderLoop r => 0 <= r /\ fst x <> TCfl
  | TPlunder | TGrow | TShrink => fst x <> TCfl
  | TDone got _ => got = []
  | _ => False
  end.
Definition quiet (p : fpar) (x : tier * tact) : Prop := ins_ok p x /\ held (snd x) = [].
(** A call that gets at most [mx] objects. *)
Definition rem_ok (p : fpar) (mx : Z) (oom : bool) (x : tier * tact) : Prop :=
  tier_ok p (fst x) /\
  match snd x with
  | TRemove n => 0 < n <= mx
  | TRemoveLock n | TRemoveMiss n => 0 < n <= mx /\ fst x <> TCfl
  | TDone got _ => zlen got <= mx /\ (got = [] -> oom = true)
  | _ => False
  end.
Definition max_target : Z := 131072.
Definition ins_frames (p : fpar) (fr : list (tier * tact)) : Prop :=
  match fr with x :: r => ins_ok p x /\ Forall (quiet p) r | [] => False end.
Definition rem_frames (p : fpar) (mx : Z) (oom : bool) (fr : list (tier * tact)) : Prop :=
  match fr with [x] => rem_ok p mx oom x | _ => False end.
Definition pc_ok (p : fpar) (oom : bool) (q : pc) : Prop :=
  match q with
  | AFast2 c | AUpd c | DFast2 c _ | DUpd c _ | RDrain c _ => is_cpu p c
  | ALoop target total r => 0 <= total < target /\ target <= max_target /\ (r = None -> total = 0)
  | APush target total r got b => 0 < total <= target /\ target <= max_target /\ r <> None /\ 0 < got <= total /\ sized b /\ zlen b <= got
  | DLoop target total b => 0 <= total < target /\ target <= max_target /\ zlen b <= 1
  | InCall fr KPop => rem_frames p 1 oom fr
  | InCall fr (KFetch target total r) =>
      0 <= total < target /\ target <= max_target /\ (r = None -> total = 0) /\ rem_frames p (Z.min kMaxObjectsToMove (target - total)) oom fr
  | InCall fr (KRel r) => r <> None /\ ins_frames p fr
  | InCall fr (KOver target total count) => 0 < count <= total /\ total <= target /\ target <= max_target /\ ins_frames p fr
  | InCall fr (KDrain c _) | InCall fr (KShrunk c) => is_cpu p c /\ ins_frames p fr
  | InCall fr _ => ins_frames p fr
  | _ => True
  end.

(** The invariant of the caches. *)
Record winv (p : fpar) (s : fstate) : Prop := {
  w_cap : forall c, zlen (s_slab s c) <= s_cap s c;
  w_slab : forall c, ~ is_cpu p c -> s_slab s c = [];
  w_shard : forall i, tc_ok (s_shard s i);
  w_shard_out : forall i, ~ 0 <= i < f_nshard p -> cached (s_shard s i) = [];
  w_main : tc_ok (s_main s);
  w_at : forall t c, s_at s t = Some c -> is_cpu p c /\ s_stop s c = false }.
Record finv (p : fpar) (s : fstate) : Prop := {
  i_w : winv p s;
  i_pc : forall t, pc_ok p (s_oom s t) (s_pc s t);
  i_out : forall t, ~ 0 <= t < f_nthr p -> s_pc s t = Idle;
  i_perm : Permutation (s_owned s) (all p s);
  i_nd : NoDup (s_owned s) }.

(** What a thread's step can change. *)
Definition local (c i : Z) (s : fstate) : list Z := s_slab s c ++ cached (s_shard s i) ++ cached (s_main s) ++ s_cfl s ++ s_live s.
Record agree (p : fpar) (t c i : Z) (s s' : fstate) : Prop := {
  a_slab : forall c', c' <> c -> s_slab s' c' = s_slab s c';
  a_shard : forall i', i' <> i -> s_shard s' i' = s_shard s i';
  a_pc : forall t', t' <> t -> s_pc s' t' = s_pc s t';
  a_oom : forall t', t' <> t -> s_oom s' t' = s_oom s t' }.

Lemma flat_map_local (f f' : Z -> list Z) L i : NoDup L -> (In i L \/ (f i = [] /\ f' i = [])) -> (forall j, j <> i -> f' j = f j) ->
  exists R, Permutation (flat_map f L) (f i ++ R) /\ Permutation (flat_map f' L) (f' i ++ R).
Proof.
  intros Nd [Hi|(E & E')] H.
  - destruct (flat_map_split f L i Nd Hi) as (R & A & B). exists R. split; [exact A|]. apply B. exact H.
  - exists (flat_map f L). rewrite E, E'. split; [reflexivity|]. cbn [app].
    replace (flat_map f' L) with (flat_map f L); [reflexivity|]. clear Nd. induction L as [|a L IH]; [reflexivity|]. cbn [flat_map]. rewrite IH. f_equal.
    destruct (Z.eq_dec a i) as [->|N]; [rewrite E, E'; reflexivity|symmetry; apply H; exact N].
Qed.

Lemma range_dec i n : (0 <= i < n) \/ ~ (0 <= i < n). Proof. lia. Qed.
Lemma in_range i n : 0 <= i < n -> In i (zseq 0 (Z.to_nat n)). Proof. intros. apply zseq_In. lia. Qed.

Lemma all_local p t c i s s' : 0 <= t < f_nthr p -> winv p s -> winv p s' -> agree p t c i s s' ->
  exists R, Permutation (all p s) (local c i s ++ pc_objs (s_pc s t) ++ R) /\ Permutation (all p s') (local c i s' ++ pc_objs (s_pc s' t) ++ R).
Proof.
  intros Ht W W' A.
  destruct (flat_map_local (s_slab s) (s_slab s') (cpus p) c (zseq_NoDup _ _)) as (R1 & P1 & Q1).
  { destruct (range_dec c (f_ncpu p)) as [H|H]; [left; apply in_range; exact H|right; split; [apply (w_slab _ _ W); exact H|apply (w_slab _ _ W'); exact H]]. }
  { apply (a_slab _ _ _ _ _ _ A). }
  destruct (flat_map_local (fun j => cached (s_shard s j)) (fun j => cached (s_shard s' j)) (shards p) i (zseq_NoDup _ _)) as (R2 & P2 & Q2).
  { destruct (range_dec i (f_nshard p)) as [H|H]; [left; apply in_range; exact H|right; split; [apply (w_shard_out _ _ W); exact H|apply (w_shard_out _ _ W'); exact H]]. }
  { intros j Hj. rewrite (a_shard _ _ _ _ _ _ A) by exact Hj. reflexivity. }
  destruct (flat_map_local (fun j => pc_objs (s_pc s j)) (fun j => pc_objs (s_pc s' j)) (threads p) t (zseq_NoDup _ _)) as (R3 & P3 & Q3).
  { left. apply in_range. exact Ht. }
  { intros j Hj. rewrite (a_pc _ _ _ _ _ _ A) by exact Hj. reflexivity. }
  exists (R1 ++ R2 ++ R3). unfold all, in_caches, in_calls, local. split.
  - clear Q1 Q2 Q3. set (X1 := flat_map (s_slab s) (cpus p)) in *. set (X2 := flat_map _ (shards p)) in *. set (X3 := flat_map _ (threads p)) in *. clearbody X1 X2 X3.
    cbv beta in P2, P3. clear - P1 P2 P3. pcount.
  - clear P1 P2 P3. set (X1 := flat_map (s_slab s') (cpus p)) in *. set (X2 := flat_map _ (shards p)) in *. set (X3 := flat_map _ (threads p)) in *. clearbody X1 X2 X3.
    cbv beta in Q2, Q3. clear - Q1 Q2 Q3. pcount.
Qed.

(** The result of a step of thread [t]. *)
Definition post (p : fpar) (t : Z) (s s' : fstate) : Prop :=
  exists c i new, agree p t c i s s' /\ winv p s' /\ pc_ok p (s_oom s' t) (s_pc s' t) /\
    Permutation (new ++ local c i s ++ pc_objs (s_pc s t)) (local c i s' ++ pc_objs (s_pc s' t)) /\
    s_owned s' = new ++ s_owned s /\ NoDup (new ++ s_owned s).

Lemma post_inv p t s s' : 0 <= t < f_nthr p -> finv p s -> post p t s s' -> finv p s'.
Proof.
  intros Ht I (c & i & new & A & W & P & C & O & Nd). destruct (all_local p t c i s s' Ht (i_w _ _ I) W A) as (R & P1 & P2). split.
  - exact W.
  - intros t'. destruct (Z.eq_dec t' t) as [->|N]; [exact P|]. rewrite (a_pc _ _ _ _ _ _ A), (a_oom _ _ _ _ _ _ A) by exact N. apply (i_pc _ _ I).
  - intros t' H. rewrite (a_pc _ _ _ _ _ _ A); [apply (i_out _ _ I); exact H|intros ->; lia].
  - rewrite O. pose proof (i_perm _ _ I) as P0. rewrite P0, P1, P2. set (X := local c i s) in *. set (Y := local c i s') in *.
    set (X2 := pc_objs (s_pc s t)) in *. set (Y2 := pc_objs (s_pc s' t)) in *. clearbody X Y X2 Y2. clear - C. pcount.
  - rewrite O. exact Nd.
Qed.

(** A change of the caches in which the thread gives [give] and gets [take]. *)
Definition moved (p : fpar) (t : Z) (s s1 : fstate) (give take : list Z) : Prop :=
  exists c i, agree p t c i s s1 /\ winv p s1 /\ s_pc s1 t = s_pc s t /\ s_oom s1 t = s_oom s t /\ s_live s1 = s_live s /\
    s_owned s1 = s_owned s /\ Permutation (give ++ local c i s) (take ++ local c i s1).
Definition label_ok (s : fstate) (t : Z) (l : flabel) (s' : fstate) : Prop :=
  match l with
  | LMalloc (Some x) => s_live s' = x :: s_live s
  | LMalloc None => s_live s' = s_live s /\ s_oom s t = true
  | _ => s_live s' = s_live s
  end.
Definition good (p : fpar) (s : fstate) (t : Z) (o : option (fstate * flabel)) : Prop :=
  exists s' l, o = Some (s', l) /\ post p t s s' /\ label_ok s t l s'.

Lemma moved_refl p t s : winv p s -> moved p t s s [] [].
Proof. intros W. exists 0, 0. split; [split; reflexivity|]. split; [exact W|]. repeat split. reflexivity. Qed.

Lemma winv_set_pc p s t q : winv p s -> winv p (set_pc s t q).
Proof. intros []. split; assumption. Qed.
Lemma winv_set_live p s l : winv p s -> winv p (set_live s l).
Proof. intros []. split; assumption. Qed.

Ltac agr := split; cbn [s_slab s_shard s_pc s_oom set_pc set_live set_slab set_cap set_at set_oom set_cfl stop_cpu start_cpu]; intros; rewrite ?upd_other by congruence; auto.

Lemma moved_post p s t s1 give take q : NoDup (s_owned s) -> moved p t s s1 give take ->
  Permutation (pc_objs (s_pc s t) ++ take) (give ++ pc_objs q) -> pc_ok p (s_oom s t) q -> post p t s (set_pc s1 t q).
Proof.
  intros Nd (c & i & A & W & E1 & E2 & E3 & E4 & P) Pq Q. exists c, i, []. split.
  { destruct A as [A1 A2 A3 A4]. split; cbn [s_slab s_shard s_pc s_oom set_pc]; intros; rewrite ?upd_other by congruence; auto. }
  split; [apply winv_set_pc; exact W|]. cbn [s_oom s_pc set_pc s_owned]. rewrite upd_same, E2. split; [exact Q|].
  split; [|split; [exact E4|exact Nd]]. change (local c i (set_pc s1 t q)) with (local c i s1).
  set (X := local c i s) in *. set (Y := local c i s1) in *. clearbody X Y. clear - P Pq. pcount.
Qed.

Lemma good_go p s t s1 give take q : NoDup (s_owned s) -> moved p t s s1 give take ->
  Permutation (pc_objs (s_pc s t) ++ take) (give ++ pc_objs q) -> pc_ok p (s_oom s t) q -> good p s t (go s1 t q).
Proof.
  intros Nd M Pq Q. exists (set_pc s1 t q), LNone. split; [reflexivity|]. split; [eapply moved_post; eassumption|].
  destruct M as (c & i & M). exact (proj1 (proj2 (proj2 (proj2 (proj2 M))))).
Qed.
Lemma good_free p s t s1 give take : NoDup (s_owned s) -> moved p t s s1 give take ->
  Permutation (pc_objs (s_pc s t) ++ take) give -> good p s t (ret_free s1 t).
Proof.
  intros Nd M Pq. exists (set_pc s1 t Idle), LFree. split; [reflexivity|]. split; [eapply moved_post; [exact Nd|exact M|cbn [pc_objs]; rewrite app_nil_r; exact Pq|exact I]|].
  destruct M as (c & i & M). exact (proj1 (proj2 (proj2 (proj2 (proj2 M))))).
Qed.
Lemma good_bg p s t s1 give take : NoDup (s_owned s) -> moved p t s s1 give take ->
  Permutation (pc_objs (s_pc s t) ++ take) give -> good p s t (ret_bg s1 t).
Proof.
  intros Nd M Pq. exists (set_pc s1 t Idle), LNone. split; [reflexivity|]. split; [eapply moved_post; [exact Nd|exact M|cbn [pc_objs]; rewrite app_nil_r; exact Pq|exact I]|].
  destruct M as (c & i & M). exact (proj1 (proj2 (proj2 (proj2 (proj2 M))))).
Qed.
Lemma good_malloc p s t s1 give take r : NoDup (s_owned s) -> moved p t s s1 give take ->
  Permutation (pc_objs (s_pc s t) ++ take) (give ++ oobj r) -> (r = None -> s_oom s t = true) -> good p s t (ret_malloc s1 t r).
Proof.
  intros Nd (c & i & A & W & E1 & E2 & E3 & E4 & P) Pq Hr. eexists _, _. split; [reflexivity|]. split.
  - exists c, i, []. split.
    { destruct A as [A1 A2 A3 A4]. split; cbn [s_slab s_shard s_pc s_oom set_pc set_live]; intros; rewrite ?upd_other by congruence; auto. }
    split; [apply winv_set_live, winv_set_pc; exact W|]. cbn [s_oom s_pc set_pc set_live s_owned]. rewrite upd_same. split; [exact I|].
    split; [|split; [exact E4|exact Nd]]. cbn [pc_objs]. unfold local in *. cbn [s_slab s_shard s_main s_cfl s_live set_live set_pc].
    set (L := match r with Some x => x :: s_live s1 | None => s_live s1 end). assert (EL : L = oobj r ++ s_live s1) by (destruct r; reflexivity). rewrite EL.
    set (o := oobj r) in *. set (X := pc_objs _) in *. clearbody o X. rewrite app_nil_r.
    set (Y1 := s_slab s c) in *. set (Y2 := cached (s_shard s i)) in *. set (Y3 := cached (s_main s)) in *. set (Y1' := s_slab s1 c) in *. set (Y2' := cached (s_shard s1 i)) in *. set (Y3' := cached (s_main s1)) in *.
    clearbody Y1 Y2 Y3 Y1' Y2' Y3'. clear - P Pq. pcount.
  - destruct r; cbn [label_ok s_live set_live]; rewrite E3; [reflexivity|]. split; [reflexivity|]. apply Hr. reflexivity.
Qed.

Lemma good_insert p s t s1 give take T batch fr k : NoDup (s_owned s) -> moved p t s s1 give take -> sized batch ->
  Permutation (pc_objs (s_pc s t) ++ take) (give ++ pc_objs (InCall ((T, TInsert batch) :: fr) k)) ->
  pc_ok p (s_oom s t) (InCall ((T, TInsert batch) :: fr) k) -> good p s t (enter_insert s1 t T batch fr k).
Proof.
  intros Nd M (S1 & S2) Pq Q. unfold enter_insert. apply Z.ltb_lt in S1. apply Z.leb_le in S2. rewrite S1, S2. cbn [andb]. eapply good_go; eassumption.
Qed.
Lemma good_remove p s t s1 give take T n fr k : NoDup (s_owned s) -> moved p t s s1 give take -> 0 < n <= kMaxObjectsToMove ->
  Permutation (pc_objs (s_pc s t) ++ take) (give ++ pc_objs (InCall ((T, TRemove n) :: fr) k)) ->
  pc_ok p (s_oom s t) (InCall ((T, TRemove n) :: fr) k) -> good p s t (enter_remove s1 t T n fr k).
Proof.
  intros Nd M (S1 & S2) Pq Q. unfold enter_remove. apply Z.ltb_lt in S1. apply Z.leb_le in S2. rewrite S1, S2. cbn [andb]. eapply good_go; eassumption.
Qed.

(** ** Changes of the caches *)
Lemma zlen_nonneg l : 0 <= zlen l. Proof. unfold zlen. lia. Qed.
Lemma zlen_app l1 l2 : zlen (l1 ++ l2) = zlen l1 + zlen l2. Proof. unfold zlen. rewrite app_length. lia. Qed.
Lemma zlen_cons a l : zlen (a :: l) = 1 + zlen l. Proof. unfold zlen. cbn [length]. lia. Qed.

Lemma set_slab_moved p t s c l give take : winv p s -> is_cpu p c -> zlen l <= s_cap s c -> Permutation (give ++ s_slab s c) (take ++ l) ->
  moved p t s (set_slab s c l) give take.
Proof.
  intros W Hc Hl P. exists c, 0. split; [agr|]. split.
  { destruct W as [W1 W2 W3 W4 W5 W6]. split; cbn [s_slab s_cap s_shard s_main s_at s_stop set_slab]; try assumption.
    - intros c'. destruct (Z.eq_dec c' c) as [->|N]; [rewrite upd_same; exact Hl|rewrite upd_other by exact N; apply W1].
    - intros c' H. rewrite upd_other; [apply W2; exact H|]. intros ->. tauto. }
  repeat (split; [reflexivity|]). unfold local. cbn [s_slab s_shard s_main s_cfl s_live set_slab]. rewrite upd_same.
  set (X := cached _ ++ _). clearbody X. clear - P. pcount.
Qed.

Lemma pop_moved p t s x s1 : winv p s -> slab_pop s t = Some (x, s1) -> moved p t s s1 [] [x].
Proof.
  unfold slab_pop. intros W. destruct (s_at s t) as [c|] eqn:E; [|discriminate]. destruct (s_slab s c) as [|y r] eqn:E2; [discriminate|].
  intros H. injection H as <- <-. destruct (w_at _ _ W _ _ E) as (Hc & _). apply set_slab_moved; [exact W|exact Hc| |rewrite E2; reflexivity].
  pose proof (w_cap _ _ W c) as H. rewrite E2, zlen_cons in H. lia.
Qed.
Lemma push_moved p t s x s1 : winv p s -> slab_push s t x = Some s1 -> moved p t s s1 [x] [].
Proof.
  unfold slab_push. intros W. destruct (s_at s t) as [c|] eqn:E; [|discriminate]. destruct (zlen (s_slab s c) <? s_cap s c) eqn:E2; [|discriminate].
  intros H. injection H as <-. destruct (w_at _ _ W _ _ E) as (Hc & _). apply set_slab_moved; [exact W|exact Hc| |reflexivity].
  apply Z.ltb_lt in E2. rewrite zlen_cons. lia.
Qed.
Lemma push_batch_moved p t s b s1 rest : winv p s -> slab_push_batch s t b = (s1, rest) ->
  exists fit, b = rest ++ fit /\ moved p t s s1 fit [].
Proof.
  unfold slab_push_batch. intros W. destruct (s_at s t) as [c|] eqn:E.
  - set (k := Z.to_nat _). intros H. injection H as <- <-. exists (skipn k b). split; [symmetry; apply firstn_skipn|].
    destruct (w_at _ _ W _ _ E) as (Hc & _). apply set_slab_moved; [exact W|exact Hc| |reflexivity].
    rewrite zlen_app. pose proof (w_cap _ _ W c). unfold k, zlen in *. rewrite skipn_length. lia.
  - intros H. injection H as <- <-. exists []. split; [rewrite app_nil_r; reflexivity|]. apply moved_refl. exact W.
Qed.
Lemma pop_batch_moved p t s n s1 got : winv p s -> 0 <= n -> slab_pop_batch s t n = (s1, got) -> moved p t s s1 [] got /\ zlen got <= n.
Proof.
  unfold slab_pop_batch. intros W Hn. destruct (s_at s t) as [c|] eqn:E.
  - intros H. injection H as <- <-. destruct (w_at _ _ W _ _ E) as (Hc & _). split; [|unfold zlen; rewrite firstn_length; lia].
    apply set_slab_moved; [exact W|exact Hc| |cbn [app]; rewrite firstn_skipn; reflexivity].
    pose proof (w_cap _ _ W c). unfold zlen in *. rewrite skipn_length. lia.
  - intros H. injection H as <- <-. split; [apply moved_refl; exact W|exact Hn].
Qed.

Lemma cache_moved p t s c s1 r : winv p s -> is_cpu p (c_cpu c) -> cache_cpu_slab s t c = (s1, r) ->
  moved p t s s1 [] [] /\ match r with Already cpu | Now cpu => is_cpu p cpu | Stopped => True end.
Proof.
  unfold cache_cpu_slab. intros W Hc. destruct (s_at s t) as [cpu|] eqn:E.
  - intros H. injection H as <- <-. split; [apply moved_refl; exact W|]. exact (proj1 (w_at _ _ W _ _ E)).
  - destruct (s_stop s (c_cpu c)) eqn:Es; intros H; injection H as <- <-.
    + split; [apply moved_refl; exact W|exact I].
    + split; [|exact Hc]. exists 0, 0. split; [agr|]. split; [|repeat split; reflexivity].
      destruct W as [W1 W2 W3 W4 W5 W6]. split; cbn [s_slab s_cap s_shard s_main s_at s_stop set_at]; try assumption.
      intros t' c'. destruct (Z.eq_dec t' t) as [->|N]; [rewrite upd_same; intros H; injection H as <-; split; assumption|rewrite upd_other by exact N; apply W6].
Qed.

Lemma target_bounds cap b succ : 0 <= cap -> 1 <= b <= kMaxObjectsToMove -> 0 <= succ ->
  let t := target_overflow_refill_count cap b succ in 0 < t <= max_target /\ t <= cap + 1.
Proof.
  unfold kMaxObjectsToMove, max_target. intros Hc Hb Hs. unfold target_overflow_refill_count.
  assert (H2 : 1 <= 2 ^ Z.min succ 10 <= 1024).
  { split; [pose proof (Z.pow_pos_nonneg 2 (Z.min succ 10)); lia|]. change 1024 with (2 ^ 10). apply Z.pow_le_mono_r; lia. }
  assert (Hp : 1 <= 2 ^ Z.min succ 10 * b <= 131072) by nia.
  rewrite wrap64_small by (unfold u64, two64; lia).
  destruct ((cap =? 1) && (succ <? 3)) eqn:E.
  - apply andb_prop in E. lia.
  - assert (0 <= (cap + 1) / 2) by (apply Z.div_pos; lia). assert ((cap + 1) / 2 < cap + 1) by (apply Z.div_lt_upper_bound; lia). cbv zeta. lia.
Qed.

Lemma update_moved p t s cpu c : fpar_ok p -> winv p s -> is_cpu p cpu -> 0 <= c_succ c -> s_cap s cpu <= c_cap c ->
  exists s1 target, update_capacity p s cpu c = Some (s1, target) /\ moved p t s s1 [] [] /\ 0 < target <= max_target.
Proof.
  intros (Hb & _) W Hc Hs Hcap. pose proof (w_cap _ _ W cpu) as H0. pose proof (zlen_nonneg (s_slab s cpu)) as H1.
  destruct (target_bounds (c_cap c) (f_batch p) (c_succ c)) as (T1 & T2); [lia|exact Hb|exact Hs|].
  unfold update_capacity. set (tg := target_overflow_refill_count _ _ _) in *. clearbody tg.
  replace (tg <=? c_cap c + 1) with true by lia. replace (tg =? 0) with false by lia. cbn [andb negb].
  exists (set_cap s cpu (c_cap c)), tg. split; [reflexivity|]. split; [|exact T1].
  exists 0, 0. split; [agr|]. split; [|repeat split; reflexivity].
  destruct W as [W1 W2 W3 W4 W5 W6]. split; cbn [s_slab s_cap s_shard s_main s_at s_stop set_cap]; try assumption.
  intros c'. destruct (Z.eq_dec c' cpu) as [->|N]; [rewrite upd_same; lia|rewrite upd_other by exact N; apply W1].
Qed.

Lemma tc_moved p t s T a lock x a' l : winv p s -> 0 <= f_batch p -> tier_ok p T -> T <> TCfl -> act_ok a ->
  tstep (f_batch p) (get_tc s T) a lock [] = (x, a', l) -> (forall n got, l = LRemove n got -> got = []) ->
  moved p t s (set_tc s T x) (held a) (held a' ++ forwarded l) /\ act_ok a'.
Proof.
  intros W Hb HT HC Ha E Hl. assert (O : tc_ok (get_tc s T)) by (destruct T; [apply (w_shard _ _ W)|apply (w_main _ _ W)|congruence]).
  destruct (tstep_spec _ _ _ _ _ _ _ _ Hb O Ha E) as (O' & A' & _ & P). split; [|exact A'].
  assert (Ho : obtained l = []) by (destruct l as [|b|n got]; [reflexivity|reflexivity|exact (Hl n got eq_refl)]). rewrite Ho, app_nil_r in P.
  destruct T as [i| |]; [| |congruence]; cbn [set_tc get_tc] in *.
  - exists 0, i. split; [split; cbn [s_slab s_shard s_pc s_oom]; intros; rewrite ?upd_other by assumption; reflexivity|]. split.
    { destruct W as [W1 W2 W3 W4 W5 W6]. split; cbn [s_slab s_cap s_shard s_main s_at s_stop]; try assumption.
      - intros j. destruct (Z.eq_dec j i) as [->|N]; [rewrite upd_same; exact O'|rewrite upd_other by exact N; apply W3].
      - intros j Hj. rewrite upd_other; [apply W4; exact Hj|]. intros ->. cbn [tier_ok] in HT. tauto. }
    repeat (split; [reflexivity|]). unfold local. cbn [s_slab s_shard s_main s_cfl s_live]. rewrite upd_same.
    set (Y1 := held a) in *. set (Y2 := held a') in *. set (Y3 := cached (s_shard s i)) in *. set (Y4 := cached x) in *. set (Y5 := cached (s_main s)). set (Y6 := forwarded l) in *.
    clearbody Y1 Y2 Y3 Y4 Y5 Y6. clear - P. pcount.
  - exists 0, 0. split; [split; reflexivity|]. split.
    { destruct W as [W1 W2 W3 W4 W5 W6]. split; assumption. }
    repeat (split; [reflexivity|]). unfold local. cbn [s_slab s_shard s_main s_cfl s_live].
    set (Y1 := held a) in *. set (Y2 := held a') in *. set (Y3 := cached (s_shard s 0)) in *. set (Y4 := cached x) in *. set (Y5 := cached (s_main s)) in *. set (Y6 := forwarded l) in *.
    clearbody Y1 Y2 Y3 Y4 Y5 Y6. clear - P. pcount.
Qed.

Lemma sized_suffix l1 l2 : sized (l1 ++ l2) -> l2 <> [] -> sized l2.
Proof. unfold sized. rewrite zlen_app. intros H N. pose proof (zlen_nonneg l1). destruct l2; [congruence|]. rewrite zlen_cons in *. pose proof (zlen_nonneg l2). lia. Qed.
Lemma sized_ne b l : zlen l <= b -> b <= kMaxObjectsToMove -> l <> [] -> sized l.
Proof. unfold sized. intros H1 H2 N. destruct l; [congruence|]. rewrite zlen_cons in *. pose proof (zlen_nonneg l). lia. Qed.

Lemma tstep_ins p s T a lock x a' l : fpar_ok p -> winv p s -> T <> TCfl -> ins_ok p (T, a) ->
  tstep (f_batch p) (get_tc s T) a lock [] = (x, a', l) ->
  act_ok a /\ ((l = TransferCache.LNone /\ ins_ok p (T, a')) \/ (exists b, l = LInsert b /\ sized b /\ quiet p (T, a'))).
Proof.
  intros (Hb & _) W HC (HT & Ha) E. cbn [fst snd] in *. assert (Hb0 : 0 <= f_batch p) by lia. assert (O : tc_ok (get_tc s T)) by (destruct T; [apply (w_shard _ _ W)|apply (w_main _ _ W)|congruence]).
  set (tcx := get_tc s T) in *. clearbody tcx. unfold quiet, ins_ok. cbn [fst snd].
  destruct a as [b|b|b|n|n|n| |b r|r| | |b|res ok]; cbn [tstep act_ok] in *; try contradiction.
  - injection E as <- <- <-. split; [exact I|]. left. split; [reflexivity|]. destruct (_ <? _); auto.
  - destruct (insert_locked tcx b) as (t1 & rest) eqn:E1. destruct (insert_locked_spec _ _ _ _ O E1) as (_ & _ & _ & fit & -> & _).
    injection E as <- <- <-. split; [exact I|]. left. split; [reflexivity|]. destruct rest as [|y rest]; [cbn; auto|]. split; [exact HT|]. split; [|exact HC]. eapply sized_suffix; [apply Ha|discriminate].
  - injection E as <- <- <-. split; [exact I|]. right. exists b. split; [reflexivity|]. split; [apply Ha|]. unfold tdone. auto.
  - split; [exact I|]. destruct (t_max tcx =? 0); [injection E as <- <- <-; left; unfold tdone; auto|].
    destruct lock; cbn [negb] in E; [|injection E as <- <- <-; left; unfold tdone; auto].
    set (t0 := TC _ _ _ _ _) in *. assert (O0 : tc_ok t0) by (unfold tc_ok, t0 in *; cbn [t_lwm t_used t_cap t_max]; lia).
    assert (Hr : 0 <= t_lwm tcx) by (unfold tc_ok in O; lia). destruct (plunder_round (f_batch p) t0 (t_lwm tcx)) as ((t1 & buf) & r1) eqn:E1.
    destruct (plunder_round_spec _ _ _ _ _ _ Hb0 O0 Hr E1) as (_ & _ & _ & _ & Hr1 & Hz). cbn [plunder_next] in E. injection E as <- <- <-.
    left. split; [reflexivity|]. split; [exact HT|]. destruct buf as [|y buf]; [reflexivity|]. split; [|split; [exact Hr1|exact HC]].
    apply (sized_ne (f_batch p)); [exact Hz|lia|discriminate].
  - injection E as <- <- <-. destruct Ha as (Ha & Hr & _). split; [exact Hr|]. right. exists b. split; [reflexivity|]. split; [exact Ha|]. auto.
  - destruct Ha as (Hr & _). split; [exact Hr|]. destruct lock; cbn [negb] in E; [|injection E as <- <- <-; left; unfold tdone; auto].
    destruct (plunder_round (f_batch p) tcx r) as ((t1 & buf) & r1) eqn:E1.
    destruct (plunder_round_spec _ _ _ _ _ _ Hb0 O Hr E1) as (_ & _ & _ & _ & Hr1 & Hz). cbn [plunder_next] in E. injection E as <- <- <-.
    left. split; [reflexivity|]. split; [exact HT|]. destruct buf as [|y buf]; [reflexivity|]. split; [|split; [exact Hr1|exact HC]].
    apply (sized_ne (f_batch p)); [exact Hz|lia|discriminate].
  - split; [exact I|]. left. destruct (grow_locked (f_batch p) tcx) as (t1 & ok). injection E as <- <- <-. auto.
  - split; [exact I|]. left. destruct (shrink_locked (f_batch p) tcx) as ((t1 & buf) & ok) eqn:E1.
    destruct (shrink_locked_spec _ _ _ _ _ Hb0 O E1) as (_ & _ & _ & Hz & _). injection E as <- <- <-. split; [reflexivity|]. split; [exact HT|].
    destruct buf as [|y buf]; [reflexivity|]. split; [|exact HC]. apply (sized_ne (f_batch p)); [exact Hz|lia|discriminate].
  - injection E as <- <- <-. split; [exact I|]. right. exists b. split; [reflexivity|]. split; [apply Ha|]. unfold tdone. auto.
  - injection E as <- <- <-. split; [exact I|]. left. auto.
Qed.

Lemma tstep_rem p s T a lock mx oom x a' l : winv p s -> T <> TCfl -> rem_ok p mx oom (T, a) -> (forall n, a <> TRemoveMiss n) -> mx <= kMaxObjectsToMove ->
  tstep (f_batch p) (get_tc s T) a lock [] = (x, a', l) ->
  act_ok a /\ l = TransferCache.LNone /\ rem_ok p mx oom (T, a').
Proof.
  intros W HC (HT & Ha) Hm Hmx E. cbn [fst snd] in *. assert (O : tc_ok (get_tc s T)) by (destruct T; [apply (w_shard _ _ W)|apply (w_main _ _ W)|congruence]).
  set (tcx := get_tc s T) in *. clearbody tcx. unfold rem_ok. cbn [fst snd].
  destruct a as [b|b|b|n|n|n| |b r|r| | |b|res ok]; cbn [tstep act_ok] in *; try contradiction.
  - injection E as <- <- <-. split; [lia|]. split; [reflexivity|]. destruct (_ =? _); auto.
  - destruct (remove_locked tcx n) as (t1 & objs) eqn:E1. destruct (remove_locked_spec tcx n t1 objs O ltac:(lia) E1) as (_ & _ & _ & _ & Hz).
    injection E as <- <- <-. split; [lia|]. split; [reflexivity|]. split; [exact HT|]. destruct objs as [|y objs]; [exact Ha|]. split; [lia|discriminate].
  - exfalso. apply (Hm n). reflexivity.
  - injection E as <- <- <-. split; [exact I|]. auto.
Qed.

Lemma last_split (l : list Z) : l <> [] -> l = removelast l ++ [last l 0].
Proof. intros. apply app_removelast_last. assumption. Qed.

Lemma refill_good p s t s1 give take target total r got : finv p s -> moved p t s s1 give take ->
  Permutation (pc_objs (s_pc s t) ++ take) (give ++ oobj r) -> r <> None -> 0 < total <= target -> target <= max_target ->
  good p s t (refill_test s1 t target total r got 0).
Proof.
  intros Iv M P Hr Ht Hm. unfold refill_test. change (0 =? 0) with true. rewrite andb_true_r.
  destruct ((got =? kMaxObjectsToMove) && (total <? target)) eqn:E.
  - apply andb_prop in E. eapply good_go; [apply (i_nd _ _ Iv)|exact M|exact P|]. cbn [pc_ok]. split; [lia|]. split; [exact Hm|]. intros ->. congruence.
  - eapply good_malloc; [apply (i_nd _ _ Iv)|exact M|exact P|congruence].
Qed.

Lemma start_cpu_moved p t s c : winv p s -> moved p t s (start_cpu s c) [] [].
Proof.
  intros W. exists 0, 0. split; [agr|]. split; [|repeat split; reflexivity].
  destruct W as [W1 W2 W3 W4 W5 W6]. split; cbn [s_slab s_cap s_shard s_main s_at s_stop start_cpu]; try assumption.
  intros t' c' H. destruct (W6 _ _ H) as (A & B). split; [exact A|]. destruct (Z.eq_dec c' c) as [->|N]; [apply upd_same|rewrite upd_other by exact N; exact B].
Qed.

Lemma resume_good p s t T got ok k : finv p s -> s_pc s t = InCall [(T, TDone got ok)] k -> good p s t (resume s t k got).
Proof.
  intros Iv E. pose proof (i_w _ _ Iv) as W. pose proof (i_pc _ _ Iv t) as Q. pose proof (i_nd _ _ Iv) as Nd. rewrite E in Q.
  assert (PO : pc_objs (s_pc s t) = got ++ kont_objs k).
  { rewrite E. cbn [pc_objs flat_map snd]. unfold held. cbn [carried app]. rewrite app_nil_r. reflexivity. }
  pose proof (moved_refl p t s W) as M0.
  destruct k as [|target total r|r| |target total count|cpu rest|cpu|]; cbn [resume kont_objs] in *.
  - destruct Q as (_ & Z1 & Hoom). cbn [snd] in *. destruct got as [|x got]; [eapply good_malloc; [exact Nd|exact M0|rewrite PO; reflexivity|intros; apply Hoom; reflexivity]|].
    destruct got as [|y got]; [|exfalso; rewrite !zlen_cons in Z1; pose proof (zlen_nonneg got); lia].
    eapply good_malloc; [exact Nd|exact M0|rewrite PO; reflexivity|discriminate].
  - destruct Q as (B1 & B2 & B3 & (_ & Z1 & Hoom)). cbn [snd] in *. destruct (zlen got =? 0) eqn:Eg.
    + assert (got = []) as -> by (destruct got; [reflexivity|rewrite zlen_cons in Eg; pose proof (zlen_nonneg got); lia]).
      eapply good_malloc; [exact Nd|exact M0|rewrite PO, app_nil_r; reflexivity|]. intros _. apply Hoom. reflexivity.
    + apply Z.eqb_neq in Eg. assert (Gne : got <> []) by (intros ->; apply Eg; reflexivity). pose proof (zlen_nonneg got) as Gn. unfold kMaxObjectsToMove in Z1.
      destruct r as [x|].
      * destruct got as [|y got]; [congruence|]. eapply good_go; [exact Nd|exact M0|rewrite PO, app_nil_r; cbn [pc_objs oobj]; clear; pcount|].
        cbn [pc_ok]. split; [lia|]. split; [exact B2|]. split; [discriminate|]. split; [lia|]. split; [|lia]. apply (sized_ne 128); [lia|reflexivity|discriminate].
      * pose proof (last_split got Gne) as Hl. specialize (B3 eq_refl). subst total. destruct (removelast got) as [|y b] eqn:Eb.
        -- eapply refill_good; [exact Iv|exact M0|rewrite PO, app_nil_r; cbn [oobj]; rewrite Hl at 1; cbn [app]; reflexivity|discriminate|lia|exact B2].
        -- assert (Zb : zlen got = zlen (y :: b) + 1) by (rewrite Hl at 1; rewrite zlen_app; reflexivity).
           eapply good_go; [exact Nd|exact M0|rewrite PO, !app_nil_r; cbn [pc_objs oobj]; rewrite Hl at 1; set (z := last got 0); clearbody z; clear; pcount|].
           cbn [pc_ok]. split; [lia|]. split; [exact B2|]. split; [discriminate|]. split; [lia|]. split; [|lia]. apply (sized_ne 128); [lia|reflexivity|discriminate].
  - destruct Q as (Hr & (_ & ->) & _). eapply good_malloc; [exact Nd|exact M0|rewrite PO, app_nil_r; reflexivity|congruence].
  - destruct Q as ((_ & ->) & _). eapply good_free; [exact Nd|exact M0|rewrite PO; reflexivity].
  - destruct Q as (B1 & B2 & B3 & (_ & ->) & _). destruct (negb (count =? kMaxObjectsToMove)); [eapply good_free; [exact Nd|exact M0|rewrite PO; reflexivity]|].
    destruct (total <? target) eqn:Et; [|eapply good_free; [exact Nd|exact M0|rewrite PO; reflexivity]].
    eapply good_go; [exact Nd|exact M0|rewrite PO; reflexivity|]. cbn [pc_ok]. unfold zlen. cbn [length]. lia.
  - destruct Q as (Hc & (_ & ->) & _). eapply good_go; [exact Nd|exact M0|rewrite PO, app_nil_r; reflexivity|exact Hc].
  - destruct Q as (Hc & (_ & ->) & _). eapply good_bg; [exact Nd|apply start_cpu_moved; exact W|rewrite PO; reflexivity].
  - destruct Q as ((_ & ->) & _). eapply good_bg; [exact Nd|exact M0|rewrite PO; reflexivity].
Qed.

Lemma ins_frames_held p fr : Forall (quiet p) fr -> flat_map (fun x => held (snd x)) fr = [].
Proof. induction 1 as [|x l (_ & H) _ IH]; [reflexivity|]. cbn [flat_map]. rewrite H, IH. reflexivity. Qed.

(** Every continuation but the two that wait for objects has a call that gives objects. *)
Definition waits (k : kont) : bool := match k with KPop | KFetch _ _ _ => true | _ => false end.
Lemma ins_of p oom fr k : pc_ok p oom (InCall fr k) -> waits k = false -> ins_frames p fr.
Proof. destruct k; cbn [pc_ok waits]; intros H E; try discriminate; tauto. Qed.
Lemma ins_back p oom fr fr' k : pc_ok p oom (InCall fr k) -> waits k = false -> ins_frames p fr' -> pc_ok p oom (InCall fr' k).
Proof. destruct k; cbn [pc_ok waits]; intros H E F; try discriminate; tauto. Qed.
Definition limit_of (k : kont) : Z := match k with KFetch target total _ => Z.min kMaxObjectsToMove (target - total) | _ => 1 end.
Lemma rem_of p oom fr k : pc_ok p oom (InCall fr k) -> waits k = true -> rem_frames p (limit_of k) oom fr /\ limit_of k <= kMaxObjectsToMove.
Proof. destruct k; cbn [pc_ok waits limit_of]; intros H E; try discriminate; unfold kMaxObjectsToMove in *; split; try tauto; lia. Qed.
Lemma rem_back p oom oom' fr fr' k : pc_ok p oom (InCall fr k) -> waits k = true -> rem_frames p (limit_of k) oom' fr' -> pc_ok p oom' (InCall fr' k).
Proof. destruct k; cbn [pc_ok waits limit_of]; intros H E F; try discriminate; tauto. Qed.

Lemma tc_frame_good p s t c T a fr k : fpar_ok p -> finv p s -> s_pc s t = InCall ((T, a) :: fr) k -> T <> TCfl ->
  (forall got ok, a <> TDone got ok) -> (forall n, a <> TRemoveMiss n) ->
  good p s t (let '(x, a', l) := tstep (f_batch p) (get_tc s T) a (c_lock c) [] in
              match l with
              | LInsert batch => enter_insert (set_tc s T x) t (below T) batch ((T, a') :: fr) k
              | _ => go (set_tc s T x) t (InCall ((T, a') :: fr) k)
              end).
Proof.
  intros Hp Iv E HC Hd Hm. pose proof (i_w _ _ Iv) as W. pose proof (i_pc _ _ Iv t) as Q. pose proof (i_nd _ _ Iv) as Nd. rewrite E in Q.
  assert (Hb0 : 0 <= f_batch p) by (destruct Hp; lia). destruct (tstep _ _ _ _ _) as ((x & a') & l) eqn:ET. destruct (waits k) eqn:Ew.
  - destruct (rem_of _ _ _ _ Q Ew) as (Rf & Rl). destruct fr as [|? ?]; [|contradiction]. cbn [rem_frames] in Rf.
    destruct (tstep_rem p s T a (c_lock c) _ _ x a' l W HC Rf Hm Rl ET) as (Ha & -> & Rf').
    destruct (tc_moved p t s T a (c_lock c) x a' _ W Hb0 (proj1 Rf) HC Ha ET) as (M & _); [discriminate|]. cbn [forwarded] in M.
    eapply good_go; [exact Nd|exact M| |eapply rem_back; [exact Q|exact Ew|exact Rf']].
    rewrite E. cbn [pc_objs flat_map snd]. set (A := held a). set (A' := held a'). set (K := kont_objs k). clearbody A A' K. clear. pcount.
  - pose proof (ins_of _ _ _ _ Q Ew) as (If & Iq).
    destruct (tstep_ins p s T a (c_lock c) x a' l Hp W HC If ET) as (Ha & [(-> & If')|(b & -> & Sb & Qa)]).
    + destruct (tc_moved p t s T a (c_lock c) x a' _ W Hb0 (proj1 If) HC Ha ET) as (M & _); [discriminate|]. cbn [forwarded] in M.
      eapply good_go; [exact Nd|exact M| |eapply ins_back; [exact Q|exact Ew|split; [exact If'|exact Iq]]].
      rewrite E. cbn [pc_objs flat_map snd]. set (A := held a). set (A' := held a'). set (K := kont_objs k). set (F := flat_map _ fr). clearbody A A' K F. clear. pcount.
    + destruct (tc_moved p t s T a (c_lock c) x a' _ W Hb0 (proj1 If) HC Ha ET) as (M & _); [discriminate|]. cbn [forwarded] in M.
      eapply good_insert; [exact Nd|exact M|exact Sb| |eapply ins_back; [exact Q|exact Ew|]].
      * rewrite E. cbn [pc_objs flat_map snd]. change (held (TInsert b)) with (b ++ []). set (A := held a). set (A' := held a'). set (K := kont_objs k). set (F := flat_map _ fr). clearbody A A' K F. clear. pcount.
      * split; [|constructor; [exact Qa|exact Iq]]. split; [destruct T; exact I|exact Sb].
Qed.

Lemma NoDup_new (new l : list Z) : NoDup new -> (forall x, In x new -> ~ In x l) -> NoDup l -> NoDup (new ++ l).
Proof.
  induction new as [|a new IH]; intros H D L; [exact L|]. cbn [app]. apply NoDup_cons_iff in H. destruct H as (H1 & H2). constructor.
  - rewrite in_app_iff. intros [X|X]; [tauto|]. exact (D a (or_introl eq_refl) X).
  - apply IH; [exact H2| |exact L]. intros x Hx. apply D. right. exact Hx.
Qed.

Lemma cfl_remove_good p s t c n fr k : fpar_ok p -> finv p s -> s_pc s t = InCall ((TCfl, TRemove n) :: fr) k -> cfl_answer s n c ->
  good p s t (go (set_oom (set_cfl s (c_rest c) (c_new c ++ s_owned s)) t (match c_got c with [] => true | _ => s_oom s t end)) t
              (InCall ((TCfl, TDone (c_got c) true) :: fr) k)).
Proof.
  intros Hp Iv E (A1 & A2 & A3 & A4). pose proof (i_w _ _ Iv) as W. pose proof (i_pc _ _ Iv t) as Q. pose proof (i_nd _ _ Iv) as Nd. rewrite E in Q.
  destruct (waits k) eqn:Ew; [|exfalso; destruct (ins_of _ _ _ _ Q Ew) as ((_ & F) & _); exact F].
  destruct (rem_of _ _ _ _ Q Ew) as (Rf & Rl). destruct fr as [|? ?]; [|contradiction]. destruct Rf as (_ & Rf). cbn [snd] in Rf.
  eexists _, _. split; [reflexivity|]. split; [|reflexivity]. exists 0, 0, (c_new c).
  split; [agr|]. split; [destruct W; split; assumption|]. cbn [s_oom s_pc set_pc set_oom]. rewrite !upd_same. split.
  - eapply rem_back; [exact Q|exact Ew|]. split; [exact I|]. cbn [snd]. split; [lia|]. intros ->. reflexivity.
  - split; [|split; [reflexivity|apply NoDup_new; assumption]]. unfold local. cbn [s_slab s_shard s_main s_cfl s_live set_pc set_oom set_cfl]. rewrite E. cbn [pc_objs flat_map snd].
    change (held (TRemove n)) with (@nil Z). change (held (TDone (c_got c) true)) with (c_got c).
    set (Y1 := s_slab s 0). set (Y2 := cached _). set (Y3 := cached _). set (K := kont_objs k). clearbody Y1 Y2 Y3 K. clear - A1. pcount.
Qed.

Lemma call_step_good p s t c T a fr k : fpar_ok p -> finv p s -> s_pc s t = InCall ((T, a) :: fr) k -> choice_ok p s t c ->
  good p s t (call_step p s t c T a fr k).
Proof.
  intros Hp Iv E Hc. pose proof (i_w _ _ Iv) as W. pose proof (i_pc _ _ Iv t) as Q. pose proof (i_nd _ _ Iv) as Nd. rewrite E in Q. pose proof (moved_refl p t s W) as M0.
  unfold call_step. assert (HD : (exists got ok, a = TDone got ok) \/ (forall got ok, a <> TDone got ok)) by (destruct a; try (right; discriminate); left; eauto).
  destruct HD as [(got & ok & ->)|HD].
  { destruct fr as [|x fr]; [eapply resume_good; [exact Iv|exact E]|].
    destruct (waits k) eqn:Ew; [destruct (rem_of _ _ _ _ Q Ew) as (F & _); contradiction|].
    pose proof (ins_of _ _ _ _ Q Ew) as ((_ & ->) & Iq). inversion Iq as [|? ? (If & _) Iq']; subst.
    eapply good_go; [exact Nd|exact M0|rewrite E; cbn [pc_objs flat_map snd]; change (held (TDone [] ok)) with (@nil Z); rewrite app_nil_r; reflexivity|].
    eapply ins_back; [exact Q|exact Ew|]. split; assumption. }
  assert (HT : T = TCfl \/ T <> TCfl) by (destruct T; [right; discriminate|right; discriminate|left; reflexivity]). destruct HT as [->|HT].
  { destruct (waits k) eqn:Ew.
    - destruct (rem_of _ _ _ _ Q Ew) as (Rf & _). destruct fr as [|? ?]; [|contradiction]. destruct Rf as (_ & Rf). cbn [fst snd] in Rf.
      destruct a as [b|b|b|n|n|n| |b r|r| | |b|res ok]; try contradiction; try (exfalso; apply (proj2 Rf); reflexivity).
      + apply cfl_remove_good with (n := n); [exact Hp|exact Iv|exact E|]. destruct Hc as (_ & _ & Hc). rewrite E in Hc. exact Hc.
      + exfalso. exact (HD res ok eq_refl).
    - pose proof (ins_of _ _ _ _ Q Ew) as ((_ & If) & Iq). cbn [fst snd] in If.
      destruct a as [b|b|b|n|n|n| |b r|r| | |b|res ok]; try contradiction; try (exfalso; tauto); try (exfalso; destruct If as (_ & _ & If); apply If; reflexivity).
      + eapply good_go with (give := b) (take := []); [exact Nd| | |eapply ins_back; [exact Q|exact Ew|split; [split; [exact I|reflexivity]|exact Iq]]].
        * exists 0, 0. split; [agr|]. split; [destruct W; split; assumption|]. repeat (split; [reflexivity|]). unfold local. cbn [s_slab s_shard s_main s_cfl s_live set_cfl].
          set (Y1 := s_slab s 0). set (Y2 := cached _). set (Y3 := cached _). clearbody Y1 Y2 Y3. clear. pcount.
        * rewrite E. cbn [pc_objs flat_map snd]. change (held (TInsert b)) with (b ++ []). change (held tdone) with (@nil Z). set (F := flat_map _ fr). clearbody F. rewrite !app_nil_r. cbn [app]. rewrite app_assoc. reflexivity.
      + exfalso. exact (HD res ok eq_refl). }
  assert (HM : (exists n, a = TRemoveMiss n) \/ (forall n, a <> TRemoveMiss n)) by (destruct a; try (right; discriminate); left; eauto).
  destruct HM as [(n & ->)|HM].
  { destruct (waits k) eqn:Ew; [|exfalso; destruct (ins_of _ _ _ _ Q Ew) as ((_ & F) & _); exact F].
    destruct (rem_of _ _ _ _ Q Ew) as (Rf & Rl). destruct fr as [|? ?]; [|contradiction]. destruct Rf as (_ & (Rn & _)).
    assert (G : good p s t (enter_remove s t (below T) n [] k)).
    { eapply good_remove; [exact Nd|exact M0|lia|rewrite E, app_nil_r; reflexivity|]. eapply rem_back; [exact Q|exact Ew|]. split; [destruct T; exact I|exact Rn]. }
    destruct T; [exact G|exact G|congruence]. }
  pose proof (tc_frame_good p s t c T a fr k Hp Iv E HT HD HM) as G.
  destruct T as [i| |]; [| |congruence]; destruct a; try exact G; try (exfalso; eapply HD; reflexivity); exfalso; eapply HM; reflexivity.
Qed.

Lemma tier_backing p c : fpar_ok p -> is_cpu p (c_cpu c) -> tier_ok p (backing p c) /\ tier_ok p (shard_tier p c).
Proof. intros (_ & H) Hc. specialize (H _ Hc). unfold backing, shard_tier. destruct (f_sharded p); cbn [tier_ok]; auto. Qed.

Lemma thread_step_good p s t c : fpar_ok p -> finv p s -> s_pc s t <> Idle -> choice_ok p s t c -> good p s t (thread_step p s t c).
Proof.
  intros Hp Iv Hi Hc. pose proof (i_w _ _ Iv) as W. pose proof (i_pc _ _ Iv t) as Q. pose proof (i_nd _ _ Iv) as Nd. pose proof (moved_refl p t s W) as M0.
  pose proof Hc as (Hcpu & Hsucc & Hcc). destruct (tier_backing p c Hp Hcpu) as (Tb & Ts). unfold thread_step.
  destruct (s_pc s t) as [| | |cpu|cpu|target total r|target total r got b|x|x|cpu x|cpu x|target total b|cpu rest|fr k] eqn:E; cbn [pc_ok] in Q.
  - congruence.
  - destruct (slab_pop s t) as [(x & s1)|] eqn:Ep; [eapply good_malloc; [exact Nd|eapply pop_moved; eassumption|rewrite E; reflexivity|discriminate]|].
    eapply good_go; [exact Nd|exact M0|rewrite E; reflexivity|exact I].
  - destruct (f_bypass p); [eapply good_remove; [exact Nd|exact M0|unfold kMaxObjectsToMove; lia|rewrite E; reflexivity|split; [exact Ts|cbn [snd]; lia]]|].
    destruct (cache_cpu_slab s t c) as (s1 & r) eqn:Ec. destruct (cache_moved p t s c s1 r W Hcpu Ec) as (M & Hr). destruct r as [cpu| |cpu].
    + eapply good_go; [exact Nd|exact M|rewrite E; reflexivity|exact Hr].
    + eapply good_remove; [exact Nd|exact M|unfold kMaxObjectsToMove; lia|rewrite E; reflexivity|split; [exact Tb|cbn [snd]; lia]].
    + eapply good_go; [exact Nd|exact M|rewrite E; reflexivity|exact Hr].
  - destruct (slab_pop s t) as [(x & s1)|] eqn:Ep; [eapply good_malloc; [exact Nd|eapply pop_moved; eassumption|rewrite E; reflexivity|discriminate]|].
    eapply good_go; [exact Nd|exact M0|rewrite E; reflexivity|exact Q].
  - destruct (update_moved p t s cpu c Hp W Q Hsucc Hcc) as (s1 & target & -> & M & Ht). cbn [obind fst snd].
    eapply good_go; [exact Nd|exact M|rewrite E; reflexivity|]. cbn [pc_ok]. lia.
  - destruct Q as (B1 & B2 & B3). assert (Ew : wrap64 (target - total) = target - total) by (apply wrap64_small; unfold max_target, two64 in *; lia). rewrite Ew.
    eapply good_remove; [exact Nd|exact M0|unfold kMaxObjectsToMove; lia|rewrite E; cbn [pc_objs flat_map snd]; rewrite app_nil_r; reflexivity|].
    cbn [pc_ok rem_frames]. split; [exact B1|]. split; [exact B2|]. split; [exact B3|]. split; [exact Tb|]. cbn [snd]. unfold kMaxObjectsToMove. lia.
  - destruct Q as (B1 & B2 & B3 & B4 & B5 & B6). destruct (slab_push_batch s t b) as (s1 & rest) eqn:Ep. destruct (push_batch_moved p t s b s1 rest W Ep) as (fit & -> & M).
    destruct rest as [|y rest].
    + eapply refill_good; [exact Iv|exact M|rewrite E; cbn [pc_objs app]; rewrite app_nil_r; apply Permutation_app_comm|exact B3|exact B1|exact B2].
    + eapply good_insert; [exact Nd|exact M| | |].
      * unfold sized in *. rewrite zlen_app in B5. pose proof (zlen_nonneg fit). rewrite zlen_cons in *. pose proof (zlen_nonneg rest). lia.
      * rewrite E. cbn [pc_objs flat_map snd kont_objs]. change (held (TInsert (y :: rest))) with ((y :: rest) ++ []). set (o := oobj r). clearbody o. clear. pcount.
      * split; [exact B3|]. split; [|constructor]. split; [exact Tb|]. unfold sized in *. cbn [snd]. rewrite zlen_app in B5. pose proof (zlen_nonneg fit). rewrite zlen_cons in *. pose proof (zlen_nonneg rest). lia.
  - destruct (slab_push s t x) as [s1|] eqn:Ep; [eapply good_free; [exact Nd|eapply push_moved; eassumption|rewrite E; reflexivity]|].
    eapply good_go; [exact Nd|exact M0|rewrite E; reflexivity|exact I].
  - assert (Sx : sized [x]) by (unfold sized, zlen, kMaxObjectsToMove; cbn [length]; lia).
    destruct (f_bypass p); [eapply good_insert; [exact Nd|exact M0|exact Sx|rewrite E; reflexivity|split; [split; [exact Ts|exact Sx]|constructor]]|].
    destruct (cache_cpu_slab s t c) as (s1 & r) eqn:Ec. destruct (cache_moved p t s c s1 r W Hcpu Ec) as (M & Hr). destruct r as [cpu| |cpu].
    + eapply good_go; [exact Nd|exact M|rewrite E; reflexivity|exact Hr].
    + eapply good_insert; [exact Nd|exact M|exact Sx|rewrite E; reflexivity|split; [split; [exact Tb|exact Sx]|constructor]].
    + eapply good_go; [exact Nd|exact M|rewrite E; reflexivity|exact Hr].
  - destruct (slab_push s t x) as [s1|] eqn:Ep; [eapply good_free; [exact Nd|eapply push_moved; eassumption|rewrite E; reflexivity]|].
    eapply good_go; [exact Nd|exact M0|rewrite E; reflexivity|exact Q].
  - destruct (update_moved p t s cpu c Hp W Q Hsucc Hcc) as (s1 & target & -> & M & Ht). cbn [obind fst snd].
    eapply good_go; [exact Nd|exact M|rewrite E; reflexivity|]. cbn [pc_ok]. unfold zlen. cbn [length]. lia.
  - destruct Q as (B1 & B2 & B3). assert (Ew : wrap64 (target - total) = target - total) by (apply wrap64_small; unfold max_target, two64 in *; lia). rewrite Ew.
    set (want := Z.min kMaxObjectsToMove (target - total)). assert (Hw : 0 < want <= kMaxObjectsToMove /\ want <= target - total) by (unfold want, kMaxObjectsToMove; lia). clearbody want.
    assert (HM : exists s1 more, (if zlen b <? want then slab_pop_batch s t (want - zlen b) else (s, [])) = (s1, more) /\ moved p t s s1 [] more /\ zlen (b ++ more) <= want).
    { destruct (zlen b <? want) eqn:El.
      - destruct (slab_pop_batch s t (want - zlen b)) as (s1 & more) eqn:Ep. apply Z.ltb_lt in El. destruct (pop_batch_moved p t s (want - zlen b) s1 more W ltac:(lia) Ep) as (M & Hz).
        exists s1, more. split; [reflexivity|]. split; [exact M|]. rewrite zlen_app. lia.
      - exists s, []. split; [reflexivity|]. split; [exact M0|]. rewrite app_nil_r. apply Z.ltb_ge in El. lia. }
    destruct HM as (s1 & more & -> & M & Hz). destruct (b ++ more) as [|y l] eqn:Eb.
    + apply app_eq_nil in Eb. destruct Eb as (-> & ->). eapply good_free; [exact Nd|exact M|rewrite E; reflexivity].
    + assert (Sx : sized (y :: l)) by (unfold sized in *; rewrite zlen_cons in *; pose proof (zlen_nonneg l); lia).
      eapply good_insert; [exact Nd|exact M|exact Sx| |].
      * rewrite E. cbn [pc_objs flat_map snd kont_objs]. rewrite Eb. change (held (TInsert (y :: l))) with ((y :: l) ++ []). rewrite !app_nil_r. reflexivity.
      * cbn [pc_ok]. unfold sized in Sx. split; [lia|]. split; [lia|]. split; [exact B2|]. split; [|constructor]. split; [exact Tb|exact Sx].
  - destruct rest as [|y rest]; [eapply good_bg; [exact Nd|apply start_cpu_moved; exact W|rewrite E; reflexivity]|].
    set (n := Z.min (f_batch p) (zlen (y :: rest))). pose proof (zlen_nonneg rest) as Hr. destruct Hp as (Hb & _).
    assert (Hn : 0 < n <= f_batch p /\ n <= zlen (y :: rest)) by (unfold n; rewrite zlen_cons; lia). clearbody n.
    assert (Sx : sized (firstn (Z.to_nat n) (y :: rest))) by (unfold sized, zlen in *; rewrite firstn_length; lia).
    eapply good_insert; [exact Nd|exact M0|exact Sx| |].
    + rewrite E. cbn [pc_objs flat_map snd kont_objs]. change (held (TInsert ?b)) with (b ++ []). rewrite !app_nil_r. cbn [app]. rewrite firstn_skipn. reflexivity.
    + split; [exact Q|]. split; [|constructor]. split; [exact Tb|exact Sx].
  - destruct fr as [|(T & a) fr].
    + exfalso. destruct k; cbn [rem_frames ins_frames] in Q; tauto.
    + apply call_step_good; assumption.
Qed.

(** ** Starting a call, and the environment *)
Lemma remove1_perm x l : In x l -> Permutation l (x :: remove1 x l).
Proof.
  induction l as [|y l IH]; [intros []|]. cbn [remove1]. destruct (Z.eqb_spec y x) as [->|N]; [reflexivity|].
  intros [->|H]; [congruence|]. rewrite (IH H) at 1. apply perm_swap.
Qed.

Lemma stop_winv p s c : winv p s -> winv p (stop_cpu s c).
Proof.
  intros [W1 W2 W3 W4 W5 W6]. split; cbn [s_slab s_cap s_shard s_main s_at s_stop stop_cpu]; try assumption.
  intros t' c'. destruct (s_at s t') as [c1|] eqn:E; [|discriminate]. destruct (c1 =? c) eqn:Ec; [discriminate|]. intros H. injection H as <-. apply Z.eqb_neq in Ec.
  rewrite upd_other by exact Ec. eapply W6. exact E.
Qed.

Lemma start_post p s t o s' : fpar_ok p -> finv p s -> s_pc s t = Idle -> start p s t o = Some s' -> post p t s s'.
Proof.
  intros Hp Iv Hi. pose proof (i_w _ _ Iv) as W. pose proof (i_nd _ _ Iv) as Nd. destruct o as [|x|cpu|cpu|T a]; cbn [start].
  - intros H. injection H as <-. exists 0, 0, []. split; [agr|]. split; [destruct W; split; assumption|]. cbn [s_pc set_pc s_owned]. rewrite upd_same, Hi. split; [exact I|]. split; [reflexivity|]. split; [reflexivity|exact Nd].
  - destruct (existsb (Z.eqb x) (s_live s)) eqn:El; [|discriminate]. intros H. injection H as <-. apply existsb_exists in El. destruct El as (y & Hy & Ey). apply Z.eqb_eq in Ey. subst y.
    exists 0, 0, []. split; [agr|]. split; [destruct W; split; assumption|]. cbn [s_pc set_pc s_owned set_live]. rewrite upd_same, Hi. split; [exact I|]. split; [|split; [reflexivity|exact Nd]].
    pose proof (remove1_perm x _ Hy) as P. unfold local. cbn [s_slab s_shard s_main s_cfl s_live set_pc set_live pc_objs]. set (L := remove1 _ _) in *. set (L0 := s_live s) in *.
    set (Y1 := s_slab s 0). set (Y2 := cached _). set (Y3 := cached _). clearbody Y1 Y2 Y3 L L0. clear - P. pcount.
  - destruct ((0 <=? cpu) && (cpu <? f_ncpu p) && negb (s_stop s cpu)) eqn:Ec; [|discriminate]. intros H. injection H as <-. apply andb_prop in Ec. destruct Ec as (Ec & _).
    assert (Hc : is_cpu p cpu) by (apply andb_prop in Ec; unfold is_cpu; lia). exists cpu, 0, []. split; [agr|]. split.
    { pose proof (stop_winv p s cpu W) as [W1 W2 W3 W4 W5 W6]. split; cbn [s_slab s_cap s_shard s_main s_at s_stop set_pc set_cap set_slab stop_cpu] in *; try assumption.
      - intros c'. destruct (Z.eq_dec c' cpu) as [->|N]; [rewrite !upd_same; reflexivity|rewrite !upd_other by exact N; apply W1].
      - intros c' H. rewrite upd_other; [apply W2; exact H|]. intros ->. tauto. }
    cbn [s_pc set_pc s_owned set_cap set_slab stop_cpu]. rewrite upd_same, Hi. split; [exact Hc|]. split; [|split; [reflexivity|exact Nd]].
    unfold local. cbn [s_slab s_shard s_main s_cfl s_live set_pc set_cap set_slab stop_cpu pc_objs]. rewrite upd_same.
    set (Y1 := s_slab s cpu). set (Y2 := cached _). set (Y3 := cached _). clearbody Y1 Y2 Y3. clear. pcount.
  - destruct ((0 <=? cpu) && (cpu <? f_ncpu p) && negb (s_stop s cpu)) eqn:Ec; [|discriminate]. apply andb_prop in Ec. destruct Ec as (Ec & Es).
    assert (Hc : is_cpu p cpu) by (apply andb_prop in Ec; unfold is_cpu; lia). pose proof (w_cap _ _ W cpu) as Hcap. pose proof (stop_winv p s cpu W) as W'.
    destruct (zlen (s_slab s cpu) <? s_cap s cpu) eqn:El.
    + intros H. injection H as <-. exists 0, 0, []. split; [agr|]. split.
      { destruct W' as [W1 W2 W3 W4 W5 W6]. split; cbn [s_slab s_cap s_shard s_main s_at s_stop set_cap start_cpu stop_cpu] in *; try assumption.
        - intros c'. destruct (Z.eq_dec c' cpu) as [->|N]; [rewrite !upd_same; lia|rewrite !upd_other by exact N; apply W1].
        - intros t' c' H. destruct (W6 _ _ H) as (A & B). split; [exact A|]. destruct (Z.eq_dec c' cpu) as [->|N]; [apply upd_same|rewrite upd_other by exact N; exact B]. }
      cbn [s_pc s_owned set_cap start_cpu stop_cpu]. rewrite Hi. split; [exact I|]. split; [reflexivity|]. split; [reflexivity|exact Nd].
    + destruct (s_slab s cpu) as [|x r] eqn:Er.
      * intros H. injection H as <-. exists 0, 0, []. split; [agr|]. split; [exact W|]. rewrite Hi. split; [exact I|]. split; [reflexivity|]. split; [reflexivity|exact Nd].
      * intros H. injection H as <-. exists cpu, 0, []. split; [agr|]. split.
        { destruct W' as [W1 W2 W3 W4 W5 W6]. split; cbn [s_slab s_cap s_shard s_main s_at s_stop set_pc set_cap set_slab stop_cpu] in *; try assumption.
          - intros c'. destruct (Z.eq_dec c' cpu) as [->|N]; [rewrite !upd_same; rewrite zlen_cons in Hcap; lia|rewrite !upd_other by exact N; apply W1].
          - intros c' H. rewrite upd_other; [apply W2; exact H|]. intros ->. tauto. }
        cbn [s_pc set_pc s_owned set_cap set_slab stop_cpu]. rewrite upd_same, Hi. split.
        { split; [exact Hc|]. split; [|constructor]. split; [|unfold sized, zlen, kMaxObjectsToMove; cbn [snd length]; lia].
          destruct Hp as (_ & Hp). specialize (Hp _ Hc). destruct (f_sharded p); [exact Hp|exact I]. }
        split; [|split; [reflexivity|exact Nd]]. unfold local. cbn [s_slab s_shard s_main s_cfl s_live set_pc set_cap set_slab stop_cpu pc_objs flat_map snd kont_objs]. rewrite upd_same, Er.
        change (held (TInsert [x])) with [x]. set (Y2 := cached _). set (Y3 := cached _). clearbody Y2 Y3. clear. pcount.
  - assert (G : forall a, (a = TPlunder \/ a = TGrow \/ a = TShrink) -> tier_ok p T -> T <> TCfl -> post p t s (set_pc s t (InCall [(T, a)] KBg))).
    { intros b Hb HT HC. exists 0, 0, []. split; [agr|]. split; [apply winv_set_pc; exact W|]. cbn [s_pc set_pc s_owned]. rewrite upd_same, Hi. split.
      - split; [|constructor]. split; [exact HT|]. cbn [fst snd]. destruct Hb as [->|[->| ->]]; exact HC.
      - split; [|split; [reflexivity|exact Nd]]. destruct Hb as [->|[->| ->]]; reflexivity. }
    destruct T as [i| |]; [| |discriminate].
    + destruct a; try discriminate; (destruct ((0 <=? i) && (i <? f_nshard p)) eqn:Ei; [|discriminate]); apply andb_prop in Ei; intros H; injection H as <-; apply G; try tauto; try discriminate; cbn [tier_ok]; lia.
    + destruct a; try discriminate; intros H; injection H as <-; apply G; try tauto; try discriminate; exact I.
Qed.

Lemma env_inv p s s' : finv p s -> fenv p s s' -> finv p s'.
Proof.
  intros [W Q Ho P Nd] H. destruct H as [s t|s c v Hv|s gone l o P1 P2].
  - split; cbn [s_pc s_oom s_owned set_at]; try assumption. destruct W as [W1 W2 W3 W4 W5 W6]. split; cbn [s_slab s_cap s_shard s_main s_at s_stop set_at]; try assumption.
    intros t' c'. destruct (Z.eq_dec t' t) as [->|N]; [rewrite upd_same; discriminate|rewrite upd_other by exact N; apply W6].
  - split; cbn [s_pc s_oom s_owned set_cap]; try assumption. destruct W as [W1 W2 W3 W4 W5 W6]. split; cbn [s_slab s_cap s_shard s_main s_at s_stop set_cap]; try assumption.
    intros c'. destruct (Z.eq_dec c' c) as [->|N]; [rewrite upd_same; exact Hv|rewrite upd_other by exact N; apply W1].
  - split; cbn [s_pc s_oom s_owned set_cfl]; try assumption.
    + destruct W. split; assumption.
    + unfold all, in_caches, in_calls in *. cbn [s_slab s_shard s_main s_cfl s_live s_pc set_cfl].
      set (X1 := flat_map (s_slab s) (cpus p)) in *. set (X2 := flat_map _ (shards p)) in *. set (X3 := flat_map _ (threads p)) in *. set (X4 := cached (s_main s)) in *. clearbody X1 X2 X3 X4. clear - P P1 P2. pcount.
    + apply (Permutation_NoDup P2) in Nd. revert Nd. clear. induction gone as [|a g IH]; [auto|]. cbn [app]. intros H. apply NoDup_cons_iff in H. apply IH, H.
Qed.

Lemma fstep_inv p s l s' : fpar_ok p -> finv p s -> fstep p s l s' -> finv p s'.
Proof.
  intros Hp Iv H. destruct H as [s t o s' Ht Hi Hs|s t c s' l Ht Hi Hc Hs|s s' He].
  - eapply post_inv; [exact Ht|exact Iv|]. eapply start_post; eassumption.
  - destruct (thread_step_good p s t c Hp Iv Hi Hc) as (s1 & l1 & E & P & _). rewrite E in Hs. injection Hs as <- <-. eapply post_inv; eassumption.
  - eapply env_inv; eassumption.
Qed.

Lemma new_tc_ok x : new_tc x -> tc_ok x /\ cached x = [].
Proof. intros (cap & mx & H & ->). split; [unfold tc_ok, tc_new; cbn [t_lwm t_used t_cap t_max]; lia|reflexivity]. Qed.

Lemma flat_map_nil {A} (f : A -> list Z) l : (forall x, f x = []) -> flat_map f l = [].
Proof. intros H. induction l as [|a l IH]; [reflexivity|]. cbn [flat_map]. rewrite H, IH. reflexivity. Qed.

Lemma freach_inv p s : fpar_ok p -> freach p s -> finv p s.
Proof.
  intros Hp H. induction H as [sh m Hs Hm|s l s' _ IH Hst]; [|eapply fstep_inv; eassumption].
  split.
  - split; cbn [s_slab s_cap s_shard s_main s_at s_stop finit]; try reflexivity; try discriminate.
    + intros i. apply new_tc_ok, Hs.
    + intros i _. apply new_tc_ok, Hs.
    + apply new_tc_ok, Hm.
  - intros t. exact I.
  - reflexivity.
  - unfold all, in_caches, in_calls. cbn [s_slab s_shard s_main s_cfl s_live s_pc s_owned finit]. rewrite !flat_map_nil; [|reflexivity|intros i; apply new_tc_ok, Hs|reflexivity].
    rewrite (proj2 (new_tc_ok m Hm)). reflexivity.
  - constructor.
Qed.
