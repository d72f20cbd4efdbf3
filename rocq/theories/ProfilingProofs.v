(** Invariants of the samples and of the profiles in progress (Profiling.v). *)
From Coq Require Import Permutation.
From Verif Require Import Base TransferCache Flow FlowProofs ThreadCacheProofs ThreadCacheProps Profiling.

(** ** How far the sample that a thread holds has come *)
Definition hheld (q : ppc) : list Z :=
  match q with M2 h | M3 h | M4 h | M5 h | M6 h | M7 h | M8 h | M9 h | M10 h _ | M11 h _ _ | F1 h | F2 h | F3 h | F4 h => [h] | _ => [] end.
Definition hfrag (q : ppc) : list Z :=
  match q with M3 h | M4 h | M5 h | M6 h | M7 h | M8 h | M9 h | M10 h _ | M11 h _ _ | F1 h | F2 h | F3 h => [h] | _ => [] end.
Definition hrep (q : ppc) : list Z :=
  match q with M4 h | M5 h | M6 h | M7 h | M8 h | M9 h | M10 h _ | M11 h _ _ | F1 h | F2 h | F3 h | F4 h => [h] | _ => [] end.
Definition hdrep (q : ppc) : list Z :=
  match q with M5 h | M6 h | M7 h | M8 h | M9 h | M10 h _ | M11 h _ _ | F1 h | F2 h | F3 h | F4 h => [h] | _ => [] end.
Definition hever (q : ppc) : list Z :=
  match q with M6 h | M7 h | M8 h | M9 h | M10 h _ | M11 h _ _ | F1 h | F2 h | F3 h | F4 h => [h] | _ => [] end.
Definition hreg (q : ppc) : list Z :=
  match q with M6 h | M7 h | M8 h | M9 h | M10 h _ | M11 h _ _ | F1 h | F2 h => [h] | _ => [] end.
Definition hsize (q : ppc) : list Z :=
  match q with M7 h | M8 h | M9 h | M10 h _ | M11 h _ _ | F1 h => [h] | _ => [] end.
Definition hcnt (q : ppc) : list Z :=
  match q with M7 h | M8 h | M9 h | M10 h _ | M11 h _ _ | F1 h | F2 h | F3 h | F4 h => [h] | _ => [] end.

Definition thr (p : ppar) : list Z := zseq 0 (Z.to_nat (p_nthr p)).
Definition fm (p : ppar) (f : ppc -> list Z) (pc : Z -> ppc) : list Z := flat_map (fun t => f (pc t)) (thr p).

Lemma fm_upd p f pc t : 0 <= t < p_nthr p -> exists R, Permutation (fm p f pc) (f (pc t) ++ R) /\ forall q, Permutation (fm p f (upd pc t q)) (f q ++ R).
Proof.
  intros Ht. destruct (flat_map_split (fun t => f (pc t)) (thr p) t) as (R & E & H).
  { apply zseq_NoDup. } { apply zseq_In. lia. }
  exists R. split; [exact E|]. intros q. specialize (H (fun j => f (upd pc t q j))). cbn beta in H. rewrite upd_same in H.
  apply H. intros j Hj. rewrite upd_other by exact Hj. reflexivity.
Qed.
Lemma fm_In p f pc h : In h (fm p f pc) <-> exists t, 0 <= t < p_nthr p /\ In h (f (pc t)).
Proof.
  unfold fm. rewrite in_flat_map. split; intros (t & A & B); exists t; (split; [|exact B]); apply zseq_In in A || apply zseq_In; lia.
Qed.
Lemma fm_nil p f pc : (forall t, 0 <= t < p_nthr p -> f (pc t) = []) -> fm p f pc = [].
Proof.
  intros H. destruct (fm p f pc) as [|a l] eqn:E; [reflexivity|]. assert (I : In a (fm p f pc)) by (rewrite E; left; reflexivity).
  apply fm_In in I. destruct I as (t & A & B). rewrite H in B by exact A. destruct B.
Qed.

Definition wsum (b : sample -> Z) (info : Z -> sample) (l : list Z) : Z := zsum (map (fun h => b (info h)) l).
Lemma wsum_app b i l m : wsum b i (l ++ m) = wsum b i l + wsum b i m.
Proof. unfold wsum. rewrite map_app, zsum_app. reflexivity. Qed.
Lemma wsum_cons b i h l : wsum b i (h :: l) = b (i h) + wsum b i l.
Proof. reflexivity. Qed.
Lemma wsum_perm b i l m : Permutation l m -> wsum b i l = wsum b i m.
Proof. intros H. apply zsum_perm, Permutation_map, H. Qed.
Lemma wsum_info b i l h x : ~ In h l -> wsum b (upd i h x) l = wsum b i l.
Proof.
  intros H. unfold wsum. f_equal. apply map_ext_in. intros a Ha. rewrite upd_other; [reflexivity|]. intros ->. exact (H Ha).
Qed.
Lemma wsum_nonneg b i l : (forall x, 0 <= b x) -> 0 <= wsum b i l.
Proof. intros H. induction l as [|a l IH]; [unfold wsum; cbn [map zsum]; lia|]. rewrite wsum_cons. specialize (H (i a)). lia. Qed.

Record PA (p : ppar) (s : pstate) : Prop := {
  a_nd : NoDup (g_live s ++ g_dead s ++ fm p hheld (g_pc s));
  a_gen : forall h, In h (g_live s ++ g_dead s ++ fm p hheld (g_pc s)) -> 0 < h <= g_gen s;
  a_gen0 : 0 <= g_gen s;
  a_reg : Permutation (g_reg s) (g_live s ++ fm p hreg (g_pc s));
  a_ever : Permutation (g_ever s) (g_live s ++ g_dead s ++ fm p hever (g_pc s));
  a_rep : Permutation (g_rep s) (g_live s ++ g_dead s ++ fm p hrep (g_pc s));
  a_drep : Permutation (g_drep s) (g_live s ++ g_dead s ++ fm p hdrep (g_pc s));
  a_size : g_size s = wsum (p_bytes p) (g_info s) (g_live s ++ fm p hsize (g_pc s));
  a_frag : g_frag s = wsum (p_frag p) (g_info s) (g_live s ++ fm p hfrag (g_pc s));
  a_cnt : g_count s = zlen (g_live s ++ g_dead s ++ fm p hcnt (g_pc s)) }.

Lemma member_iff x l : member x l = true <-> In x l.
Proof.
  unfold member. rewrite existsb_exists. split.
  - intros (y & A & B). apply Z.eqb_eq in B. subst. exact A.
  - intros H. exists x. split; [exact H|apply Z.eqb_refl].
Qed.
Lemma member_false x l : member x l = false <-> ~ In x l.
Proof. rewrite <- member_iff. destruct (member x l); split; congruence. Qed.

Lemma PA_init p : PA p pinit.
Proof.
  assert (E : forall f, f PIdle = [] -> fm p f (g_pc pinit) = []).
  { intros f Hf. apply fm_nil. intros t _. exact Hf. }
  constructor; cbn [pinit g_live g_dead g_reg g_ever g_rep g_drep g_gen g_size g_frag g_count app];
    try (change (fun _ : Z => PIdle) with (g_pc pinit)); rewrite ?E by reflexivity; try reflexivity; try lia; try (intros h []); apply NoDup_nil.
Qed.

Lemma subl p f pc h : (forall q x, In x (f q) -> In x (hheld q)) -> In h (fm p f pc) -> In h (fm p hheld pc).
Proof. intros H. rewrite !fm_In. intros (t & A & B). exists t. split; [exact A|exact (H _ _ B)]. Qed.
Lemma sub_size q x : In x (hsize q) -> In x (hheld q). Proof. destruct q; cbn; tauto. Qed.
Lemma sub_frag q x : In x (hfrag q) -> In x (hheld q). Proof. destruct q; cbn; tauto. Qed.
Lemma sub_reg q x : In x (hreg q) -> In x (hheld q). Proof. destruct q; cbn; tauto. Qed.
Lemma sub_ever q x : In x (hever q) -> In x (hheld q). Proof. destruct q; cbn; tauto. Qed.
Lemma sub_rep q x : In x (hrep q) -> In x (hheld q). Proof. destruct q; cbn; tauto. Qed.
Lemma sub_drep q x : In x (hdrep q) -> In x (hheld q). Proof. destruct q; cbn; tauto. Qed.

Lemma zlen_perm (l m : list Z) : Permutation l m -> zlen l = zlen m.
Proof. intros H. unfold zlen. rewrite (Permutation_length H). reflexivity. Qed.
Lemma zlen_app' (l m : list Z) : zlen (l ++ m) = zlen l + zlen m.
Proof. unfold zlen. rewrite app_length. lia. Qed.
Lemma zlen_cons' (a : Z) l : zlen (a :: l) = 1 + zlen l.
Proof. unfold zlen. cbn [length]. lia. Qed.

Ltac psimp := cbn [pto with_handle add_frag add_size set_as set_ds set_reg set_peak set_lives ret
  g_gen g_info g_frag g_size g_count g_reg g_as g_ds g_dlock g_plock g_peak g_prec g_pc g_live g_ever g_rep g_drep g_dead] in *.

Lemma nd_perm (l m : list Z) : Permutation m l -> NoDup l -> NoDup m.
Proof. intros H. apply Permutation_NoDup. symmetry. exact H. Qed.

(** A step of one thread, from the changes it makes. *)
Lemma PA_move p s s' t q : PA p s -> 0 <= t < p_nthr p -> g_pc s' = upd (g_pc s) t q -> g_gen s' = g_gen s -> g_info s' = g_info s ->
  Permutation (g_live s' ++ g_dead s' ++ hheld q) (g_live s ++ g_dead s ++ hheld (g_pc s t)) ->
  Permutation (g_reg s' ++ g_live s ++ hreg (g_pc s t)) (g_reg s ++ g_live s' ++ hreg q) ->
  Permutation (g_ever s' ++ g_live s ++ g_dead s ++ hever (g_pc s t)) (g_ever s ++ g_live s' ++ g_dead s' ++ hever q) ->
  Permutation (g_rep s' ++ g_live s ++ g_dead s ++ hrep (g_pc s t)) (g_rep s ++ g_live s' ++ g_dead s' ++ hrep q) ->
  Permutation (g_drep s' ++ g_live s ++ g_dead s ++ hdrep (g_pc s t)) (g_drep s ++ g_live s' ++ g_dead s' ++ hdrep q) ->
  g_size s' + wsum (p_bytes p) (g_info s) (g_live s ++ hsize (g_pc s t)) = g_size s + wsum (p_bytes p) (g_info s) (g_live s' ++ hsize q) ->
  g_frag s' + wsum (p_frag p) (g_info s) (g_live s ++ hfrag (g_pc s t)) = g_frag s + wsum (p_frag p) (g_info s) (g_live s' ++ hfrag q) ->
  g_count s' + zlen (g_live s ++ g_dead s ++ hcnt (g_pc s t)) = g_count s + zlen (g_live s' ++ g_dead s' ++ hcnt q) ->
  PA p s'.
Proof.
  intros [A1 A2 A3 A4 A5 A6 A7 A8 A9 A10] Ht Hpc Hgen Hinfo C1 C2 C3 C4 C5 C6 C7 C8.
  assert (Pall : Permutation (g_live s' ++ g_dead s' ++ fm p hheld (g_pc s')) (g_live s ++ g_dead s ++ fm p hheld (g_pc s))).
  { destruct (fm_upd p hheld (g_pc s) t Ht) as (R & E & U). specialize (U q). rewrite Hpc. clear - C1 E U. pcnt. }
  constructor; rewrite ?Hgen, ?Hinfo.
  - exact (nd_perm _ _ Pall A1).
  - intros h Hh. apply A2. exact (Permutation_in h Pall Hh).
  - exact A3.
  - destruct (fm_upd p hreg (g_pc s) t Ht) as (R & E & U). specialize (U q). rewrite Hpc. clear - C2 E U A4. pcnt.
  - destruct (fm_upd p hever (g_pc s) t Ht) as (R & E & U). specialize (U q). rewrite Hpc. clear - C3 E U A5. pcnt.
  - destruct (fm_upd p hrep (g_pc s) t Ht) as (R & E & U). specialize (U q). rewrite Hpc. clear - C4 E U A6. pcnt.
  - destruct (fm_upd p hdrep (g_pc s) t Ht) as (R & E & U). specialize (U q). rewrite Hpc. clear - C5 E U A7. pcnt.
  - destruct (fm_upd p hsize (g_pc s) t Ht) as (R & E & U). specialize (U q). rewrite Hpc.
    apply (wsum_perm (p_bytes p) (g_info s)) in E, U. rewrite !wsum_app in *. lia.
  - destruct (fm_upd p hfrag (g_pc s) t Ht) as (R & E & U). specialize (U q). rewrite Hpc.
    apply (wsum_perm (p_frag p) (g_info s)) in E, U. rewrite !wsum_app in *. lia.
  - destruct (fm_upd p hcnt (g_pc s) t Ht) as (R & E & U). specialize (U q). rewrite Hpc.
    apply zlen_perm in E, U. rewrite !zlen_app' in *. lia.
Qed.

(** A thread that does nothing to the samples. *)
Lemma PA_same p s s' : PA p s -> g_pc s' = g_pc s -> g_gen s' = g_gen s -> g_info s' = g_info s -> g_live s' = g_live s -> g_dead s' = g_dead s ->
  g_reg s' = g_reg s -> g_ever s' = g_ever s -> g_rep s' = g_rep s -> g_drep s' = g_drep s -> g_size s' = g_size s -> g_frag s' = g_frag s ->
  g_count s' = g_count s -> PA p s'.
Proof.
  intros [A1 A2 A3 A4 A5 A6 A7 A8 A9 A10] E1 E2 E3 E4 E5 E6 E7 E8 E9 E10 E11 E12.
  constructor; rewrite ?E1, ?E2, ?E3, ?E4, ?E5, ?E6, ?E7, ?E8, ?E9, ?E10, ?E11, ?E12; assumption.
Qed.

Lemma PA_in_held p s t h : PA p s -> 0 <= t < p_nthr p -> In h (hheld (g_pc s t)) -> In h (g_live s ++ g_dead s ++ fm p hheld (g_pc s)).
Proof. intros _ Ht H. rewrite !in_app_iff. right. right. apply fm_In. exists t. split; assumption. Qed.
Lemma PA_reg_in p s t h : PA p s -> 0 <= t < p_nthr p -> In h (hreg (g_pc s t)) -> In h (g_reg s).
Proof. intros A Ht H. apply (Permutation_in h (Permutation_sym (a_reg _ _ A))). rewrite in_app_iff. right. apply fm_In. exists t. split; assumption. Qed.

Ltac hsimp := cbn [hheld hfrag hrep hdrep hever hreg hsize hcnt app] in *.
Ltac pmv t q E :=
  match goal with A : PA _ ?s, Ht : 0 <= t < _ |- _ => apply (PA_move _ s _ t q A Ht) end; [psimp; reflexivity|psimp; reflexivity|psimp; reflexivity|..];
  rewrite ?E; psimp; hsimp; try reflexivity; try (clear; pcnt);
  try (repeat (progress rewrite ?wsum_app, ?wsum_cons); unfold wsum; cbn [map zsum]; lia); try (repeat (progress rewrite ?zlen_app', ?zlen_cons'); unfold zlen; cbn [length]; lia).

Lemma PA_step p s t found s' l : PA p s -> 0 <= t < p_nthr p -> pstep p s t found = Some (s', l) -> PA p s'.
Proof.
  intros A Ht. unfold pstep. destruct (g_pc s t) as [|x|h|h|h|h|h|h|h|h|h v|h r0 e0|h|h|h|h|r0 e0|id r0 e0] eqn:E; intros H; try discriminate H.
  - (* M1 *) injection H as <- <-. assert (Hn : ~ In (g_gen s + 1) (g_live s ++ g_dead s ++ fm p hheld (g_pc s))).
    { intros X. apply (a_gen _ _ A) in X. lia. }
    assert (Hns : ~ In (g_gen s + 1) (fm p hsize (g_pc s))) by (intros X; apply (subl _ _ _ _ sub_size) in X; apply Hn; rewrite !in_app_iff; tauto).
    assert (Hnf : ~ In (g_gen s + 1) (fm p hfrag (g_pc s))) by (intros X; apply (subl _ _ _ _ sub_frag) in X; apply Hn; rewrite !in_app_iff; tauto).
    assert (Hnl : ~ In (g_gen s + 1) (g_live s)) by (intros X; apply Hn; rewrite !in_app_iff; tauto).
    destruct A as [A1 A2 A3 A4 A5 A6 A7 A8 A9 A10].
    assert (Pall : Permutation (g_live s ++ g_dead s ++ fm p hheld (upd (g_pc s) t (M2 (g_gen s + 1)))) ((g_gen s + 1) :: g_live s ++ g_dead s ++ fm p hheld (g_pc s))).
    { destruct (fm_upd p hheld (g_pc s) t Ht) as (R & E' & U). specialize (U (M2 (g_gen s + 1))). rewrite E in E'. hsimp. clear - E' U. pcnt. }
    constructor; psimp.
    + apply (nd_perm _ _ Pall). constructor; assumption.
    + intros h Hh. apply (Permutation_in h Pall) in Hh. destruct Hh as [<-|Hh]; [lia|]. apply A2 in Hh. lia.
    + lia.
    + destruct (fm_upd p hreg (g_pc s) t Ht) as (R & E' & U). specialize (U (M2 (g_gen s + 1))). rewrite E in E'. hsimp. clear - E' U A4. pcnt.
    + destruct (fm_upd p hever (g_pc s) t Ht) as (R & E' & U). specialize (U (M2 (g_gen s + 1))). rewrite E in E'. hsimp. clear - E' U A5. pcnt.
    + destruct (fm_upd p hrep (g_pc s) t Ht) as (R & E' & U). specialize (U (M2 (g_gen s + 1))). rewrite E in E'. hsimp. clear - E' U A6. pcnt.
    + destruct (fm_upd p hdrep (g_pc s) t Ht) as (R & E' & U). specialize (U (M2 (g_gen s + 1))). rewrite E in E'. hsimp. clear - E' U A7. pcnt.
    + destruct (fm_upd p hsize (g_pc s) t Ht) as (R & E' & U). specialize (U (M2 (g_gen s + 1))). rewrite E in E'. hsimp.
      rewrite A8, !wsum_app. rewrite (wsum_info _ _ _ _ _ Hnl). f_equal. rewrite (wsum_perm _ _ _ _ U).
      rewrite (wsum_perm _ _ _ _ E'). symmetry. apply wsum_info. intros X. apply Hns. exact (Permutation_in _ (Permutation_sym E') X).
    + destruct (fm_upd p hfrag (g_pc s) t Ht) as (R & E' & U). specialize (U (M2 (g_gen s + 1))). rewrite E in E'. hsimp.
      rewrite A9, !wsum_app. rewrite (wsum_info _ _ _ _ _ Hnl). f_equal. rewrite (wsum_perm _ _ _ _ U).
      rewrite (wsum_perm _ _ _ _ E'). symmetry. apply wsum_info. intros X. apply Hnf. exact (Permutation_in _ (Permutation_sym E') X).
    + destruct (fm_upd p hcnt (g_pc s) t Ht) as (R & E' & U). specialize (U (M2 (g_gen s + 1))). rewrite E in E'. hsimp.
      apply zlen_perm in E', U. rewrite !zlen_app' in *. lia.
  - injection H as <- <-. pmv t (M3 h) E.
  - injection H as <- <-. pmv t (M4 h) E.
  - destruct (g_dlock s); [discriminate|]. injection H as <- <-. pmv t (M5 h) E.
  - injection H as <- <-. pmv t (M6 h) E.
  - injection H as <- <-. pmv t (M7 h) E.
  - destruct (_ || _); injection H as <- <-; [pmv t PIdle E|pmv t (M8 h) E].
  - destruct (g_plock s); [discriminate|]. destruct (negb _); injection H as <- <-; [pmv t PIdle E|pmv t (M9 h) E].
  - injection H as <- <-. pmv t (M10 h (g_size s)) E.
  - injection H as <- <-. pmv t (M11 h (g_reg s) (g_ever s)) E.
  - injection H as <- <-. pmv t PIdle E.
  - injection H as <- <-. pmv t (F2 h) E.
  - assert (Hr : In h (g_reg s)) by (apply (PA_reg_in p s t h A Ht); rewrite E; left; reflexivity).
    injection H as <- <-. pmv t (F3 h) E. pose proof (remove1_perm h _ Hr) as Pr. clear - Pr. pcnt.
  - destruct (_ <=? _) in H; [|discriminate]. injection H as <- <-. pmv t (F4 h) E.
  - destruct (g_dlock s); [discriminate|]. injection H as <- <-. pmv t PIdle E.
  - injection H as <- <-. pmv t PIdle E.
  - injection H as <- <-. pmv t PIdle E.
Qed.

Lemma PA_call p s t o s' l : PA p s -> 0 <= t < p_nthr p -> g_pc s t = PIdle -> pcall s t o = Some (s', l) -> PA p s'.
Proof.
  intros A Ht E H. destruct o as [x|h| | |id|id|id|id]; cbn [pcall] in H.
  - injection H as <- <-. pmv t (M1 x) E.
  - destruct (member h (g_live s)) eqn:Em; [|discriminate]. apply member_iff, remove1_perm in Em. injection H as <- <-.
    pmv t (F1 h) E; try (clear - Em; pcnt).
    + apply (wsum_perm (p_bytes p) (g_info s)) in Em. rewrite !wsum_app, wsum_cons in *. unfold wsum at 2 4. cbn [map zsum]. lia.
    + apply (wsum_perm (p_frag p) (g_info s)) in Em. rewrite !wsum_app, wsum_cons in *. unfold wsum at 2 4. cbn [map zsum]. lia.
    + apply zlen_perm in Em. rewrite !zlen_app', zlen_cons' in *. unfold zlen at 3 6. cbn [length]. lia.
  - injection H as <- <-. pmv t (Dump (g_reg s) (g_ever s)) E.
  - destruct (g_plock s); [discriminate|]. injection H as <- <-. exact A.
  - destruct (member id _); [discriminate|]. injection H as <- <-. apply (PA_same _ _ _ A); reflexivity.
  - destruct (find _ _); [|discriminate]. injection H as <- <-. apply (PA_same _ _ _ A); reflexivity.
  - destruct (member id _); [discriminate|]. destruct (g_dlock s); [discriminate|]. injection H as <- <-. pmv t (Seed id (g_reg s) (g_ever s)) E.
  - destruct (g_dlock s); [discriminate|]. destruct (find _ _); [|discriminate]. injection H as <- <-. apply (PA_same _ _ _ A); reflexivity.
Qed.

(** ** Iterations and locks *)
Definition iter_of (q : ppc) : option (list Z * list Z) := match q with M11 _ r e | Dump r e | Seed _ r e => Some (r, e) | _ => None end.
Definition seed_of (q : ppc) : option (Z * list Z * list Z) := match q with Seed id r e => Some (id, r, e) | _ => None end.
Definition peaking (q : ppc) : bool := match q with M9 _ | M10 _ _ | M11 _ _ _ => true | _ => false end.

Record PB (p : ppar) (s : pstate) : Prop := {
  b_iter : forall t r e, 0 <= t < p_nthr p -> iter_of (g_pc s t) = Some (r, e) ->
    incl r e /\ incl e (g_ever s) /\ (forall h, In h (g_reg s) -> In h e -> In h r);
  b_m11 : forall t h r e, 0 <= t < p_nthr p -> g_pc s t = M11 h r e -> In h r;
  b_pl1 : forall t, g_plock s = Some t -> 0 <= t < p_nthr p /\ peaking (g_pc s t) = true;
  b_pl2 : forall t, 0 <= t < p_nthr p -> peaking (g_pc s t) = true -> g_plock s = Some t;
  b_aid : NoDup (map a_id (g_as s));
  b_as : forall a, In a (g_as s) -> Permutation (g_rep s) (a_got a ++ a_before a) }.

Lemma PB_init p : PB p pinit.
Proof. constructor; cbn; try discriminate; try (intros; discriminate); try constructor; intros a []. Qed.

(** The thread [t] moves to [q] and does not touch what the invariant speaks about. *)
Lemma PB_frame p s s' t q : PB p s -> 0 <= t < p_nthr p -> g_pc s' = upd (g_pc s) t q -> g_reg s' = g_reg s -> g_ever s' = g_ever s ->
  g_plock s' = g_plock s -> map a_id (g_as s') = map a_id (g_as s) -> g_as s' = g_as s -> g_rep s' = g_rep s ->
  (iter_of q = None \/ q = Dump (g_reg s) (g_ever s) \/ exists id, q = Seed id (g_reg s) (g_ever s)) -> incl (g_reg s) (g_ever s) -> peaking q = peaking (g_pc s t) -> PB p s'.
Proof.
  intros [B1 B2 B3 B4 B5 B6] Ht E1 E2 E3 E4 _ E6 E7 Hit Hre Hp. constructor; rewrite ?E1, ?E2, ?E3, ?E4, ?E6, ?E7; try assumption.
  - intros t' r e Ht' H. destruct (Z.eq_dec t' t) as [->|N]; [rewrite upd_same in H|rewrite upd_other in H by exact N; exact (B1 _ _ _ Ht' H)].
    assert (X : r = g_reg s /\ e = g_ever s) by (destruct Hit as [X|[->|(id & ->)]]; [congruence| |]; cbn [iter_of] in H; injection H as <- <-; split; reflexivity).
    destruct X as [-> ->]. split; [exact Hre|]. split; [apply incl_refl|]. intros h X _. exact X.
  - intros t' h r e Ht' H. destruct (Z.eq_dec t' t) as [->|N]; [rewrite upd_same in H|rewrite upd_other in H by exact N; exact (B2 _ _ _ _ Ht' H)].
    subst q. destruct Hit as [X|[X|(id & X)]]; discriminate X.
  - intros t' H. destruct (B3 _ H) as [X Y]. split; [exact X|]. destruct (Z.eq_dec t' t) as [->|N]; [rewrite upd_same, Hp; exact Y|rewrite upd_other by exact N; exact Y].
  - intros t' Ht' H. apply B4; [exact Ht'|]. destruct (Z.eq_dec t' t) as [->|N]; [rewrite upd_same in H; rewrite <- Hp; exact H|rewrite upd_other in H by exact N; exact H].
Qed.

Lemma PA_incl_reg_ever p s : PA p s -> incl (g_reg s) (g_ever s).
Proof.
  intros A h H. apply (Permutation_in h (a_reg _ _ A)) in H. apply (Permutation_in h (Permutation_sym (a_ever _ _ A))). rewrite !in_app_iff in *.
  destruct H as [H|H]; [left; exact H|right; right]. apply fm_In in H. apply fm_In. destruct H as (t & X & Y). exists t. split; [exact X|]. clear X.
  destruct (g_pc s t); cbn in *; tauto.
Qed.
Lemma NoDup_app_disj (l m : list Z) h : NoDup (l ++ m) -> In h l -> In h m -> False.
Proof. induction l as [|a l IH]; [intros _ []|]. cbn [app]. intros H. inversion H; subst. intros [->|Hl] Hm; [apply H2, in_app_iff; right; exact Hm|exact (IH H3 Hl Hm)]. Qed.
Lemma NoDup_app_l' (l m : list Z) : NoDup (l ++ m) -> NoDup l.
Proof. induction l as [|a l IH]; [constructor|]. cbn [app]. intros H. inversion H; subst. constructor; [intros X; apply H2, in_app_iff; left; exact X|exact (IH H3)]. Qed.
Lemma NoDup_app_r' (l m : list Z) : NoDup (l ++ m) -> NoDup m.
Proof. induction l as [|a l IH]; [exact (fun H => H)|]. cbn [app]. intros H. inversion H; subst. exact (IH H3). Qed.

(** A handle is held by one thread, and is then neither live nor dead. *)
Lemma held_one p s t t' h : PA p s -> 0 <= t < p_nthr p -> 0 <= t' < p_nthr p -> In h (hheld (g_pc s t)) -> In h (hheld (g_pc s t')) -> t' = t.
Proof.
  intros A Ht Ht' H H'. destruct (Z.eq_dec t' t) as [->|N]; [reflexivity|exfalso].
  pose proof (a_nd _ _ A) as Nd. apply NoDup_app_r', NoDup_app_r' in Nd.
  destruct (fm_upd p hheld (g_pc s) t Ht) as (R & E & U). specialize (U PIdle). cbn [hheld app] in U.
  assert (In h R) as X. { apply (Permutation_in h U). apply fm_In. exists t'. split; [exact Ht'|]. rewrite upd_other by exact N. exact H'. }
  apply (Permutation_NoDup E) in Nd. exact (NoDup_app_disj _ _ _ Nd H X).
Qed.
Lemma held_not_live p s t h : PA p s -> 0 <= t < p_nthr p -> In h (hheld (g_pc s t)) -> ~ In h (g_live s) /\ ~ In h (g_dead s).
Proof.
  intros A Ht H. pose proof (a_nd _ _ A) as Nd. assert (X : In h (fm p hheld (g_pc s))) by (apply fm_In; exists t; split; assumption). split; intros Y.
  - apply (NoDup_app_disj _ _ h Nd Y). rewrite in_app_iff. right. exact X.
  - apply NoDup_app_r' in Nd. exact (NoDup_app_disj _ _ h Nd Y X).
Qed.
(** What a thread holds is in a list of stages iff its stage says so. *)
Lemma held_stage p s t h f l : PA p s -> 0 <= t < p_nthr p -> In h (hheld (g_pc s t)) -> (forall q x, In x (f q) -> In x (hheld q)) ->
  Permutation l (g_live s ++ g_dead s ++ fm p f (g_pc s)) -> (In h l <-> In h (f (g_pc s t))).
Proof.
  intros A Ht H Hf P. destruct (held_not_live _ _ _ _ A Ht H) as [N1 N2]. split; intros X.
  - apply (Permutation_in h P) in X. rewrite !in_app_iff in X. destruct X as [X|[X|X]]; [contradiction|contradiction|].
    apply fm_In in X. destruct X as (t' & Ht' & X). rewrite (held_one _ _ t t' h A Ht Ht' H (Hf _ _ X)) in X. exact X.
  - apply (Permutation_in h (Permutation_sym P)). rewrite !in_app_iff. right. right. apply fm_In. exists t. split; assumption.
Qed.
Lemma held_reg p s t h : PA p s -> 0 <= t < p_nthr p -> In h (hheld (g_pc s t)) -> (In h (g_reg s) <-> In h (hreg (g_pc s t))).
Proof.
  intros A Ht H. destruct (held_not_live _ _ _ _ A Ht H) as [N1 N2]. split; intros X.
  - apply (Permutation_in h (a_reg _ _ A)) in X. rewrite !in_app_iff in X. destruct X as [X|X]; [contradiction|].
    apply fm_In in X. destruct X as (t' & Ht' & X). rewrite (held_one _ _ t t' h A Ht Ht' H (sub_reg _ _ X)) in X. exact X.
  - apply (Permutation_in h (Permutation_sym (a_reg _ _ A))). rewrite !in_app_iff. right. apply fm_In. exists t. split; assumption.
Qed.

Lemma remove1_incl h l : incl (remove1 h l) l.
Proof.
  induction l as [|a l IH]; cbn [remove1]; [apply incl_refl|]. destruct (a =? h); [apply incl_tl, incl_refl|].
  intros x [->|X]; [left; reflexivity|right; exact (IH _ X)].
Qed.

Ltac pbf t q E :=
  match goal with A : PA ?p ?s, B : PB ?p ?s, Ht : 0 <= t < _ |- _ =>
    apply (PB_frame p s _ t q B Ht); [psimp; reflexivity|psimp; reflexivity|psimp; reflexivity|psimp; reflexivity|psimp; reflexivity|psimp; reflexivity|psimp; reflexivity|
      try (left; reflexivity); right; try (left; reflexivity); right; eexists; reflexivity|exact (PA_incl_reg_ever _ _ A)|rewrite E; reflexivity] end.

Lemma PB_step p s t found s' l : PA p s -> PB p s -> 0 <= t < p_nthr p -> pstep p s t found = Some (s', l) -> PB p s'.
Proof.
  intros A B Ht. unfold pstep. destruct (g_pc s t) as [|x|h|h|h|h|h|h|h|h|h v|h r0 e0|h|h|h|h|r0 e0|id r0 e0] eqn:E; intros H; try discriminate H.
  - injection H as <- <-. pbf t (M2 (g_gen s + 1)) E.
  - injection H as <- <-. pbf t (M3 h) E.
  - (* M3 *) injection H as <- <-. destruct B as [B1 B2 B3 B4 B5 B6]. constructor; psimp.
    + intros t' r e Ht' H. apply B1 with t'; [exact Ht'|]. destruct (Z.eq_dec t' t) as [->|N]; [rewrite upd_same in H; discriminate H|rewrite upd_other in H by exact N; exact H].
    + intros t' h' r e Ht' H. apply B2 with t' e; [exact Ht'|]. destruct (Z.eq_dec t' t) as [->|N]; [rewrite upd_same in H; discriminate H|rewrite upd_other in H by exact N; exact H].
    + intros t' H. destruct (B3 _ H) as [X Y]. split; [exact X|]. rewrite upd_other; [exact Y|]. intros ->. rewrite E in Y. discriminate Y.
    + intros t' Ht' H. apply B4; [exact Ht'|]. destruct (Z.eq_dec t' t) as [->|N]; [rewrite upd_same in H; discriminate H|rewrite upd_other in H by exact N; exact H].
    + rewrite map_map. cbn [as_report a_id]. exact B5.
    + intros a Ha. apply in_map_iff in Ha. destruct Ha as (a0 & <- & Ha). cbn [as_report a_got a_before app]. constructor. exact (B6 _ Ha).
  - destruct (g_dlock s); [discriminate|]. injection H as <- <-. pbf t (M5 h) E.
  - (* M5 *) injection H as <- <-.
    assert (Hne : ~ In h (g_ever s)).
    { intros X. apply (held_stage p s t h hever _ A Ht) in X; [rewrite E in X; exact X|rewrite E; left; reflexivity|exact sub_ever|exact (a_ever _ _ A)]. }
    destruct B as [B1 B2 B3 B4 B5 B6]. constructor; psimp; try assumption.
    + intros t' r e Ht' H. destruct (Z.eq_dec t' t) as [->|N]; [rewrite upd_same in H; discriminate H|rewrite upd_other in H by exact N].
      destruct (B1 _ _ _ Ht' H) as (X & Y & Z). split; [exact X|]. split; [apply incl_tl; exact Y|]. intros h' [<-|Hh]; [|exact (Z _ Hh)].
      intros He. destruct (Hne (Y _ He)).
    + intros t' h' r e Ht' H. apply B2 with t' e; [exact Ht'|]. destruct (Z.eq_dec t' t) as [->|N]; [rewrite upd_same in H; discriminate H|rewrite upd_other in H by exact N; exact H].
    + intros t' H. destruct (B3 _ H) as [X Y]. split; [exact X|]. rewrite upd_other; [exact Y|]. intros ->. rewrite E in Y. discriminate Y.
    + intros t' Ht' H. apply B4; [exact Ht'|]. destruct (Z.eq_dec t' t) as [->|N]; [rewrite upd_same in H; discriminate H|rewrite upd_other in H by exact N; exact H].
  - injection H as <- <-. pbf t (M7 h) E.
  - destruct (_ || _); injection H as <- <-; [pbf t PIdle E|pbf t (M8 h) E].
  - (* M8 *) destruct (g_plock s) as [o|] eqn:El; [discriminate|]. destruct (negb _); injection H as <- <-; [pbf t PIdle E|].
    destruct B as [B1 B2 B3 B4 B5 B6]. constructor; psimp; try assumption.
    + intros t' r e Ht' H. apply B1 with t'; [exact Ht'|]. destruct (Z.eq_dec t' t) as [->|N]; [rewrite upd_same in H; discriminate H|rewrite upd_other in H by exact N; exact H].
    + intros t' h' r e Ht' H. apply B2 with t' e; [exact Ht'|]. destruct (Z.eq_dec t' t) as [->|N]; [rewrite upd_same in H; discriminate H|rewrite upd_other in H by exact N; exact H].
    + intros t' H. injection H as <-. rewrite upd_same. split; [exact Ht|reflexivity].
    + intros t' Ht' H. destruct (Z.eq_dec t' t) as [->|N]; [reflexivity|]. rewrite upd_other in H by exact N. rewrite (B4 _ Ht' H) in El. discriminate El.
  - injection H as <- <-. pbf t (M10 h (g_size s)) E.
  - (* M10 *) injection H as <- <-.
    assert (Hr : In h (g_reg s)) by (apply (PA_reg_in p s t h A Ht); rewrite E; left; reflexivity).
    pose proof (PA_incl_reg_ever _ _ A) as Hi. destruct B as [B1 B2 B3 B4 B5 B6]. constructor; psimp; try assumption.
    + intros t' r e Ht' H. destruct (Z.eq_dec t' t) as [->|N]; [rewrite upd_same in H|rewrite upd_other in H by exact N; exact (B1 _ _ _ Ht' H)].
      cbn [iter_of] in H. injection H as <- <-. split; [exact Hi|]. split; [apply incl_refl|]. intros h' X _. exact X.
    + intros t' h' r e Ht' H. destruct (Z.eq_dec t' t) as [->|N]; [rewrite upd_same in H|rewrite upd_other in H by exact N; exact (B2 _ _ _ _ Ht' H)].
      injection H as <- <- <-. exact Hr.
    + intros t' H. destruct (B3 _ H) as [X Y]. split; [exact X|]. destruct (Z.eq_dec t' t) as [->|N]; [rewrite upd_same; reflexivity|rewrite upd_other by exact N; exact Y].
    + intros t' Ht' H. apply B4; [exact Ht'|]. destruct (Z.eq_dec t' t) as [->|N]; [rewrite E; reflexivity|rewrite upd_other in H by exact N; exact H].
  - (* M11 *) injection H as <- <-. assert (El : g_plock s = Some t) by (apply (b_pl2 _ _ B); [exact Ht|rewrite E; reflexivity]).
    destruct B as [B1 B2 B3 B4 B5 B6]. constructor; psimp; try assumption.
    + intros t' r e Ht' H. apply B1 with t'; [exact Ht'|]. destruct (Z.eq_dec t' t) as [->|N]; [rewrite upd_same in H; discriminate H|rewrite upd_other in H by exact N; exact H].
    + intros t' h' r e Ht' H. apply B2 with t' e; [exact Ht'|]. destruct (Z.eq_dec t' t) as [->|N]; [rewrite upd_same in H; discriminate H|rewrite upd_other in H by exact N; exact H].
    + intros t' H. discriminate H.
    + intros t' Ht' H. destruct (Z.eq_dec t' t) as [->|N]; [rewrite upd_same in H; discriminate H|rewrite upd_other in H by exact N].
      apply B4 in H; [|exact Ht']. rewrite El in H. injection H as ->. congruence.
  - injection H as <- <-. pbf t (F2 h) E.
  - (* F2 *) injection H as <- <-. destruct B as [B1 B2 B3 B4 B5 B6]. constructor; psimp; try assumption.
    + intros t' r e Ht' H. destruct (Z.eq_dec t' t) as [->|N]; [rewrite upd_same in H; discriminate H|rewrite upd_other in H by exact N].
      destruct (B1 _ _ _ Ht' H) as (X & Y & Z). split; [exact X|]. split; [exact Y|]. intros h' Hh. apply Z. exact (remove1_incl _ _ _ Hh).
    + intros t' h' r e Ht' H. apply B2 with t' e; [exact Ht'|]. destruct (Z.eq_dec t' t) as [->|N]; [rewrite upd_same in H; discriminate H|rewrite upd_other in H by exact N; exact H].
    + intros t' H. destruct (B3 _ H) as [X Y]. split; [exact X|]. rewrite upd_other; [exact Y|]. intros ->. rewrite E in Y. discriminate Y.
    + intros t' Ht' H. apply B4; [exact Ht'|]. destruct (Z.eq_dec t' t) as [->|N]; [rewrite upd_same in H; discriminate H|rewrite upd_other in H by exact N; exact H].
  - destruct (_ <=? _) in H; [|discriminate]. injection H as <- <-. pbf t (F4 h) E.
  - destruct (g_dlock s); [discriminate|]. injection H as <- <-. pbf t PIdle E.
  - injection H as <- <-. pbf t PIdle E.
  - injection H as <- <-. pbf t PIdle E.
Qed.

Lemma find_some_in {A} (f : A -> bool) l x : find f l = Some x -> In x l /\ f x = true.
Proof. apply find_some. Qed.
Lemma NoDup_map_filter {A} (g : A -> Z) (f : A -> bool) l : NoDup (map g l) -> NoDup (map g (filter f l)).
Proof.
  induction l as [|a l IH]; [constructor|]. cbn [map filter]. intros H. inversion H; subst. destruct (f a); [|exact (IH H3)].
  cbn [map]. constructor; [|exact (IH H3)]. intros X. apply H2. apply in_map_iff in X. destruct X as (b & <- & X). apply in_map.
  apply filter_In in X. tauto.
Qed.

Lemma PB_call p s t o s' l : PA p s -> PB p s -> 0 <= t < p_nthr p -> g_pc s t = PIdle -> pcall s t o = Some (s', l) -> PB p s'.
Proof.
  intros A B Ht E H. destruct o as [x|h| | |id|id|id|id]; cbn [pcall] in H.
  - injection H as <- <-. pbf t (M1 x) E.
  - destruct (member h (g_live s)) eqn:Em; [|discriminate]. injection H as <- <-. pbf t (F1 h) E.
  - injection H as <- <-. pbf t (Dump (g_reg s) (g_ever s)) E.
  - destruct (g_plock s); [discriminate|]. injection H as <- <-. exact B.
  - destruct (member id _) eqn:Em; [discriminate|]. apply member_false in Em. injection H as <- <-.
    destruct B as [B1 B2 B3 B4 B5 B6]. constructor; psimp; try assumption.
    + cbn [map a_id]. constructor; assumption.
    + intros a [<-|Ha]; [reflexivity|exact (B6 _ Ha)].
  - destruct (find _ _); [|discriminate]. injection H as <- <-.
    destruct B as [B1 B2 B3 B4 B5 B6]. constructor; psimp; try assumption.
    + apply NoDup_map_filter. exact B5.
    + intros a' Ha. apply B6. apply filter_In in Ha. tauto.
  - destruct (member id _); [discriminate|]. destruct (g_dlock s); [discriminate|]. injection H as <- <-. pbf t (Seed id (g_reg s) (g_ever s)) E.
  - destruct (g_dlock s); [discriminate|]. destruct (find _ _); [|discriminate]. injection H as <- <-.
    destruct B as [B1 B2 B3 B4 B5 B6]. constructor; psimp; assumption.
Qed.
