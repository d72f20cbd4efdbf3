(** The invariant of the restartable sequences. *)
From Verif Require Import Base Slab SlabProps SlabRseq.

(** ** Specification: stacks that change only when an operation takes effect *)

(** Every region of every slabs as stacks, and the operations replayed on them. *)
Definition stacks := Z -> Z -> astate.
Definition no_stacks : stacks := fun _ _ _ => ([], 0).
Definition replay1 (a : stacks) (l : label) : stacks :=
  match l with
  | LInit sl c => upd2 a sl c (fun _ => ([], 0))
  | LOp _ cf sl c o _ => upd2 a sl c (fst (a_step cf (a sl c) o))
  | LCrash => a
  end.
Definition replay (a : stacks) (tr : list label) : stacks := fold_left replay1 tr a.

(** A trace is legal: no check of the program fails, a region is initialised only when it
    holds no object, every operation that takes effect gives the result that it gives on
    the stacks, and an operation of a thread acts on the CPU the thread runs on and on the slabs in use. *)
Definition legal1 (nclass : Z) (a : stacks) (l : label) : Prop :=
  match l with
  | LInit sl c => forall cl, 1 <= cl < nclass -> fst (a sl c cl) = []
  | LOp w cf sl c o r =>
      r = snd (a_step cf (a sl c) o)
      /\ match w with Local _ cpu slabs => cpu = c /\ slabs = sl | Remote => True end
  | LCrash => False
  end.
Fixpoint legal (nclass : Z) (a : stacks) (tr : list label) : Prop :=
  match tr with [] => True | l :: tr => legal1 nclass a l /\ legal nclass (replay1 a l) tr end.

Lemma legal_app nclass tr1 : forall a tr2, legal nclass a (tr1 ++ tr2) <-> legal nclass a tr1 /\ legal nclass (replay a tr1) tr2.
Proof.
  induction tr1 as [|l tr1 IH]; intros a tr2; cbn [app legal replay fold_left]; [tauto|]. rewrite IH. unfold replay. tauto.
Qed.
Lemma replay_app a tr1 tr2 : replay a (tr1 ++ tr2) = replay (replay a tr1) tr2.
Proof. unfold replay. apply fold_left_app. Qed.

Lemma upd2_same {A} (f : Z -> Z -> A) x y v : upd2 f x y v x y = v.
Proof. unfold upd2. rewrite !Z.eqb_refl. reflexivity. Qed.
Lemma upd2_other {A} (f : Z -> Z -> A) x y v x' y' : x' <> x \/ y' <> y -> upd2 f x y v x' y' = f x' y'.
Proof. intros H. unfold upd2. destruct (Z.eqb_spec x' x), (Z.eqb_spec y' y); cbn [andb]; try reflexivity. tauto. Qed.

(** ** Regions *)
Definition req (r r' : region) : Prop :=
  (forall k, h_cur r' k = h_cur r k) /\ (forall k, h_end r' k = h_end r k) /\ forall i, words r' i = words r i.

Lemma refines_req cf r r' a : req r r' -> refines cf r a -> refines cf r' a.
Proof.
  intros (H1 & H2 & H3) Hr cl Hc. specialize (Hr cl Hc). destruct (a cl) as [l cap]. unfold holds in *. rewrite H1, H2, H3.
  rewrite (read_words_ext (words r') (words r)) by (intros; apply H3). exact Hr.
Qed.

Lemma refines_same cf r a a' : (forall cl, is_class cf cl -> a cl = a' cl) -> refines cf r a -> refines cf r a'.
Proof. intros H Hr cl Hc. rewrite <- H by assumption. apply Hr. assumption. Qed.

(** A store above the top of a stack. *)
Lemma refines_set_word cf r a cl i v : layout_ok cf -> is_class cf cl -> refines cf r a ->
  h_cur r cl <= i < h_end r cl -> refines cf (set_word r i v) a.
Proof.
  intros Hl Hc Hr Hi. apply (refines_same cf _ (upd a cl (a cl))).
  { intros k _. destruct (Z.eq_dec k cl) as [->|Hne]; [apply upd_same|apply upd_other; assumption]. }
  pose proof (Hr cl Hc) as Hh. destruct (a cl) as [l cap] eqn:Ea. destruct Hh as (H1 & H2 & H3 & H4 & H5 & H6).
  assert (0 <= zlen l) by (unfold zlen; lia).
  apply (refines_upd cf r); [assumption|assumption|assumption| | |].
  - unfold holds, set_word. cbn [h_cur h_end words]. split; [exact H1|]. split; [exact H2|]. split; [exact H3|]. split.
    + rewrite <- H4. apply read_words_ext. intros j Hj. apply upd_other. lia.
    + split; [exact H5|]. rewrite upd_other by lia. exact H6.
  - intros k _. split; reflexivity.
  - intros j Hj. unfold set_word. cbn [words]. apply upd_other. intros ->. apply Hj. lia.
Qed.

(** The commit of an operation whose loads and stores are done. *)
Lemma push_done cf b r cl item : h_cur r cl < h_end r cl -> words r (h_cur r cl) = item ->
  exists r1, sop_step cf b r (OPush cl item) = (r1, RBool true) /\ req r1 (set_curr r cl (wrap16 (h_cur r cl + 1))).
Proof.
  intros Hlt Hw. cbn [sop_step]. unfold push. replace (h_end r cl <=? h_cur r cl) with false by lia.
  eexists. split; [reflexivity|]. unfold req, set_curr. cbn [h_cur h_end words]. split; [reflexivity|]. split; [reflexivity|].
  intros i. destruct (Z.eq_dec i (h_cur r cl)) as [->|Hne]; [rewrite upd_same|rewrite upd_other by assumption; reflexivity]. exact Hw.
Qed.
Lemma pop_done cf b r cl x : x = words r (h_cur r cl - 1) -> marked x = false ->
  exists r1, sop_step cf b r (OPop cl) = (r1, RObj (Some x)) /\ req r1 (set_curr r cl (wrap16 (h_cur r cl - 1))).
Proof.
  intros Hx Hm. cbn [sop_step]. unfold pop. rewrite <- Hx, Hm. eexists. split; [reflexivity|]. unfold req, set_curr. cbn. auto.
Qed.
Lemma pushb_done cf b r cl batch k : h_cur r cl < h_end r cl ->
  k = Z.min (zlen batch) (h_end r cl - h_cur r cl) ->
  (forall i, 0 <= i < k -> words r (h_cur r cl + i) = nth (Z.to_nat (zlen batch - 1 - i)) batch 0) ->
  exists r1, sop_step cf b r (OPushBatch cl batch) = (r1, RNum k) /\ req r1 (set_curr r cl (wrap16 (h_cur r cl + k))).
Proof.
  intros Hlt Hk Hw. cbn [sop_step]. unfold push_batch. replace (h_end r cl <=? h_cur r cl) with false by lia.
  change (Z.of_nat (length batch)) with (zlen batch). rewrite <- Hk.
  assert (0 <= zlen batch) by (unfold zlen; lia).
  destruct (push_loop (Z.to_nat k) (words r) (h_cur r cl) batch (zlen batch)) as [[w r9] r11] eqn:E.
  pose proof (push_loop_spec (Z.to_nat k) (words r) (h_cur r cl) batch (zlen batch) w r9 r11 ltac:(lia) ltac:(lia) E) as (-> & -> & Hf & Hv).
  rewrite Z2Nat.id in * by lia. eexists. split; [f_equal; f_equal; lia|].
  unfold req, set_curr. cbn [h_cur h_end words]. split; [reflexivity|]. split; [reflexivity|].
  intros i. destruct (Z_le_gt_dec (h_cur r cl) i) as [Hi|Hi]; [|symmetry; apply Hf; lia].
  destruct (Z_lt_ge_dec i (h_cur r cl + k)) as [Hj|Hj]; [|symmetry; apply Hf; lia].
  replace i with (h_cur r cl + (i - h_cur r cl)) by lia. rewrite Hv, Hw by lia. reflexivity.
Qed.
Lemma popb_done cf b r cl len k got : b cl < h_cur r cl -> k = Z.min len (h_cur r cl - b cl) -> 0 <= k ->
  got = rev (read_words (words r) (h_cur r cl - k) k) ->
  exists r1, sop_step cf b r (OPopBatch cl len) = (r1, RObjs got) /\ req r1 (set_curr r cl (wrap16 (h_cur r cl - k))).
Proof.
  intros Hlt Hk Hk0 Hg. cbn [sop_step]. unfold pop_batch. replace (h_cur r cl <=? b cl) with false by lia. rewrite <- Hk.
  rewrite pop_loop_spec. rewrite Z2Nat.id by lia. rewrite <- Hg. eexists. split; [reflexivity|]. unfold req, set_curr. cbn. auto.
Qed.
Lemma grow_done cf b r cl len n : let have := s_max cf cl - (h_end r cl - b cl) in
  0 < have -> n = Z.min (wrap16 len) (wrap16 have) ->
  exists r1, sop_step cf b r (OGrow cl len) = (r1, RNum n)
    /\ req r1 (Region (upd (h_cur r) cl (h_cur r cl)) (upd (h_end r) cl (wrap16 (h_end r cl + n))) (words r)).
Proof.
  intros have Hh Hn. cbn [sop_step]. unfold grow. fold have. replace (have <=? 0) with false by lia. rewrite <- Hn.
  eexists. split; [reflexivity|]. unfold req, set_end. cbn [h_cur h_end words]. split; [|split; reflexivity].
  intros k. destruct (Z.eq_dec k cl) as [->|Hne]; [apply upd_same|apply upd_other; assumption].
Qed.

(** ** The invariant *)

Definition in_cs (p : pc) : bool :=
  match p with
  | Loaded _ _ _ | HaveCur _ _ _ _ | PushStore _ _ _ _ _ | PushCommit _ _ _ _ _ | PopCommit _ _ _ _ _ | PushLoop _ _ _ _ _ _ _
  | PopLoop _ _ _ _ _ _ _ | Grow4 _ _ _ _ _ _ _ | Cache4s _ _ => true
  | _ => false
  end.

(** What a thread whose pointer is cached knows about the region. *)
Definition data (cf : scfg) (b : Z -> Z) (r : region) (sl c : Z) (p : pc) : Prop :=
  match p with
  | Loaded o sl' c' => sl' = sl /\ c' = c
  | HaveCur o sl' c' cu => sl' = sl /\ c' = c /\ cu = h_cur r (lclass o)
  | PushStore cl item sl' c' cu => sl' = sl /\ c' = c /\ cu = h_cur r cl /\ cu < h_end r cl
  | PushCommit cl item sl' c' cu => sl' = sl /\ c' = c /\ cu = h_cur r cl /\ cu < h_end r cl /\ words r cu = item
  | PopCommit cl sl' c' cu x => sl' = sl /\ c' = c /\ cu = h_cur r cl /\ x = words r (cu - 1) /\ marked x = false
  | PushLoop cl batch sl' c' r9 r10 r11 =>
      sl' = sl /\ c' = c /\ h_cur r cl < h_end r cl /\ r10 = h_cur r cl + Z.min (zlen batch) (h_end r cl - h_cur r cl)
      /\ h_cur r cl <= r9 <= r10 /\ r11 = zlen batch - (r9 - h_cur r cl)
      /\ forall i, 0 <= i < r9 - h_cur r cl -> words r (h_cur r cl + i) = nth (Z.to_nat (zlen batch - 1 - i)) batch 0
  | PopLoop cl len sl' c' r9 r11 got =>
      sl' = sl /\ c' = c /\ b cl < h_cur r cl /\ r11 = Z.min len (h_cur r cl - b cl) /\ zlen got <= r11
      /\ r9 = h_cur r cl - zlen got /\ got = rev (read_words (words r) r9 (zlen got))
  | Grow1 cl len sl' => sl' = sl
  | Grow2 cl len sl' v cu en => sl' = sl /\ v = c /\ cu = h_cur r cl /\ en = h_end r cl
  | Grow3 cl len sl' v cu en n | Grow4 cl len sl' v cu en n =>
      sl' = sl /\ v = c /\ cu = h_cur r cl /\ en = h_end r cl
      /\ 0 < s_max cf cl - (en - b cl) /\ n = Z.min (wrap16 len) (wrap16 (s_max cf cl - (en - b cl)))
  | _ => True
  end.

(** A thread that holds the stopped CPU, or is about to drop its pointer. *)
Definition may_fence (p : pc) (c : Z) : Prop :=
  match p with RWork v _ | RStart v _ => v = c | Cache1 | Cache5 _ _ => True | _ => False end.

Definition pc_ok (s : rst) (t sl c : Z) : Prop :=
  match pcs s t with
  | Cache1 => True
  | Cache5 v sl' | Cache6 v sl' => sl' = sl /\ v = c
  | Cache2 | Cache3 _ | Cache4 _ _ | Cache4s _ _ => False
  | Cache7 v | RLock v true | RStop v true | RFence v true | RWork v true | RStart v true | RPop v => sl = cur s /\ vcpu s t = c /\ v = c
  | p => sl = cur s /\ vcpu s t = c /\ populated s c = true /\ data (cfgs s sl) (begs s sl) (regs s sl c) sl c p
  end.

Definition thread_ok (s : rst) (t : Z) : Prop :=
  match tls s t with
  | TNone => in_cs (pcs s t) = false
  | TMask => match pcs s t with Cache2 => cpu_of s t <> None | Cache3 v | Cache4 v _ | Cache4s v _ => cpu_of s t = Some v | _ => False end
  | TSlab sl c => cpu_of s t = Some c /\ (fenced s c = true -> may_fence (pcs s t) c) /\ pc_ok s t sl c
  end.

Definition args_ok (ncpu nclass : Z) (p : pc) : Prop :=
  match abort_pc p with
  | Enter o => entry_ok ncpu nclass (Enter o)
  | Grow0 cl len | Grow1 cl len _ | Grow2 cl len _ _ _ _ | Grow3 cl len _ _ _ _ _ => 1 <= cl < nclass /\ 0 <= len < 2 ^ 16
  | Cache3 v | Cache4 v _ | Cache5 v _ | Cache6 v _ | Cache7 v => 0 <= v < ncpu
  | RLock c _ | RStop c _ | RFence c _ | RWork c _ | RStart c _ | RPop c | RUnlock c => 0 <= c < ncpu
  | _ => True
  end.

Definition role (p : pc) : option Z :=
  match p with RStop c _ | RFence c _ | RWork c _ | RStart c _ | RPop c | RUnlock c => Some c | _ => None end.
Definition stops (p : pc) (c : Z) : Prop := match p with RFence v _ | RWork v _ | RStart v _ => v = c | _ => False end.
Definition phase_ok (s : rst) (p : pc) : Prop :=
  match p with
  | RFence c _ => stopped s c = true
  | RWork c _ | RStart c _ => fenced s c = true
  | _ => True
  end
  /\ match p with
     | RStop c true | RFence c true | RWork c true => populated s c = false
     | RStart c true | RPop c => populated s c = false /\ inited s (cur s) c = true
     | _ => True
     end.
Definition empty_at (nclass : Z) (a : astate) : Prop := forall cl, 1 <= cl < nclass -> fst (a cl) = [].

Record INV (ncpu nclass : Z) (s : rst) (a : stacks) : Prop := {
  i_uniq : forall t t' c, cpu_of s t = Some c -> cpu_of s t' = Some c -> t = t';
  i_range : forall t c, cpu_of s t = Some c -> 0 <= c < ncpu;
  i_thr : forall t, thread_ok s t;
  i_args : forall t, args_ok ncpu nclass (pcs s t);
  i_own : forall t c, role (pcs s t) = Some c -> locks s c = HeldBy t;
  i_phase : forall t, phase_ok s (pcs s t);
  i_all : forall c, 0 <= c < ncpu -> (locks s c = HeldAll <-> glob s <> GNone);
  i_stop : forall c, stopped s c = true -> 0 <= c < ncpu /\ (glob s <> GNone \/ exists t, locks s c = HeldBy t /\ stops (pcs s t) c);
  i_fence : forall c, fenced s c = true -> stopped s c = true;
  i_pop : forall c, populated s c = true -> inited s (cur s) c = true;
  i_prng : forall c, populated s c = true -> 0 <= c < ncpu;
  i_lay : forall sl, layout_for nclass (cfgs s sl) (begs s sl);
  i_ref : forall sl c, inited s sl c = true -> refines (cfgs s sl) (regs s sl c) (a sl c);
  i_ecur : forall c, populated s c = false -> empty_at nclass (a (cur s) c);
  i_eold : forall sl c, sl <> cur s -> empty_at nclass (a sl c) \/ exists todo, glob s = GDrain sl todo /\ todo c = true;
  i_glob : match glob s with GNew new => new <> cur s | GDrain old todo => old <> cur s /\ forall c, todo c = true -> inited s old c = true | _ => True end }.

(** The states that a thread does not see as different. *)
Definition must_cur (p : pc) : bool := match p with Cache1 | Cache5 _ _ | Cache6 _ _ => false | _ => true end.
Lemma thread_ok_ext s s' t :
  cpu_of s' t = cpu_of s t -> tls s' t = tls s t -> pcs s' t = pcs s t -> vcpu s' t = vcpu s t ->
  (forall sl c, tls s t = TSlab sl c ->
    (fenced s' c = true -> fenced s c = true \/ may_fence (pcs s t) c)
    /\ (must_cur (pcs s t) = true -> sl = cur s -> sl = cur s'
        /\ (populated s c = true -> populated s' c = true)
        /\ regs s' sl c = regs s sl c /\ cfgs s' sl = cfgs s sl /\ begs s' sl = begs s sl)) ->
  thread_ok s t -> thread_ok s' t.
Proof.
  intros Hcpu Htls Hpc Hv Hx H. unfold thread_ok in *. rewrite Htls, Hpc, Hcpu. destruct (tls s t) as [| |sl c]; [exact H|exact H|].
  destruct H as (H1 & H2 & H3). destruct (Hx sl c eq_refl) as [Hf Hr]. split; [exact H1|]. split.
  { intros Hf'. destruct (Hf Hf') as [Hf''|Hm]; [exact (H2 Hf'')|exact Hm]. }
  unfold pc_ok in *. rewrite Hpc. destruct (pcs s t); try match goal with k : bool |- _ => destruct k end;
    cbn [must_cur] in Hr; try exact H3; destruct H3 as (Hc & H3);
    destruct (Hr eq_refl Hc) as (Hc' & Hp & Hreg & Hcf & Hb); rewrite Hv, ?Hreg, ?Hcf, ?Hb; tauto.
Qed.

(** The region of a stopped and fenced CPU belongs to the thread that stopped it. *)
Lemma fenced_excl ncpu nclass s a t sl c : INV ncpu nclass s a -> tls s t = TSlab sl c -> fenced s c = true -> must_cur (pcs s t) = true ->
  locks s c = HeldBy t /\ (exists k, pcs s t = RWork c k \/ pcs s t = RStart c k).
Proof.
  intros H Ht Hf Hm. pose proof (i_thr _ _ _ _ H t) as Hk. unfold thread_ok in Hk. rewrite Ht in Hk. destruct Hk as (_ & Hk & _).
  specialize (Hk Hf). pose proof (i_own _ _ _ _ H t) as Ho.
  destruct (pcs s t); cbn [may_fence must_cur role] in *; try contradiction; try discriminate; subst.
  - split; [apply Ho; reflexivity|]. eauto.
  - split; [apply Ho; reflexivity|]. eauto.
Qed.

Definition frame (s s' : rst) (t : Z) : Prop :=
  forall t', t' <> t -> tls s' t' = tls s t' /\ pcs s' t' = pcs s t' /\ vcpu s' t' = vcpu s t'.

(** Steps that change only the thread [t] itself. *)
Lemma inv_local ncpu nclass s s' a t : INV ncpu nclass s a -> frame s s' t ->
  cpu_of s' = cpu_of s -> stopped s' = stopped s -> locks s' = locks s -> populated s' = populated s -> cur s' = cur s ->
  cfgs s' = cfgs s -> begs s' = begs s -> regs s' = regs s -> glob s' = glob s -> fenced s' = fenced s -> inited s' = inited s ->
  thread_ok s' t -> args_ok ncpu nclass (pcs s' t) -> role (pcs s t) = None -> role (pcs s' t) = None -> INV ncpu nclass s' a.
Proof.
  intros H Hfr Hcpu Hst Hlk Hpo Hcu Hcf Hbe Hre Hgl Hfe Hin Hthr Hargs Hr Hr'.
  destruct H as [J1 J2 J3 J4 J5 J6 J7 J8 J9 J10 J10' J11 J12 J13 J14 J15].
  constructor; try rewrite Hcpu; try rewrite Hst; try rewrite Hlk; try rewrite Hpo; try rewrite Hcu; try rewrite Hcf; try rewrite Hbe;
    try rewrite Hre; try rewrite Hgl; try rewrite Hfe; try rewrite Hin; try assumption.
  - intros t'. destruct (Z.eq_dec t' t) as [->|Hne]; [assumption|]. destruct (Hfr t' Hne) as (F1 & F2 & F3).
    apply (thread_ok_ext s); rewrite ?Hcpu; auto. intros sl c _. rewrite Hfe, Hpo, Hcu, Hcf, Hbe, Hre. tauto.
  - intros t'. destruct (Z.eq_dec t' t) as [->|Hne]; [assumption|]. destruct (Hfr t' Hne) as (F1 & F2 & F3). rewrite F2. apply J4.
  - intros t' c. destruct (Z.eq_dec t' t) as [->|Hne]; [rewrite Hr'; discriminate|]. destruct (Hfr t' Hne) as (F1 & F2 & F3). rewrite F2. apply J5.
  - intros t'. destruct (Z.eq_dec t' t) as [->|Hne].
    + unfold phase_ok. destruct (pcs s' t); cbn [role] in Hr'; try discriminate; split; exact I.
    + destruct (Hfr t' Hne) as (F1 & F2 & F3). rewrite F2. specialize (J6 t'). unfold phase_ok in *.
      rewrite Hst, Hfe, Hpo, Hcu, Hin. exact J6.
  - intros c Hc. destruct (J8 c Hc) as [Hrg [Hg|(t' & Hl & Hs)]]; (split; [assumption|]); [left; assumption|]. right. exists t'. split; [assumption|].
    destruct (Z.eq_dec t' t) as [->|Hne].
    + destruct (pcs s t); cbn [stops role] in *; try contradiction; discriminate.
    + destruct (Hfr t' Hne) as (F1 & F2 & F3). rewrite F2. assumption.
Qed.

(** The thread [t], whose pointer is cached, changes the region it points at. *)
Lemma inv_reg ncpu nclass s s' a t sl c x : INV ncpu nclass s a -> frame s s' t ->
  tls s t = TSlab sl c -> must_cur (pcs s t) = true -> sl = cur s -> populated s c = true ->
  cpu_of s' = cpu_of s -> stopped s' = stopped s -> locks s' = locks s -> populated s' = populated s -> cur s' = cur s ->
  cfgs s' = cfgs s -> begs s' = begs s -> glob s' = glob s -> fenced s' = fenced s -> inited s' = inited s ->
  (forall sl' c', sl' <> sl \/ c' <> c -> regs s' sl' c' = regs s sl' c') ->
  refines (cfgs s sl) (regs s' sl c) x ->
  thread_ok s' t -> args_ok ncpu nclass (pcs s' t) -> role (pcs s t) = None -> role (pcs s' t) = None ->
  INV ncpu nclass s' (upd2 a sl c x).
Proof.
  intros H Hfr Htls Hmc Hsl Hpop Hcpu Hst Hlk Hpo Hcu Hcf Hbe Hgl Hfe Hin Hreg Href Hthr Hargs Hr Hr'.
  pose proof H as [J1 J2 J3 J4 J5 J6 J7 J8 J9 J10 J10' J11 J12 J13 J14 J15].
  assert (Hoth : forall t' sl' c', t' <> t -> tls s t' = TSlab sl' c' -> c' <> c).
  { intros t' sl' c' Hne Ht' ->. pose proof (J3 t') as K. pose proof (J3 t) as K'. unfold thread_ok in K, K'. rewrite Ht' in K. rewrite Htls in K'.
    destruct K as [K _], K' as [K' _]. apply Hne. exact (J1 _ _ _ K K'). }
  constructor; try rewrite Hcpu; try rewrite Hst; try rewrite Hlk; try rewrite Hpo; try rewrite Hcu; try rewrite Hcf; try rewrite Hbe;
    try rewrite Hgl; try rewrite Hfe; try rewrite Hin; try assumption.
  - intros t'. destruct (Z.eq_dec t' t) as [->|Hne]; [assumption|]. destruct (Hfr t' Hne) as (F1 & F2 & F3).
    apply (thread_ok_ext s); rewrite ?Hcpu; auto. intros sl' c' Ht'. specialize (Hoth t' sl' c' Hne Ht'). rewrite Hfe, Hpo, Hcu, Hcf, Hbe, Hreg by tauto. tauto.
  - intros t'. destruct (Z.eq_dec t' t) as [->|Hne]; [assumption|]. destruct (Hfr t' Hne) as (F1 & F2 & F3). rewrite F2. apply J4.
  - intros t' c'. destruct (Z.eq_dec t' t) as [->|Hne]; [rewrite Hr'; discriminate|]. destruct (Hfr t' Hne) as (F1 & F2 & F3). rewrite F2. apply J5.
  - intros t'. destruct (Z.eq_dec t' t) as [->|Hne].
    + unfold phase_ok. destruct (pcs s' t); cbn [role] in Hr'; try discriminate; split; exact I.
    + destruct (Hfr t' Hne) as (F1 & F2 & F3). rewrite F2. specialize (J6 t'). unfold phase_ok in *.
      rewrite Hst, Hfe, Hpo, Hcu, Hin. exact J6.
  - intros c' Hc. destruct (J8 c' Hc) as [Hrg [Hg|(t' & Hl & Hs)]]; (split; [assumption|]); [left; assumption|]. right. exists t'. split; [assumption|].
    destruct (Z.eq_dec t' t) as [->|Hne].
    + destruct (pcs s t); cbn [stops role] in *; try contradiction; discriminate.
    + destruct (Hfr t' Hne) as (F1 & F2 & F3). rewrite F2. assumption.
  - intros sl' c' Hi. destruct (Z.eq_dec sl' sl) as [->|Hne].
    + destruct (Z.eq_dec c' c) as [->|Hne]; [rewrite upd2_same; assumption|]. rewrite upd2_other, Hreg by tauto. apply J12. assumption.
    + rewrite upd2_other, Hreg by tauto. apply J12. assumption.
  - intros c' Hc. destruct (Z.eq_dec c' c) as [->|Hne]; [congruence|]. rewrite upd2_other by tauto. apply J13. assumption.
  - intros sl' c' Hne. rewrite upd2_other by (left; congruence). apply J14. assumption.
Qed.

Lemma INV_ext ncpu nclass s a a' : (forall sl c, a' sl c = a sl c) -> INV ncpu nclass s a' -> INV ncpu nclass s a.
Proof.
  intros E [J1 J2 J3 J4 J5 J6 J7 J8 J9 J10 J10' J11 J12 J13 J14 J15]. constructor; try assumption.
  - intros sl c. rewrite <- E. apply J12.
  - intros c. rewrite <- E. apply J13.
  - intros sl c. rewrite <- E. apply J14.
Qed.

(** ** Steps of a thread *)
Ltac sets := cbn [set_cpu set_tls set_pc set_vcpu set_stopped set_lock set_populated set_fenced set_glob set_locks set_cur set_reg set_inited set_layout interrupt interrupt_cpu
                  cpu_of tls pcs vcpu stopped locks populated cur cfgs begs regs glob fenced inited] in *.
Ltac framed := let t' := fresh in let Hne := fresh in intros t' Hne; sets; rewrite ?upd_other by assumption; auto.
Ltac thr := unfold thread_ok, pc_ok; sets; rewrite ?upd_same.
Ltac local_step t := match goal with H : INV _ _ ?s _ |- _ => apply (inv_local _ _ s _ _ t) end; [eassumption|framed|reflexivity|reflexivity|reflexivity|reflexivity|reflexivity|reflexivity|reflexivity|reflexivity|reflexivity|reflexivity|reflexivity| | | |].

Lemma cs_view ncpu nclass s a t here : INV ncpu nclass s a -> cpu_of s t = Some here -> in_cs (pcs s t) = true ->
  (forall v sl, pcs s t <> Cache4s v sl) ->
  exists sl c, tls s t = TSlab sl c /\ c = here /\ sl = cur s /\ vcpu s t = c /\ populated s c = true
    /\ fenced s c = false /\ data (cfgs s sl) (begs s sl) (regs s sl c) sl c (pcs s t) /\ inited s sl c = true /\ refines (cfgs s sl) (regs s sl c) (a sl c).
Proof.
  intros H Hc Hcs Hn. pose proof (i_thr _ _ _ _ H t) as Hk. unfold thread_ok, pc_ok in Hk.
  destruct (tls s t) as [| |sl c].
  - congruence.
  - destruct (pcs s t); cbn [in_cs] in *; try contradiction; try discriminate. destruct (Hn v sl eq_refl).
  - exists sl, c. destruct Hk as (H1 & H2 & H3). split; [reflexivity|]. split; [congruence|].
    assert (Hd : sl = cur s /\ vcpu s t = c /\ populated s c = true /\ data (cfgs s sl) (begs s sl) (regs s sl c) sl c (pcs s t)).
    { destruct (pcs s t); cbn [in_cs] in *; try discriminate; try exact H3. destruct (Hn v sl0 eq_refl). }
    destruct Hd as (D1 & D2 & D3 & D4). split; [exact D1|]. split; [exact D2|]. split; [exact D3|]. split.
    { destruct (fenced s c); [|reflexivity]. specialize (H2 eq_refl). destruct (pcs s t); cbn [in_cs may_fence] in *; try contradiction; discriminate. }
    split; [exact D4|]. subst sl. pose proof (i_pop _ _ _ _ H c D3) as Hi. split; [exact Hi|]. apply (i_ref _ _ _ _ H). exact Hi.
Qed.

(** An operation whose effect on the region is [r'] with the result [x]. *)
Lemma commit_refines nclass cf b r a o x r1 r' : layout_for nclass cf b -> refines cf r a -> op_ok cf o ->
  sop_step cf b r o = (r1, x) -> req r1 r' -> x = snd (a_step cf a o) /\ refines cf r' (fst (a_step cf a o)).
Proof.
  intros (_ & Hl & Hw & Hi & _) Hr Ho Hs Hq.
  pose proof (step_refines cf b r a o Hl Hw (init_slabs_spec cf b Hl Hw Hi) Hr Ho) as K. rewrite Hs in K.
  destruct (a_step cf a o) as [a' y]. destruct K as [-> K]. split; [reflexivity|]. apply (refines_req cf r1); assumption.
Qed.
Lemma req_refl r : req r r.
Proof. split; [|split]; reflexivity. Qed.

Lemma commit_inv ncpu nclass s s' a t here sl o x r1 r' : INV ncpu nclass s a -> cpu_of s t = Some here ->
  tls s t = TSlab sl here -> must_cur (pcs s t) = true -> sl = cur s -> vcpu s t = here -> populated s here = true -> fenced s here = false ->
  refines (cfgs s sl) (regs s sl here) (a sl here) -> op_ok (cfgs s sl) o ->
  sop_step (cfgs s sl) (begs s sl) (regs s sl here) o = (r1, x) -> req r1 r' -> role (pcs s t) = None ->
  s' = set_pc (set_reg s sl here r') t Idle \/ s' = set_pc s t Idle /\ req (regs s sl here) r' ->
  legal nclass a [LOp (Local t here (cur s)) (cfgs s sl) sl here o x] /\ INV ncpu nclass s' (replay a [LOp (Local t here (cur s)) (cfgs s sl) sl here o x]).
Proof.
  intros H Hc Ht Hm Hsl Hv Hp Hf Hr Ho Hs Hq Hrole Hs'.
  destruct (commit_refines nclass _ _ _ _ _ _ _ _ (i_lay _ _ _ _ H sl) Hr Ho Hs Hq) as [Hx Hr'].
  split; [cbn [legal legal1]; auto|]. cbn [replay fold_left replay1].
  assert (Hthr : thread_ok s' t).
  { destruct Hs' as [->|[-> Hq']]; thr; rewrite Ht; (split; [assumption|]); (split; [intros; congruence|]); (split; [assumption|]);
      (split; [assumption|]); (split; [assumption|]); exact I. }
  destruct Hs' as [->|[-> Hq']].
  - apply (inv_reg _ _ s _ _ t sl here); try reflexivity; try assumption; sets.
    + framed.
    + intros sl' c' Hne. apply upd2_other. assumption.
    + rewrite upd2_same. assumption.
    + rewrite upd_same. exact I.
    + rewrite upd_same. reflexivity.
  - apply (inv_reg _ _ s _ _ t sl here); try reflexivity; try assumption; sets.
    + framed.
    + apply (refines_req _ r'); [|assumption]. destruct Hq' as (Q1 & Q2 & Q3). split; [|split]; intros; symmetry; auto.
    + rewrite upd_same. exact I.
    + rewrite upd_same. reflexivity.
Qed.

Lemma args_enter ncpu nclass p o : args_ok ncpu nclass p -> abort_pc p = Enter o -> entry_ok ncpu nclass (Enter o).
Proof. unfold args_ok. intros H E. rewrite E in H. exact H. Qed.

Lemma role_cs p : in_cs p = true -> role p = None.
Proof. destruct p; cbn; intros; try reflexivity; discriminate. Qed.

Lemma step_cs ncpu nclass s a t here s' ls : INV ncpu nclass s a -> cpu_of s t = Some here -> in_cs (pcs s t) = true ->
  (forall v sl, pcs s t <> Cache4s v sl) -> tstep s t here = (s', ls) ->
  legal nclass a ls /\ INV ncpu nclass s' (replay a ls).
Proof.
  intros H Hc Hcs Hn Hstep. destruct (cs_view ncpu nclass s a t here H Hc Hcs Hn) as (sl & c & Ht & -> & Hsl & Hv & Hp & Hf & Hd & Hi & Hr).
  pose proof (i_args _ _ _ _ H t) as Ha. pose proof (i_lay _ _ _ _ H sl) as Hlay. pose proof Hlay as (Hk & Hl & Hw & Hib & _).
  pose proof (init_slabs_spec _ _ Hl Hw Hib) as Hfw. pose proof (role_cs _ Hcs) as Hrole.
  unfold tstep in Hstep.
  destruct (pcs s t) as [|o|o sl' c'|o sl' c' cu|cl item sl' c' cu|cl item sl' c' cu|cl sl' c' cu x|cl batch sl' c' r9 r10 r11|cl len sl' c' r9 r11 got
    |cl len|cl len sl'|cl len sl' v cu en|cl len sl' v cu en n|cl len sl' v cu en n| | | | |v|v sl'|v sl'|v sl'|v sl'|v|c' k|c' k|c' k|c' k|c' k|c'|c'] eqn:Epc;
    cbn [in_cs] in Hcs; try discriminate; cbn [data] in Hd.
  - (* Loaded *)
    destruct Hd as [-> ->]. injection Hstep as <- <-. split; [exact I|]. cbn [replay fold_left]. local_step t.
    + thr. rewrite Ht. split; [assumption|]. split; [congruence|]. split; [assumption|]. split; [assumption|]. split; [assumption|]. cbn [data]. auto.
    + sets. rewrite upd_same. exact Ha.
    + rewrite Epc. reflexivity.
    + sets. rewrite upd_same. reflexivity.
  - (* HaveCur *)
    destruct Hd as (-> & -> & ->). destruct o as [cl item|cl|cl batch|cl len]; cbn [lclass] in *.
    + (* Push *)
      destruct Ha as [Hcl Hev]. destruct (h_end (regs s sl here) cl <=? h_cur (regs s sl here) cl) eqn:E; injection Hstep as <- <-.
      * eapply commit_inv with (r1 := regs s sl here) (r' := regs s sl here); try eassumption; try rewrite Epc; try reflexivity.
        -- cbn [op_ok]. unfold is_class. rewrite Hk. auto.
        -- cbn [sop_step]. unfold push. rewrite E. reflexivity.
        -- apply req_refl.
        -- right. split; [reflexivity|apply req_refl].
      * split; [exact I|]. cbn [replay fold_left]. local_step t.
        -- thr. rewrite Ht. split; [assumption|]. split; [congruence|]. split; [assumption|]. split; [assumption|]. split; [assumption|]. cbn [data].
           split; [reflexivity|]. split; [reflexivity|]. split; [reflexivity|]. lia.
        -- sets. rewrite upd_same. split; assumption.
        -- rewrite Epc. reflexivity.
        -- sets. rewrite upd_same. reflexivity.
    + (* Pop *)
      destruct (marked (words (regs s sl here) (h_cur (regs s sl here) cl - 1))) eqn:E; injection Hstep as <- <-.
      * eapply commit_inv with (r1 := regs s sl here) (r' := regs s sl here); try eassumption; try rewrite Epc; try reflexivity.
        -- cbn [op_ok]. unfold is_class. rewrite Hk. exact Ha.
        -- cbn [sop_step]. unfold pop. rewrite E. reflexivity.
        -- apply req_refl.
        -- right. split; [reflexivity|apply req_refl].
      * split; [exact I|]. cbn [replay fold_left]. local_step t.
        -- thr. rewrite Ht. split; [assumption|]. split; [congruence|]. split; [assumption|]. split; [assumption|]. split; [assumption|]. cbn [data].
           split; [reflexivity|]. split; [reflexivity|]. split; [reflexivity|]. split; [reflexivity|assumption].
        -- sets. rewrite upd_same. exact Ha.
        -- rewrite Epc. reflexivity.
        -- sets. rewrite upd_same. reflexivity.
    + (* PushBatch *)
      destruct Ha as (Hcl & Hne & Hev). destruct (h_end (regs s sl here) cl <=? h_cur (regs s sl here) cl) eqn:E; injection Hstep as <- <-.
      * eapply commit_inv with (r1 := regs s sl here) (r' := regs s sl here); try eassumption; try rewrite Epc; try reflexivity.
        -- cbn [op_ok]. unfold is_class. rewrite Hk. auto.
        -- cbn [sop_step]. unfold push_batch. rewrite E. reflexivity.
        -- apply req_refl.
        -- right. split; [reflexivity|apply req_refl].
      * split; [exact I|]. cbn [replay fold_left]. local_step t.
        -- thr. rewrite Ht. split; [assumption|]. split; [congruence|]. split; [assumption|]. split; [assumption|]. split; [assumption|]. cbn [data].
           split; [reflexivity|]. split; [reflexivity|]. split; [lia|]. unfold zlen.
           split; [reflexivity|]. split; [lia|]. split; [lia|]. intros i Hi'. lia.
        -- sets. rewrite upd_same. repeat split; try assumption; apply Hcl.
        -- rewrite Epc. reflexivity.
        -- sets. rewrite upd_same. reflexivity.
    + (* PopBatch *)
      destruct Ha as (Hcl & Hlen). destruct (h_cur (regs s sl here) cl <=? begs s (cur s) cl) eqn:E; injection Hstep as <- <-.
      * eapply commit_inv with (r1 := regs s sl here) (r' := regs s sl here); try eassumption; try rewrite Epc; try reflexivity.
        -- cbn [op_ok]. unfold is_class. rewrite Hk. split; [auto|lia].
        -- cbn [sop_step]. unfold pop_batch. rewrite Hsl in *. rewrite E. reflexivity.
        -- apply req_refl.
        -- right. split; [reflexivity|apply req_refl].
      * split; [exact I|]. cbn [replay fold_left]. local_step t.
        -- thr. rewrite Ht. split; [assumption|]. split; [congruence|]. split; [assumption|]. split; [assumption|]. split; [assumption|]. cbn [data].
           rewrite Hsl in *. split; [reflexivity|]. split; [reflexivity|]. split; [lia|]. split; [reflexivity|]. unfold zlen. cbn [length].
           split; [lia|]. split; [lia|]. reflexivity.
        -- sets. rewrite upd_same. repeat split; try assumption; apply Hcl.
        -- rewrite Epc. reflexivity.
        -- sets. rewrite upd_same. reflexivity.
  - (* PushStore *)
    destruct Hd as (-> & -> & -> & Hlt). injection Hstep as <- <-. split; [exact I|]. cbn [replay fold_left].
    assert (Hself : forall sl' c', upd2 a sl here (a sl here) sl' c' = a sl' c').
    { intros sl' c'. unfold upd2. destruct (Z.eqb_spec sl' sl) as [->|]; cbn [andb]; [|reflexivity]. destruct (Z.eqb_spec c' here) as [->|]; reflexivity. }
    assert (Hinv : INV ncpu nclass (set_pc (set_reg s sl here (set_word (regs s sl here) (h_cur (regs s sl here) cl) item)) t (PushCommit cl item sl here (h_cur (regs s sl here) cl))) (upd2 a sl here (a sl here))).
    { apply (inv_reg _ _ s _ _ t sl here); try reflexivity; try assumption; sets.
      - framed.
      - rewrite Epc. reflexivity.
      - intros sl' c' Hne. apply upd2_other. assumption.
      - rewrite upd2_same. apply (refines_set_word _ _ _ cl); try assumption; [unfold is_class; rewrite Hk; apply Ha|lia].
      - thr. rewrite Ht, upd2_same. split; [assumption|]. split; [congruence|]. split; [assumption|]. split; [assumption|]. split; [assumption|].
        unfold set_word. cbn [data h_cur h_end words]. rewrite upd_same. auto.
      - rewrite upd_same. exact Ha.
      - rewrite Epc. reflexivity.
      - rewrite upd_same. reflexivity. }
    revert Hinv. apply INV_ext. assumption.
  - (* PushCommit *)
    destruct Hd as (-> & -> & -> & Hlt & Hword). injection Hstep as <- <-. destruct Ha as [Hcl Hev].
    destruct (push_done (cfgs s sl) (begs s sl) (regs s sl here) cl item Hlt Hword) as (r1 & E1 & E2).
    eapply commit_inv; try eassumption; try rewrite Epc; try reflexivity; [|left; reflexivity].
    cbn [op_ok]. unfold is_class. rewrite Hk. auto.
  - (* PopCommit *)
    destruct Hd as (-> & -> & -> & Hx & Hm). injection Hstep as <- <-.
    destruct (pop_done (cfgs s sl) (begs s sl) (regs s sl here) cl x Hx Hm) as (r1 & E1 & E2).
    eapply commit_inv; try eassumption; try rewrite Epc; try reflexivity; [|left; reflexivity].
    cbn [op_ok]. unfold is_class. rewrite Hk. exact Ha.
  - (* PushLoop *)
    destruct Hd as (-> & -> & Hlt & Hr10 & Hr9 & Hr11 & Hwords). destruct Ha as (Hcl & Hne & Hev).
    destruct (Z.eqb_spec r9 r10) as [->|Hne'].
    + injection Hstep as <- <-.
      destruct (pushb_done (cfgs s sl) (begs s sl) (regs s sl here) cl batch (r10 - h_cur (regs s sl here) cl) Hlt ltac:(lia) Hwords) as (r1 & E1 & E2).
      replace (h_cur (regs s sl here) cl + (r10 - h_cur (regs s sl here) cl)) with r10 in E2 by lia.
      replace (Z.of_nat (length batch) - r11) with (r10 - h_cur (regs s sl here) cl) by (unfold zlen in *; lia).
      eapply commit_inv; try eassumption; try rewrite Epc; try reflexivity; [|left; reflexivity].
      cbn [op_ok]. unfold is_class. rewrite Hk. auto.
    + injection Hstep as <- <-. split; [exact I|]. cbn [replay fold_left].
      set (w := nth (Z.to_nat (r11 - 1)) batch 0).
      assert (Hself : forall sl' c', upd2 a sl here (a sl here) sl' c' = a sl' c').
      { intros sl' c'. unfold upd2. destruct (Z.eqb_spec sl' sl) as [->|]; cbn [andb]; [|reflexivity]. destruct (Z.eqb_spec c' here) as [->|]; reflexivity. }
      assert (Hinv : INV ncpu nclass (set_pc (set_reg s sl here (set_word (regs s sl here) r9 w)) t (PushLoop cl batch sl here (r9 + 1) r10 (r11 - 1))) (upd2 a sl here (a sl here))).
      { apply (inv_reg _ _ s _ _ t sl here); try reflexivity; try assumption; sets.
        - framed.
        - rewrite Epc. reflexivity.
        - intros sl' c' Hne''. apply upd2_other. assumption.
        - rewrite upd2_same. apply (refines_set_word _ _ _ cl); try assumption; [unfold is_class; rewrite Hk; apply Hcl|lia].
        - thr. rewrite Ht, upd2_same. split; [assumption|]. split; [congruence|]. split; [assumption|]. split; [assumption|]. split; [assumption|].
          unfold set_word. cbn [data h_cur h_end words]. split; [reflexivity|]. split; [reflexivity|]. split; [assumption|].
          split; [assumption|]. split; [lia|]. split; [lia|]. intros i Hi'.
          destruct (Z.eq_dec (h_cur (regs s sl here) cl + i) r9) as [Heq|Hneq].
          + rewrite Heq, upd_same. unfold w. f_equal. lia.
          + rewrite upd_other by assumption. apply Hwords. lia.
        - rewrite upd_same. repeat split; try assumption; apply Hcl.
        - rewrite Epc. reflexivity.
        - rewrite upd_same. reflexivity. }
      revert Hinv. apply INV_ext. assumption.
  - (* PopLoop *)
    destruct Hd as (-> & -> & Hlt & Hr11 & Hgl & Hr9 & Hgot). destruct Ha as (Hcl & Hlen).
    change (Z.of_nat (length got)) with (zlen got) in Hstep. assert (0 <= zlen got) by (unfold zlen; lia).
    destruct (Z.eqb_spec (zlen got) r11) as [Heq|Hne'].
    + injection Hstep as <- <-.
      destruct (popb_done (cfgs s sl) (begs s sl) (regs s sl here) cl len (zlen got) got Hlt ltac:(lia) ltac:(lia) ltac:(rewrite <- Hr9; exact Hgot)) as (r1 & E1 & E2).
      rewrite <- Hr9 in E2.
      eapply commit_inv; try eassumption; try rewrite Epc; try reflexivity; [|left; reflexivity].
      cbn [op_ok]. unfold is_class. rewrite Hk. split; [auto|lia].
    + injection Hstep as <- <-. split; [exact I|]. cbn [replay fold_left]. local_step t.
      * thr. rewrite Ht. split; [assumption|]. split; [congruence|]. split; [assumption|]. split; [assumption|]. split; [assumption|]. cbn [data].
        assert (Hz : zlen (got ++ [words (regs s sl here) (r9 - 1)]) = zlen got + 1) by (unfold zlen; rewrite app_length; cbn [length]; lia).
        rewrite Hz. split; [reflexivity|]. split; [reflexivity|]. split; [lia|]. split; [assumption|]. split; [lia|]. split; [lia|].
        replace (zlen got + 1) with (1 + zlen got) by lia. rewrite read_words_app, read_words_1, rev_app_distr by lia.
        replace (r9 - 1 + 1) with r9 by lia. cbn [rev app]. rewrite <- Hgot. reflexivity.
      * sets. rewrite upd_same. repeat split; try assumption; apply Hcl.
      * rewrite Epc. reflexivity.
      * sets. rewrite upd_same. reflexivity.
  - (* Grow4 *)
    destruct Hd as (-> & -> & -> & -> & Hh & Hnn). injection Hstep as <- <-. destruct Ha as [Hcl Hlen].
    destruct (grow_done (cfgs s sl) (begs s sl) (regs s sl here) cl len n Hh Hnn) as (r1 & E1 & E2).
    eapply commit_inv; try eassumption; try rewrite Epc; try reflexivity; [|left; reflexivity].
    cbn [op_ok]. unfold is_class. rewrite Hk. auto.
  - destruct (Hn v sl' eq_refl).
Qed.

(** Steps outside the critical sections that change only the thread. *)
Definition plain (p : pc) : bool :=
  match p with
  | Idle | Enter _ | Grow0 _ _ | Grow1 _ _ _ | Grow2 _ _ _ _ _ _ | Grow3 _ _ _ _ _ _ _
  | Cache0 | CacheF | Cache1 | Cache2 | Cache3 _ | Cache4 _ _ | Cache4s _ _ | Cache5 _ _ | Cache6 _ _ | Cache7 _ => true
  | _ => false
  end.

Lemma step_plain ncpu nclass s a t here s' ls : INV ncpu nclass s a -> cpu_of s t = Some here -> plain (pcs s t) = true ->
  tstep s t here = (s', ls) -> ls = [] /\ INV ncpu nclass s' a.
Proof.
  intros H Hc Hpl Hstep. pose proof (i_args _ _ _ _ H t) as Ha. pose proof (i_thr _ _ _ _ H t) as Hthr. unfold thread_ok, pc_ok in Hthr.
  pose proof (i_range _ _ _ _ H t here Hc) as Hrg.
  unfold tstep in Hstep.
  destruct (pcs s t) as [|o|o sl' c'|o sl' c' cu|cl item sl' c' cu|cl item sl' c' cu|cl sl' c' cu x|cl batch sl' c' r9 r10 r11|cl len sl' c' r9 r11 got
    |cl len|cl len sl'|cl len sl' v cu en|cl len sl' v cu en n|cl len sl' v cu en n| | | | |v|v sl'|v sl'|v sl'|v sl'|v|c' k|c' k|c' k|c' k|c' k|c'|c'] eqn:Epc;
    cbn [plain] in Hpl; try discriminate; clear Hpl.
  - (* Idle *) injection Hstep as <- <-. split; [reflexivity|assumption].
  - (* Enter *)
    destruct (tls s t) as [| |sl c] eqn:Et; injection Hstep as <- <-; (split; [reflexivity|]); try contradiction.
    + local_step t; [thr; rewrite Et; reflexivity|sets; rewrite upd_same; exact I|rewrite Epc; reflexivity|sets; rewrite upd_same; reflexivity].
    + local_step t; [|sets; rewrite upd_same; exact Ha|rewrite Epc; reflexivity|sets; rewrite upd_same; reflexivity].
      thr. rewrite Et. destruct Hthr as (H1 & H2 & H3). split; [assumption|]. split; [exact H2|]. cbn [data]. tauto.
  - (* Grow0 *)
    injection Hstep as <- <-. split; [reflexivity|].
    local_step t; [|sets; rewrite upd_same; exact Ha|rewrite Epc; reflexivity|sets; rewrite upd_same; reflexivity].
    thr. destruct (tls s t) as [| |sl c]; [reflexivity|exact Hthr|]. destruct Hthr as (H1 & H2 & H3). split; [assumption|]. split; [exact H2|]. cbn [data]. intuition congruence.
  - (* Grow1 *)
    injection Hstep as <- <-. split; [reflexivity|].
    local_step t; [|sets; rewrite upd_same; exact Ha|rewrite Epc; reflexivity|sets; rewrite upd_same; reflexivity].
    thr. destruct (tls s t) as [| |sl c]; [reflexivity|exact Hthr|]. destruct Hthr as (H1 & H2 & H3 & H4 & H5 & H6). cbn [data] in H6. subst sl'.
    split; [assumption|]. split; [exact H2|]. cbn [data]. rewrite H4. auto 10.
  - (* Grow2 *)
    destruct (_ <=? 0) eqn:E in Hstep; injection Hstep as <- <-; (split; [reflexivity|]).
    + local_step t; [|sets; rewrite upd_same; exact I|rewrite Epc; reflexivity|sets; rewrite upd_same; reflexivity].
      thr. destruct (tls s t) as [| |sl c]; [reflexivity|exact Hthr|]. destruct Hthr as (H1 & H2 & H3). split; [assumption|]. split; [exact H2|]. cbn [data]. tauto.
    + local_step t; [|sets; rewrite upd_same; exact Ha|rewrite Epc; reflexivity|sets; rewrite upd_same; reflexivity].
      thr. destruct (tls s t) as [| |sl c]; [reflexivity|exact Hthr|]. destruct Hthr as (H1 & H2 & H3 & H4 & H5 & H6). cbn [data] in H6.
      destruct H6 as (-> & -> & -> & ->). subst sl. split; [assumption|]. split; [exact H2|]. cbn [data]. repeat (split; [auto|]); [lia|reflexivity].
  - (* Grow3 *)
    destruct (tls s t) as [| |sl c] eqn:Et; injection Hstep as <- <-; (split; [reflexivity|]); try contradiction.
    + local_step t; [thr; rewrite Et; reflexivity|sets; rewrite upd_same; exact I|rewrite Epc; reflexivity|sets; rewrite upd_same; reflexivity].
    + local_step t; [|sets; rewrite upd_same; exact Ha|rewrite Epc; reflexivity|sets; rewrite upd_same; reflexivity].
      thr. rewrite Et. destruct Hthr as (H1 & H2 & H3). split; [assumption|]. split; [exact H2|]. cbn [data] in *. tauto.
  - (* Cache0 *)
    destruct (tls s t) as [| |sl c] eqn:Et; injection Hstep as <- <-; (split; [reflexivity|]); try contradiction.
    + local_step t; [thr; rewrite Et; reflexivity|sets; rewrite upd_same; exact I|rewrite Epc; reflexivity|sets; rewrite upd_same; reflexivity].
    + local_step t; [|sets; rewrite upd_same; exact I|rewrite Epc; reflexivity|sets; rewrite upd_same; reflexivity].
      thr. rewrite Et. destruct Hthr as (H1 & H2 & H3). split; [assumption|]. split; [exact H2|]. cbn [data] in *. tauto.
  - (* CacheF *)
    injection Hstep as <- <-. split; [reflexivity|].
    local_step t; [|sets; rewrite upd_same; exact I|rewrite Epc; reflexivity|sets; rewrite upd_same; reflexivity].
    thr. destruct (tls s t) as [| |sl c]; [reflexivity|exact Hthr|]. destruct Hthr as (H1 & H2 & H3). split; [assumption|]. split; [exact H2|]. cbn [data] in *.
    split; [tauto|]. split; [congruence|]. tauto.
  - (* Cache1 *)
    injection Hstep as <- <-. split; [reflexivity|].
    local_step t; [|sets; rewrite upd_same; exact I|rewrite Epc; reflexivity|sets; rewrite upd_same; reflexivity].
    thr. congruence.
  - (* Cache2 *)
    injection Hstep as <- <-. split; [reflexivity|].
    local_step t; [|sets; rewrite upd_same; exact Hrg|rewrite Epc; reflexivity|sets; rewrite upd_same; reflexivity].
    thr. destruct (tls s t) as [| |sl c]; [reflexivity|assumption|]. destruct Hthr as (_ & _ & []).
  - (* Cache3 *)
    injection Hstep as <- <-. split; [reflexivity|].
    local_step t; [|sets; rewrite upd_same; exact Ha|rewrite Epc; reflexivity|sets; rewrite upd_same; reflexivity].
    thr. destruct (tls s t) as [| |sl c]; [reflexivity|assumption|]. destruct Hthr as (_ & _ & []).
  - (* Cache4 *)
    destruct (tls s t) as [| |sl c] eqn:Et; injection Hstep as <- <-; (split; [reflexivity|]); try contradiction.
    + local_step t; [thr; rewrite Et; reflexivity|sets; rewrite upd_same; exact I|rewrite Epc; reflexivity|sets; rewrite upd_same; reflexivity].
    + local_step t; [|sets; rewrite upd_same; exact Ha|rewrite Epc; reflexivity|sets; rewrite upd_same; reflexivity].
      thr. rewrite Et. assumption.
    + destruct Hthr as (_ & _ & []).
  - (* Cache4s *)
    injection Hstep as <- <-. split; [reflexivity|].
    local_step t; [|sets; rewrite upd_same; exact Ha|rewrite Epc; reflexivity|sets; rewrite upd_same; reflexivity].
    thr. destruct (tls s t) as [| |sl c]; [cbn [in_cs] in Hthr; discriminate| |destruct Hthr as (_ & _ & [])].
    split; [assumption|]. split; [intros _; exact I|]. auto.
  - (* Cache5 *)
    destruct (stopped s v) eqn:Es; injection Hstep as <- <-; (split; [reflexivity|]).
    + local_step t; [thr; reflexivity|sets; rewrite upd_same; exact I|rewrite Epc; reflexivity|sets; rewrite upd_same; reflexivity].
    + local_step t; [|sets; rewrite upd_same; exact Ha|rewrite Epc; reflexivity|sets; rewrite upd_same; reflexivity].
      thr. destruct (tls s t) as [| |sl c]; [reflexivity|exact Hthr|]. destruct Hthr as (H1 & _ & -> & ->). split; [assumption|].
      split; [|auto]. intros Hf. apply (i_fence _ _ _ _ H) in Hf. congruence.
  - (* Cache6 *)
    destruct (Z.eqb_spec (cur s) sl') as [Hcur|Hcur]; injection Hstep as <- <-; (split; [reflexivity|]).
    + local_step t; [|sets; rewrite upd_same; exact Ha|rewrite Epc; reflexivity|sets; rewrite upd_same; reflexivity].
      thr. destruct (tls s t) as [| |sl c]; [reflexivity|exact Hthr|]. destruct Hthr as (H1 & H2 & -> & ->). split; [assumption|].
      split; [exact H2|]. auto.
    + local_step t; [|sets; rewrite upd_same; exact I|rewrite Epc; reflexivity|sets; rewrite upd_same; reflexivity].
      thr. destruct (tls s t) as [| |sl c]; [reflexivity|exact Hthr|]. destruct Hthr as (H1 & H2 & -> & ->). split; [assumption|].
      split; [intros _; exact I|exact I].
  - (* Cache7 *)
    destruct (populated s v) eqn:Es; injection Hstep as <- <-; (split; [reflexivity|]).
    + local_step t; [|sets; rewrite upd_same; exact I|rewrite Epc; reflexivity|sets; rewrite upd_same; reflexivity].
      thr. destruct (tls s t) as [| |sl c]; [reflexivity|exact Hthr|]. destruct Hthr as (H1 & H2 & H3 & H4 & ->). split; [assumption|].
      split; [exact H2|]. cbn [data]. auto.
    + local_step t; [|sets; rewrite upd_same; exact Ha|rewrite Epc; reflexivity|sets; rewrite upd_same; reflexivity].
      thr. destruct (tls s t) as [| |sl c]; [reflexivity|exact Hthr|]. destruct Hthr as (H1 & H2 & H3). split; [assumption|].
      split; [exact H2|]. auto.
Qed.

Lemma abort_role p : role (abort_pc p) = role p. Proof. destruct p; reflexivity. Qed.
Lemma abort_stops p c : stops (abort_pc p) c = stops p c. Proof. destruct p; reflexivity. Qed.
Lemma abort_phase s p : phase_ok s (abort_pc p) = phase_ok s p. Proof. destruct p; reflexivity. Qed.
Lemma abort_abort p : abort_pc (abort_pc p) = abort_pc p. Proof. destruct p; reflexivity. Qed.
Lemma abort_args ncpu nclass p : args_ok ncpu nclass (abort_pc p) = args_ok ncpu nclass p.
Proof. unfold args_ok. rewrite abort_abort. reflexivity. Qed.
Lemma abort_cs p : in_cs (abort_pc p) = false. Proof. destruct p; reflexivity. Qed.
Lemma stops_role p c : stops p c -> role p = Some c.
Proof. destruct p; cbn; intros; try contradiction; subst; reflexivity. Qed.

Ltac upds := repeat match goal with
  | |- context [upd _ ?k _ ?k] => rewrite upd_same
  | H : ?a <> ?b |- context [upd _ ?b _ ?a] => rewrite (upd_other _ _ _ _ H)
  | H : ?b <> ?a |- context [upd _ ?b _ ?a] => rewrite (upd_other _ _ _ _ (not_eq_sym H))
  end.

Lemma not_all ncpu nclass s a c : INV ncpu nclass s a -> 0 <= c < ncpu -> locks s c <> HeldAll -> glob s = GNone.
Proof.
  intros H Hc Hl. pose proof (i_all _ _ _ _ H c Hc) as [_ K]. destruct (glob s); try reflexivity; destruct (Hl (K ltac:(discriminate))).
Qed.

(** Taking the lock of a CPU. *)
Lemma step_rlock ncpu nclass s a t here c k s' ls : INV ncpu nclass s a -> cpu_of s t = Some here -> pcs s t = RLock c k ->
  tstep s t here = (s', ls) -> ls = [] /\ INV ncpu nclass s' a.
Proof.
  intros H Hc Epc Hstep. pose proof (i_args _ _ _ _ H t) as Ha. pose proof (i_thr _ _ _ _ H t) as Hthr. unfold thread_ok, pc_ok in Hthr. rewrite Epc in *.
  unfold tstep in Hstep. rewrite Epc in Hstep.
  destruct (locks s c) eqn:El; try (injection Hstep as <- <-; split; [reflexivity|assumption]).
  destruct (k && populated s c) eqn:Ek; injection Hstep as <- <-; (split; [reflexivity|]).
  { apply andb_true_iff in Ek as [-> Ek].
    local_step t; [|sets; rewrite upd_same; exact I|rewrite Epc; reflexivity|sets; rewrite upd_same; reflexivity].
    thr. destruct (tls s t) as [| |sl c0]; [reflexivity|exact Hthr|]. destruct Hthr as (H1 & H2 & H3 & H4 & <-). split; [assumption|].
    split; [exact H2|]. cbn [data]. auto. }
  cbn in Ha. pose proof H as [J1 J2 J3 J4 J5 J6 J7 J8 J9 J10 J10' J11 J12 J13 J14 J15].
  assert (Hg : glob s = GNone) by (apply (not_all ncpu nclass s a c H Ha); congruence).
  assert (Hst : stopped s c = false).
  { destruct (stopped s c) eqn:Es; [|reflexivity]. destruct (J8 c Es) as [_ [Hg'|(t' & Hl & _)]]; congruence. }
  constructor; sets; try assumption.
  - intros t'. destruct (Z.eq_dec t' t) as [->|Hne].
    + thr. destruct (tls s t) as [| |sl c0]; [reflexivity|exact Hthr|]. destruct Hthr as (H1 & H2 & H3). split; [assumption|]. split; [exact H2|].
      destruct k; exact H3.
    + apply (thread_ok_ext s); sets; upds; auto. intros. cbn; tauto.
  - intros t'. destruct (Z.eq_dec t' t) as [->|Hne]; upds; [exact Ha|apply J4].
  - intros t' c'. destruct (Z.eq_dec t' t) as [->|Hne]; upds.
    + cbn [role]. intros [= ->]. upds. reflexivity.
    + intros Hr. pose proof (J5 t' c' Hr). assert (c' <> c) by congruence. upds. assumption.
  - intros t'. destruct (Z.eq_dec t' t) as [->|Hne]; upds; [|apply J6]. unfold phase_ok. sets. destruct k; cbn [andb] in Ek; auto.
  - intros c' Hc'. destruct (Z.eq_dec c' c) as [->|Hne]; upds; [|apply J7; assumption]. rewrite Hg. split; congruence.
  - intros c' Hs. destruct (J8 c' Hs) as [Hrg [Hg'|(t' & Hl & Hx)]]; (split; [assumption|]); [congruence|]. right. exists t'.
    assert (c' <> c) by congruence. upds. split; [assumption|]. destruct (Z.eq_dec t' t) as [->|Hne]; upds; [|assumption].
    rewrite Epc in Hx. destruct Hx.
Qed.

(** Stopping it. *)
Lemma step_rstop ncpu nclass s a t here c k s' ls : INV ncpu nclass s a -> cpu_of s t = Some here -> pcs s t = RStop c k ->
  tstep s t here = (s', ls) -> ls = [] /\ INV ncpu nclass s' a.
Proof.
  intros H Hc Epc Hstep. pose proof (i_args _ _ _ _ H t) as Ha. pose proof (i_thr _ _ _ _ H t) as Hthr. unfold thread_ok, pc_ok in Hthr.
  pose proof (i_phase _ _ _ _ H t) as Hph. rewrite Epc in *.
  unfold tstep in Hstep. rewrite Epc in Hstep. cbn in Ha. pose proof H as [J1 J2 J3 J4 J5 J6 J7 J8 J9 J10 J10' J11 J12 J13 J14 J15].
  pose proof (J5 t c ltac:(rewrite Epc; reflexivity)) as Hl.
  assert (Hg : glob s = GNone) by (apply (not_all ncpu nclass s a c H Ha); congruence).
  assert (Hst : stopped s c = false).
  { destruct (stopped s c) eqn:Es; [|reflexivity]. destruct (J8 c Es) as [_ [Hg'|(t' & Hl' & Hx)]]; [congruence|]. rewrite Hl in Hl'. injection Hl' as <-.
    rewrite Epc in Hx. destruct Hx. }
  rewrite Hst in Hstep. injection Hstep as <- <-. split; [reflexivity|].
  constructor; sets; try assumption.
  - intros t'. destruct (Z.eq_dec t' t) as [->|Hne].
    + thr. destruct (tls s t) as [| |sl c0]; [reflexivity|exact Hthr|]. destruct Hthr as (H1 & H2 & H3). split; [assumption|]. split; [exact H2|].
      destruct k; exact H3.
    + apply (thread_ok_ext s); sets; upds; auto. intros. cbn; tauto.
  - intros t'. destruct (Z.eq_dec t' t) as [->|Hne]; upds; [exact Ha|apply J4].
  - intros t' c'. destruct (Z.eq_dec t' t) as [->|Hne]; upds; [|apply J5]. cbn [role]. intros [= ->]. assumption.
  - intros t'. destruct (Z.eq_dec t' t) as [->|Hne]; upds.
    + unfold phase_ok in *. sets. upds. split; [reflexivity|]. destruct k; [apply Hph|exact I].
    + specialize (J6 t'). unfold phase_ok in *. sets. destruct J6 as [J6 J6']. split; [|exact J6'].
      destruct (pcs s t') as [| | | | | | | | | | | | | | | | | | | | | | | | |c' k'|c' k'|c' k'|c' k'| |]; try exact J6.
      destruct (Z.eq_dec c' c) as [->|Hne']; upds; auto.
  - intros c' Hs. destruct (Z.eq_dec c' c) as [->|Hne]; upds.
    + split; [assumption|]. right. exists t. upds. cbn [stops]. auto.
    + rewrite (upd_other _ _ _ _ Hne) in Hs. destruct (J8 c' Hs) as [Hrg [Hg'|(t' & Hl' & Hx)]]; (split; [assumption|]); [congruence|]. right. exists t'.
      split; [assumption|]. destruct (Z.eq_dec t' t) as [->|Hne']; upds; [|assumption]. rewrite Epc in Hx. destruct Hx.
  - intros c' Hf. destruct (Z.eq_dec c' c) as [->|Hne]; upds; auto.
Qed.

(** The fence. *)
Lemma step_rfence ncpu nclass s a t here c k s' ls : INV ncpu nclass s a -> cpu_of s t = Some here -> pcs s t = RFence c k ->
  tstep s t here = (s', ls) -> ls = [] /\ INV ncpu nclass s' a.
Proof.
  intros H Hc Epc Hstep. pose proof (i_args _ _ _ _ H t) as Ha. pose proof (i_thr _ _ _ _ H t) as Hthr. unfold thread_ok, pc_ok in Hthr.
  pose proof (i_phase _ _ _ _ H t) as Hph. rewrite Epc in *.
  unfold tstep in Hstep. rewrite Epc in Hstep. cbn in Ha. pose proof H as [J1 J2 J3 J4 J5 J6 J7 J8 J9 J10 J10' J11 J12 J13 J14 J15].
  pose proof (J5 t c ltac:(rewrite Epc; reflexivity)) as Hl.
  assert (Hphase : forall t' f, t' <> t -> (forall c', c' <> c -> f c' = fenced s c') -> f c = true ->
    phase_ok (Rst (cpu_of s) (tls s) (pcs s) (vcpu s) (stopped s) (locks s) (populated s) (cur s) (cfgs s) (begs s) (regs s) (glob s) f (inited s)) (pcs s t')).
  { intros t' f Hne Hf Hfc. specialize (J6 t'). unfold phase_ok in *. sets. destruct J6 as [J6 J6']. split; [|exact J6'].
    destruct (pcs s t') as [| | | | | | | | | | | | | | | | | | | | | | | | |c' k'|c' k'|c' k'|c' k'| |]; try exact J6;
      (destruct (Z.eq_dec c' c) as [->|Hne']; [assumption|rewrite Hf; assumption]). }
  destruct (Z.eqb_spec here c) as [->|Hhere]; injection Hstep as <- <-; (split; [reflexivity|]).
  - constructor; sets; try assumption.
    + intros t'. destruct (Z.eq_dec t' t) as [->|Hne].
      * thr. destruct (tls s t) as [| |sl c0]; [reflexivity|exact Hthr|]. destruct Hthr as (H1 & H2 & H3). split; [assumption|].
        split; [intros _; cbn [may_fence]; congruence|]. destruct k; exact H3.
      * apply (thread_ok_ext s); sets; upds; auto. intros sl c0 Ht'. split; [|tauto].
        pose proof (J3 t') as K. unfold thread_ok in K. rewrite Ht' in K. destruct K as [K _].
        assert (c0 <> c) by (intros ->; apply Hne; exact (J1 _ _ _ K Hc)). upds. auto.
    + intros t'. destruct (Z.eq_dec t' t) as [->|Hne]; upds; [exact Ha|apply J4].
    + intros t' c'. destruct (Z.eq_dec t' t) as [->|Hne]; upds; [|apply J5]. cbn [role]. intros [= ->]. assumption.
    + intros t'. destruct (Z.eq_dec t' t) as [->|Hne]; upds.
      * unfold phase_ok in *. sets. upds. split; [reflexivity|]. destruct k; [apply Hph|exact I].
      * apply (Hphase t' (upd (fenced s) c true) Hne); [intros; apply upd_other; assumption|apply upd_same].
    + intros c' Hs. destruct (J8 c' Hs) as [Hrg [Hg'|(t' & Hl' & Hx)]]; (split; [assumption|]); [left; assumption|]. right. exists t'.
      split; [assumption|]. destruct (Z.eq_dec t' t) as [->|Hne']; upds; [|assumption]. rewrite Epc in Hx. exact Hx.
    + intros c'. destruct (Z.eq_dec c' c) as [->|Hne]; upds; [|apply J9]. intros _. apply Hph.
  - assert (Hon : on_cpu s c t = false) by (unfold on_cpu; rewrite Hc; lia).
    constructor; sets; try assumption.
    + intros t'. destruct (Z.eq_dec t' t) as [->|Hne].
      * thr. rewrite Hon. destruct (tls s t) as [| |sl c0]; [reflexivity|exact Hthr|]. destruct Hthr as (H1 & H2 & H3). split; [assumption|].
        assert (c0 <> c) by congruence. upds. split; [intros Hf; destruct (H2 Hf)|]. destruct k; exact H3.
      * destruct (on_cpu s c t') eqn:Eon.
        -- unfold thread_ok. sets. upds. rewrite Eon. apply abort_cs.
        -- apply (thread_ok_ext s); sets; upds; rewrite ?Eon; auto. intros sl c0 Ht'. split; [|tauto].
           pose proof (J3 t') as K. unfold thread_ok in K. rewrite Ht' in K. destruct K as [K _]. unfold on_cpu in Eon. rewrite K in Eon.
           assert (c0 <> c) by lia. upds. auto.
    + intros t'. destruct (Z.eq_dec t' t) as [->|Hne]; upds; [exact Ha|]. destruct (on_cpu s c t'); rewrite ?abort_args; apply J4.
    + intros t' c'. destruct (Z.eq_dec t' t) as [->|Hne]; upds; [cbn [role]; intros [= ->]; assumption|].
      destruct (on_cpu s c t'); rewrite ?abort_role; apply J5.
    + intros t'. destruct (Z.eq_dec t' t) as [->|Hne]; upds.
      * unfold phase_ok in *. sets. upds. split; [reflexivity|]. destruct k; [apply Hph|exact I].
      * destruct (on_cpu s c t'); rewrite ?abort_phase; apply (Hphase t' (upd (fenced s) c true) Hne); intros; upds; auto.
    + intros c' Hs. destruct (J8 c' Hs) as [Hrg [Hg'|(t' & Hl' & Hx)]]; (split; [assumption|]); [left; assumption|]. right. exists t'.
      split; [assumption|]. destruct (Z.eq_dec t' t) as [->|Hne']; upds; [rewrite Epc in Hx; exact Hx|].
      destruct (on_cpu s c t'); rewrite ?abort_stops; assumption.
    + intros c'. destruct (Z.eq_dec c' c) as [->|Hne]; upds; [|apply J9]. intros _. apply Hph.
Qed.

(** A change of the region of a stopped and fenced CPU by the thread that stopped it:
    what the threads know is not affected. *)
Lemma owner_thread ncpu nclass s a t t' c : INV ncpu nclass s a -> locks s c = HeldBy t -> fenced s c = true -> t' <> t ->
  forall sl c', tls s t' = TSlab sl c' -> must_cur (pcs s t') = true -> c' <> c.
Proof.
  intros H Hl Hf Hne sl c' Ht Hm ->. destruct (fenced_excl ncpu nclass s a t' sl c H Ht Hf Hm) as [Hl' _]. congruence.
Qed.

Lemma step_rwork ncpu nclass s a t here c k s' ls : INV ncpu nclass s a -> cpu_of s t = Some here -> pcs s t = RWork c k ->
  tstep s t here = (s', ls) -> legal nclass a ls /\ INV ncpu nclass s' (replay a ls).
Proof.
  intros H Hc Epc Hstep. pose proof (i_args _ _ _ _ H t) as Ha. pose proof (i_thr _ _ _ _ H t) as Hthr. unfold thread_ok, pc_ok in Hthr.
  pose proof (i_phase _ _ _ _ H t) as Hph. rewrite Epc in *.
  unfold tstep in Hstep. rewrite Epc in Hstep. cbn in Ha. pose proof H as [J1 J2 J3 J4 J5 J6 J7 J8 J9 J10 J10' J11 J12 J13 J14 J15].
  pose proof (J5 t c ltac:(rewrite Epc; reflexivity)) as Hl. destruct Hph as [Hf Hph].
  assert (Hg : glob s = GNone) by (apply (not_all ncpu nclass s a c H Ha); congruence).
  destruct k.
  - pose proof (J11 (cur s)) as (Hk & Hlo & Hw & Hib & Hini).
    destruct (init_cpu (cfgs s (cur s)) (regs s (cur s) c)) as [r|] eqn:Ei; [|destruct (Hini _ Ei)]. injection Hstep as <- <-.
    split; [cbn [legal legal1]; split; [|exact I]; apply J13; assumption|]. cbn [replay fold_left replay1].
    pose proof (init_refines _ _ _ Hlo Hw Ei) as Href.
    constructor; sets; try assumption.
    + intros t'. destruct (Z.eq_dec t' t) as [->|Hne].
      * thr. destruct (tls s t) as [| |sl c0]; [reflexivity|exact Hthr|]. destruct Hthr as (H1 & H2 & H3). split; [assumption|]. split; [exact H2|]. exact H3.
      * apply (thread_ok_ext s); sets; upds; auto. intros sl c0 Ht'. split; [auto|]. intros Hm Hsl.
        pose proof (owner_thread ncpu nclass s a t t' c H Hl Hf Hne sl c0 Ht' Hm) as Hcc. rewrite upd2_other by tauto. auto.
    + intros t'. destruct (Z.eq_dec t' t) as [->|Hne]; upds; [exact Ha|apply J4].
    + intros t' c'. destruct (Z.eq_dec t' t) as [->|Hne]; upds; [|apply J5]. cbn [role]. intros [= ->]. assumption.
    + intros t'. destruct (Z.eq_dec t' t) as [->|Hne]; upds.
      * unfold phase_ok. sets. rewrite upd2_same. auto.
      * specialize (J6 t'). unfold phase_ok in *. sets. destruct J6 as [J6 J6']. split; [exact J6|].
        destruct (pcs s t'); try exact J6'; try (destruct k; [|exact J6']);
          (split; [apply J6'|]); unfold upd2; rewrite Z.eqb_refl; cbn [andb];
          match goal with |- (if ?x then _ else _) = _ => destruct x; [reflexivity|apply J6'] end.
    + intros c' Hs. destruct (J8 c' Hs) as [Hrg [Hg'|(t' & Hl' & Hx)]]; (split; [assumption|]); [congruence|]. right. exists t'.
      split; [assumption|]. destruct (Z.eq_dec t' t) as [->|Hne']; upds; [|assumption]. rewrite Epc in Hx. exact Hx.
    + intros c' Hp. destruct (Z.eq_dec c' c) as [->|Hne]; [rewrite upd2_same; reflexivity|]. rewrite upd2_other by tauto. auto.
    + intros sl c' Hi. destruct (Z.eq_dec sl (cur s)) as [->|Hne].
      * destruct (Z.eq_dec c' c) as [->|Hne]; [rewrite !upd2_same; assumption|]. rewrite upd2_other in Hi by tauto. rewrite !upd2_other by tauto. auto.
      * rewrite upd2_other in Hi by tauto. rewrite !upd2_other by tauto. auto.
    + intros c' Hp. destruct (Z.eq_dec c' c) as [->|Hne]; [rewrite upd2_same; intros cl _; reflexivity|]. rewrite upd2_other by tauto. auto.
    + intros sl c' Hne. rewrite upd2_other by tauto. auto.
    + rewrite Hg. exact I.
  - injection Hstep as <- <-. split; [exact I|]. cbn [replay fold_left].
    constructor; sets; try assumption.
    + intros t'. destruct (Z.eq_dec t' t) as [->|Hne].
      * thr. destruct (tls s t) as [| |sl c0]; [reflexivity|exact Hthr|]. destruct Hthr as (H1 & H2 & H3). split; [assumption|]. split; [exact H2|]. exact H3.
      * apply (thread_ok_ext s); sets; upds; auto. intros; cbn; tauto.
    + intros t'. destruct (Z.eq_dec t' t) as [->|Hne]; upds; [exact Ha|apply J4].
    + intros t' c'. destruct (Z.eq_dec t' t) as [->|Hne]; upds; [|apply J5]. cbn [role]. intros [= ->]. assumption.
    + intros t'. destruct (Z.eq_dec t' t) as [->|Hne]; upds; [|apply J6]. unfold phase_ok. sets. auto.
    + intros c' Hs. destruct (J8 c' Hs) as [Hrg [Hg'|(t' & Hl' & Hx)]]; (split; [assumption|]); [congruence|]. right. exists t'.
      split; [assumption|]. destruct (Z.eq_dec t' t) as [->|Hne']; upds; [|assumption]. rewrite Epc in Hx. exact Hx.
Qed.

Lemma step_remote ncpu nclass s a t c o r x : INV ncpu nclass s a -> pcs s t = RWork c false -> populated s c = true -> remote_op nclass o ->
  sop_step (cfgs s (cur s)) (begs s (cur s)) (regs s (cur s) c) o = (r, x) ->
  legal nclass a [LOp Remote (cfgs s (cur s)) (cur s) c o x]
  /\ INV ncpu nclass (set_reg s (cur s) c r) (replay a [LOp Remote (cfgs s (cur s)) (cur s) c o x]).
Proof.
  intros H Epc Hp Ho Hs. pose proof (i_args _ _ _ _ H t) as Ha. pose proof (i_phase _ _ _ _ H t) as Hph. rewrite Epc in *.
  cbn in Ha. pose proof H as [J1 J2 J3 J4 J5 J6 J7 J8 J9 J10 J10' J11 J12 J13 J14 J15].
  pose proof (J5 t c ltac:(rewrite Epc; reflexivity)) as Hl. destruct Hph as [Hf _].
  assert (Hg : glob s = GNone) by (apply (not_all ncpu nclass s a c H Ha); congruence).
  pose proof (J10 c Hp) as Hi. pose proof (J12 _ _ Hi) as Hr. pose proof (J11 (cur s)) as Hlay. pose proof Hlay as (Hk & _).
  destruct (commit_refines nclass _ _ _ _ o _ _ r Hlay Hr ltac:(destruct o; cbn [remote_op op_ok] in *; unfold is_class; rewrite ?Hk; try contradiction; auto) Hs (req_refl r)) as [Hx Hr'].
  split; [cbn [legal legal1]; auto|]. cbn [replay fold_left replay1].
  constructor; sets; try assumption.
  - intros t'. destruct (Z.eq_dec t' t) as [->|Hne].
    + pose proof (J3 t) as K. unfold thread_ok, pc_ok in *. sets. rewrite Epc in *. exact K.
    + apply (thread_ok_ext s); sets; auto. intros sl c0 Ht'. split; [auto|]. intros Hm Hsl.
      pose proof (owner_thread ncpu nclass s a t t' c H Hl Hf Hne sl c0 Ht' Hm) as Hcc. rewrite upd2_other by tauto. auto.
  - intros sl c' Hi'. destruct (Z.eq_dec sl (cur s)) as [->|Hne].
    + destruct (Z.eq_dec c' c) as [->|Hne]; [rewrite !upd2_same; assumption|]. rewrite !upd2_other by tauto. auto.
    + rewrite !upd2_other by tauto. auto.
  - intros c' Hp'. destruct (Z.eq_dec c' c) as [->|Hne]; [congruence|]. rewrite upd2_other by tauto. auto.
  - intros sl c' Hne. rewrite upd2_other by tauto. auto.
Qed.

Lemma step_rstart ncpu nclass s a t here c k s' ls : INV ncpu nclass s a -> cpu_of s t = Some here -> pcs s t = RStart c k ->
  tstep s t here = (s', ls) -> ls = [] /\ INV ncpu nclass s' a.
Proof.
  intros H Hc Epc Hstep. pose proof (i_args _ _ _ _ H t) as Ha. pose proof (i_thr _ _ _ _ H t) as Hthr. unfold thread_ok, pc_ok in Hthr.
  pose proof (i_phase _ _ _ _ H t) as Hph. rewrite Epc in *.
  unfold tstep in Hstep. rewrite Epc in Hstep. cbn in Ha. pose proof H as [J1 J2 J3 J4 J5 J6 J7 J8 J9 J10 J10' J11 J12 J13 J14 J15].
  pose proof (J5 t c ltac:(rewrite Epc; reflexivity)) as Hl. destruct Hph as [Hf Hph].
  assert (Hg : glob s = GNone) by (apply (not_all ncpu nclass s a c H Ha); congruence).
  injection Hstep as <- <-. split; [reflexivity|].
  constructor; sets; try assumption.
  - intros t'. destruct (Z.eq_dec t' t) as [->|Hne].
    + thr. destruct (tls s t) as [| |sl c0]; [destruct k; reflexivity|destruct Hthr|]. destruct Hthr as (H1 & H2 & H3). split; [assumption|]. split.
      * intros Hf'. destruct (Z.eq_dec c0 c) as [->|Hne]; [rewrite upd_same in Hf'; discriminate|]. rewrite upd_other in Hf' by assumption.
        specialize (H2 Hf'). cbn [may_fence] in H2. congruence.
      * destruct k; exact H3.
    + apply (thread_ok_ext s); sets; upds; auto. intros sl c0 Ht'. split; [|cbn; tauto]. unfold upd. destruct (c0 =? c); [discriminate|auto].
  - intros t'. destruct (Z.eq_dec t' t) as [->|Hne]; upds; [destruct k; exact Ha|apply J4].
  - intros t' c'. destruct (Z.eq_dec t' t) as [->|Hne]; upds; [|apply J5]. destruct k; cbn [role]; intros [= ->]; assumption.
  - intros t'. destruct (Z.eq_dec t' t) as [->|Hne]; upds.
    + unfold phase_ok. sets. destruct k; auto.
    + pose proof (J5 t') as J5'. specialize (J6 t'). unfold phase_ok in *. sets. destruct J6 as [J6 J6']. split; [|exact J6'].
      destruct (pcs s t'); cbn [role] in J5'; try exact J6;
        (assert (c0 <> c) by (intros ->; specialize (J5' c eq_refl); congruence)); upds; assumption.
  - intros c' Hs. destruct (Z.eq_dec c' c) as [->|Hne]; [rewrite upd_same in Hs; discriminate|]. rewrite upd_other in Hs by assumption.
    destruct (J8 c' Hs) as [Hrg [Hg'|(t' & Hl' & Hx)]]; (split; [assumption|]); [congruence|]. right. exists t'.
    split; [assumption|]. destruct (Z.eq_dec t' t) as [->|Hne']; upds; [|assumption]. rewrite Epc in Hx. cbn in Hx. congruence.
  - intros c' Hf'. destruct (Z.eq_dec c' c) as [->|Hne]; [rewrite upd_same in Hf'; discriminate|]. rewrite upd_other in Hf' by assumption. upds. auto.
Qed.

Lemma step_rpop ncpu nclass s a t here c s' ls : INV ncpu nclass s a -> cpu_of s t = Some here -> pcs s t = RPop c ->
  tstep s t here = (s', ls) -> ls = [] /\ INV ncpu nclass s' a.
Proof.
  intros H Hc Epc Hstep. pose proof (i_args _ _ _ _ H t) as Ha. pose proof (i_thr _ _ _ _ H t) as Hthr. unfold thread_ok, pc_ok in Hthr.
  pose proof (i_phase _ _ _ _ H t) as Hph. rewrite Epc in *.
  unfold tstep in Hstep. rewrite Epc in Hstep. cbn in Ha. pose proof H as [J1 J2 J3 J4 J5 J6 J7 J8 J9 J10 J10' J11 J12 J13 J14 J15].
  pose proof (J5 t c ltac:(rewrite Epc; reflexivity)) as Hl. destruct Hph as [_ [Hnp Hin]].
  injection Hstep as <- <-. split; [reflexivity|].
  constructor; sets; try assumption.
  - intros t'. destruct (Z.eq_dec t' t) as [->|Hne].
    + thr. destruct (tls s t) as [| |sl c0]; [reflexivity|exact Hthr|]. destruct Hthr as (H1 & H2 & H3 & H4 & ->). split; [assumption|]. split; [exact H2|].
      upds. cbn [data]. auto.
    + apply (thread_ok_ext s); sets; upds; auto. intros sl c0 Ht'. cbn. split; [auto|]. intros _ Hsl. split; [assumption|].
      split; [|auto]. destruct (Z.eq_dec c0 c) as [->|Hne']; upds; auto.
  - intros t'. destruct (Z.eq_dec t' t) as [->|Hne]; upds; [exact Ha|apply J4].
  - intros t' c'. destruct (Z.eq_dec t' t) as [->|Hne]; upds; [|apply J5]. cbn [role]. intros [= ->]. assumption.
  - intros t'. destruct (Z.eq_dec t' t) as [->|Hne]; upds; [unfold phase_ok; auto|].
    pose proof (J5 t') as J5'. specialize (J6 t'). unfold phase_ok in *. sets. destruct J6 as [J6 J6']. split; [exact J6|].
    destruct (pcs s t'); cbn [role] in J5'; try exact J6'; try (destruct k; [|exact J6']);
      (assert (c0 <> c) by (intros ->; specialize (J5' c eq_refl); congruence)); upds; assumption.
  - intros c' Hs. destruct (J8 c' Hs) as [Hrg [Hg'|(t' & Hl' & Hx)]]; (split; [assumption|]); [left; assumption|]. right. exists t'.
    split; [assumption|]. destruct (Z.eq_dec t' t) as [->|Hne']; upds; [|assumption]. rewrite Epc in Hx. destruct Hx.
  - intros c'. destruct (Z.eq_dec c' c) as [->|Hne]; upds; auto.
  - intros c'. destruct (Z.eq_dec c' c) as [->|Hne]; upds; auto.
  - intros c'. destruct (Z.eq_dec c' c) as [->|Hne]; upds; [discriminate|auto].
Qed.

Lemma step_runlock ncpu nclass s a t here c s' ls : INV ncpu nclass s a -> cpu_of s t = Some here -> pcs s t = RUnlock c ->
  tstep s t here = (s', ls) -> ls = [] /\ INV ncpu nclass s' a.
Proof.
  intros H Hc Epc Hstep. pose proof (i_args _ _ _ _ H t) as Ha. pose proof (i_thr _ _ _ _ H t) as Hthr. unfold thread_ok, pc_ok in Hthr.
  rewrite Epc in *.
  unfold tstep in Hstep. rewrite Epc in Hstep. cbn in Ha. pose proof H as [J1 J2 J3 J4 J5 J6 J7 J8 J9 J10 J10' J11 J12 J13 J14 J15].
  pose proof (J5 t c ltac:(rewrite Epc; reflexivity)) as Hl.
  assert (Hg : glob s = GNone) by (apply (not_all ncpu nclass s a c H Ha); congruence).
  injection Hstep as <- <-. split; [reflexivity|].
  constructor; sets; try assumption.
  - intros t'. destruct (Z.eq_dec t' t) as [->|Hne].
    + thr. destruct (tls s t) as [| |sl c0]; [reflexivity|exact Hthr|]. destruct Hthr as (H1 & H2 & H3). split; [assumption|]. split; [exact H2|]. exact H3.
    + apply (thread_ok_ext s); sets; upds; auto. intros; cbn; tauto.
  - intros t'. destruct (Z.eq_dec t' t) as [->|Hne]; upds; [exact I|apply J4].
  - intros t' c'. destruct (Z.eq_dec t' t) as [->|Hne]; upds; [discriminate|]. intros Hr. specialize (J5 t' c' Hr).
    assert (c' <> c) by congruence. upds. assumption.
  - intros t'. destruct (Z.eq_dec t' t) as [->|Hne]; upds; [unfold phase_ok; auto|apply J6].
  - intros c' Hc'. destruct (Z.eq_dec c' c) as [->|Hne]; upds; [|auto]. rewrite Hg. split; congruence.
  - intros c' Hs. destruct (J8 c' Hs) as [Hrg [Hg'|(t' & Hl' & Hx)]]; (split; [assumption|]); [congruence|]. right. exists t'.
    destruct (Z.eq_dec t' t) as [->|Hne'].
    { rewrite Epc in Hx. destruct Hx. }
    assert (c' <> c) by congruence. upds. auto.
Qed.

Theorem step_thread ncpu nclass s a t here s' ls : INV ncpu nclass s a -> cpu_of s t = Some here -> tstep s t here = (s', ls) ->
  legal nclass a ls /\ INV ncpu nclass s' (replay a ls).
Proof.
  intros H Hc Hstep.
  assert (Hnil : ls = [] /\ INV ncpu nclass s' a -> legal nclass a ls /\ INV ncpu nclass s' (replay a ls)).
  { intros [-> Hi]. split; [exact I|exact Hi]. }
  destruct (in_cs (pcs s t)) eqn:Ecs.
  { destruct (pcs s t) eqn:Epc; cbn [in_cs] in Ecs; try discriminate;
      try (apply (step_cs ncpu nclass s a t here); [assumption|assumption|rewrite Epc; reflexivity|rewrite Epc; discriminate|assumption]).
    apply Hnil. apply (step_plain ncpu nclass s a t here); [assumption|assumption|rewrite Epc; reflexivity|assumption]. }
  destruct (plain (pcs s t)) eqn:Epl; [apply Hnil; apply (step_plain ncpu nclass s a t here); assumption|].
  destruct (pcs s t) eqn:Epc; cbn [in_cs plain] in *; try discriminate.
  - apply Hnil. apply (step_rlock ncpu nclass s a t here c k); assumption.
  - apply Hnil. apply (step_rstop ncpu nclass s a t here c k); assumption.
  - apply Hnil. apply (step_rfence ncpu nclass s a t here c k); assumption.
  - apply (step_rwork ncpu nclass s a t here c k); assumption.
  - apply Hnil. apply (step_rstart ncpu nclass s a t here c k); assumption.
  - apply Hnil. apply (step_rpop ncpu nclass s a t here c); assumption.
  - apply Hnil. apply (step_runlock ncpu nclass s a t here c); assumption.
Qed.

(** ** Steps of the scheduler and of the operations that hold all the locks *)
Lemma no_roles ncpu nclass s a : INV ncpu nclass s a -> (forall c, 0 <= c < ncpu -> forall t, locks s c <> HeldBy t) -> forall t, role (pcs s t) = None.
Proof.
  intros H Hl t. destruct (role (pcs s t)) as [c|] eqn:E; [|reflexivity]. pose proof (i_own _ _ _ _ H t c E) as Ho.
  pose proof (i_args _ _ _ _ H t) as Ha. assert (Hc : 0 <= c < ncpu).
  { destruct (pcs s t); cbn [role] in E; try discriminate; injection E as ->; exact Ha. }
  destruct (Hl c Hc t Ho).
Qed.
Lemma glob_no_roles ncpu nclass s a : INV ncpu nclass s a -> glob s <> GNone -> forall t, role (pcs s t) = None.
Proof.
  intros H Hg. apply (no_roles ncpu nclass s a H). intros c Hc t. pose proof (proj2 (i_all _ _ _ _ H c Hc) Hg). congruence.
Qed.
Lemma phase_none s p : role p = None -> phase_ok s p.
Proof. intros H. unfold phase_ok. destruct p; cbn [role] in H; try discriminate; auto. Qed.

(** When all the locks are held for one operation, a thread whose CPU is fenced has no
    pointer that it could use. *)
Lemma glob_fenced ncpu nclass s a t sl c : INV ncpu nclass s a -> glob s <> GNone -> tls s t = TSlab sl c -> fenced s c = true -> must_cur (pcs s t) = false.
Proof.
  intros H Hg Ht Hf. destruct (must_cur (pcs s t)) eqn:Em; [|reflexivity].
  destruct (fenced_excl ncpu nclass s a t sl c H Ht Hf Em) as [_ (k & Hk)]. pose proof (glob_no_roles ncpu nclass s a H Hg t) as Hr.
  destruct Hk as [Hk|Hk]; rewrite Hk in Hr; discriminate.
Qed.

Lemma step_run ncpu nclass s a t c : INV ncpu nclass s a -> cpu_of s t = None -> 0 <= c < ncpu -> (forall t', cpu_of s t' <> Some c) ->
  INV ncpu nclass (set_cpu s t (Some c)) a.
Proof.
  intros H Hc Hrg Hfree. pose proof H as [J1 J2 J3 J4 J5 J6 J7 J8 J9 J10 J10' J11 J12 J13 J14 J15]. constructor; sets; try assumption.
  - intros t1 t2 c'. destruct (Z.eq_dec t1 t) as [->|H1], (Z.eq_dec t2 t) as [->|H2]; upds; intros E1 E2; try reflexivity.
    + injection E1 as <-. destruct (Hfree t2 E2).
    + injection E2 as <-. destruct (Hfree t1 E1).
    + exact (J1 _ _ _ E1 E2).
  - intros t1 c'. destruct (Z.eq_dec t1 t) as [->|H1]; upds; [|apply J2]. intros [= <-]. assumption.
  - intros t'. destruct (Z.eq_dec t' t) as [->|Hne].
    + pose proof (J3 t) as K. unfold thread_ok, pc_ok in *. sets. rewrite upd_same. rewrite Hc in K. destruct (tls s t) as [| |sl c0]; [exact K| |destruct K; congruence].
      destruct (pcs s t); try contradiction; try congruence.
    + apply (thread_ok_ext s); sets; upds; auto. intros; cbn; tauto.
Qed.

Lemma step_preempt ncpu nclass s a t : INV ncpu nclass s a -> INV ncpu nclass (set_cpu (interrupt s t) t None) a.
Proof.
  intros H. pose proof H as [J1 J2 J3 J4 J5 J6 J7 J8 J9 J10 J10' J11 J12 J13 J14 J15]. unfold interrupt. constructor; sets; try assumption.
  - intros t1 t2 c'. destruct (Z.eq_dec t1 t) as [->|H1], (Z.eq_dec t2 t) as [->|H2]; upds; intros E1 E2; try discriminate. exact (J1 _ _ _ E1 E2).
  - intros t1 c'. destruct (Z.eq_dec t1 t) as [->|H1]; upds; [discriminate|]. apply J2.
  - intros t'. destruct (Z.eq_dec t' t) as [->|Hne].
    + unfold thread_ok. sets. rewrite !upd_same. apply abort_cs.
    + apply (thread_ok_ext s); sets; upds; auto. intros; cbn; tauto.
  - intros t'. destruct (Z.eq_dec t' t) as [->|Hne]; upds; rewrite ?abort_args; apply J4.
  - intros t' c'. destruct (Z.eq_dec t' t) as [->|Hne]; upds; rewrite ?abort_role; apply J5.
  - intros t'. destruct (Z.eq_dec t' t) as [->|Hne]; upds; rewrite ?abort_phase; apply J6.
  - intros c' Hs. destruct (J8 c' Hs) as [Hrg [Hg'|(t' & Hl' & Hx)]]; (split; [assumption|]); [left; assumption|]. right. exists t'.
    split; [assumption|]. destruct (Z.eq_dec t' t) as [->|Hne']; upds; rewrite ?abort_stops; assumption.
Qed.

Lemma step_begin ncpu nclass s a t p : INV ncpu nclass s a -> pcs s t = Idle -> entry_ok ncpu nclass p -> INV ncpu nclass (set_pc s t p) a.
Proof.
  intros H Epc Hp. pose proof (i_thr _ _ _ _ H t) as Hthr. unfold thread_ok, pc_ok in Hthr. rewrite Epc in Hthr. local_step t.
  - thr. destruct (tls s t) as [| |sl c]; [|destruct Hthr|].
    + destruct p; cbn [entry_ok in_cs] in *; try contradiction; reflexivity.
    + destruct Hthr as (H1 & H2 & H3). split; [assumption|]. split; [intros Hf; destruct (H2 Hf)|].
      destruct p; cbn [entry_ok data] in *; try contradiction; try exact H3. destruct k; [contradiction|exact H3].
  - sets. rewrite upd_same. destruct p; cbn [entry_ok] in Hp; try contradiction; try exact Hp. destruct k; [contradiction|exact Hp].
  - rewrite Epc. reflexivity.
  - sets. rewrite upd_same. destruct p; cbn [entry_ok] in Hp; try contradiction; reflexivity.
Qed.

Lemma step_uncache ncpu nclass s a t : INV ncpu nclass s a -> pcs s t = Idle -> INV ncpu nclass (set_tls s t TNone) a.
Proof.
  intros H Epc. local_step t.
  - thr. rewrite Epc. reflexivity.
  - sets. rewrite Epc. exact I.
  - rewrite Epc. reflexivity.
  - sets. rewrite Epc. reflexivity.
Qed.

Lemma step_gbegin ncpu nclass s a new cf b : INV ncpu nclass s a -> glob s = GNone -> (forall c, 0 <= c < ncpu -> locks s c = Free) -> new <> cur s ->
  layout_for nclass cf b -> INV ncpu nclass (set_glob (set_locks (set_layout s new cf b) HeldAll) (GNew new)) a.
Proof.
  intros H Hg Hl Hnew Hlay. pose proof H as [J1 J2 J3 J4 J5 J6 J7 J8 J9 J10 J10' J11 J12 J13 J14 J15].
  pose proof (no_roles ncpu nclass s a H ltac:(intros c Hc t; rewrite Hl by assumption; discriminate)) as Hro.
  constructor; sets; try assumption.
  - intros t. apply (thread_ok_ext s); sets; auto. intros sl c Ht. split; [auto|]. intros _ Hsl. assert (sl <> new) by congruence. upds. auto.
  - intros t c Hr. rewrite Hro in Hr. discriminate.
  - intros t. apply phase_none. apply Hro.
  - intros c Hc. split; [discriminate|reflexivity].
  - intros c Hs. destruct (J8 c Hs) as [Hrg _]. split; [assumption|]. left. discriminate.
  - intros c Hp. replace (cur s =? new) with false by lia. auto.
  - intros sl. destruct (Z.eq_dec sl new) as [->|Hne]; upds; auto.
  - intros sl c Hi. destruct (Z.eqb_spec sl new) as [->|Hne]; [discriminate|]. upds. auto.
  - intros sl c Hne. left. destruct (J14 sl c Hne) as [K|(todo & K & _)]; [assumption|congruence].
Qed.

Lemma step_grel ncpu nclass s a : INV ncpu nclass s a -> glob s = GNone -> (forall c, 0 <= c < ncpu -> locks s c = Free) ->
  INV ncpu nclass (set_glob (set_locks s HeldAll) GRel) a.
Proof.
  intros H Hg Hl. pose proof H as [J1 J2 J3 J4 J5 J6 J7 J8 J9 J10 J10' J11 J12 J13 J14 J15].
  pose proof (no_roles ncpu nclass s a H ltac:(intros c Hc t; rewrite Hl by assumption; discriminate)) as Hro.
  constructor; sets; try assumption; try exact I.
  - intros t c Hr. rewrite Hro in Hr. discriminate.
  - intros c Hc. split; [discriminate|reflexivity].
  - intros c Hs. destruct (J8 c Hs) as [Hrg _]. split; [assumption|]. left. discriminate.
  - intros sl c Hne. left. destruct (J14 sl c Hne) as [K|(todo & K & _)]; [assumption|congruence].
Qed.

Lemma step_gstop ncpu nclass s a c : INV ncpu nclass s a -> glob s <> GNone -> 0 <= c < ncpu -> INV ncpu nclass (set_stopped s c true) a.
Proof.
  intros H Hg Hc. pose proof H as [J1 J2 J3 J4 J5 J6 J7 J8 J9 J10 J10' J11 J12 J13 J14 J15].
  constructor; sets; try assumption.
  - intros t. apply phase_none. apply (glob_no_roles ncpu nclass s a H Hg).
  - intros c' Hs. destruct (Z.eq_dec c' c) as [->|Hne]; [auto|]. rewrite upd_other in Hs by assumption. auto.
  - intros c' Hf. destruct (Z.eq_dec c' c) as [->|Hne]; upds; auto.
Qed.

Lemma step_ginit ncpu nclass s a new c r : INV ncpu nclass s a -> glob s = GNew new -> init_cpu (cfgs s new) (regs s new c) = Some r ->
  legal nclass a [LInit new c] /\ INV ncpu nclass (set_inited (set_reg s new c r) new c true) (replay a [LInit new c]).
Proof.
  intros H Hg Hi. pose proof H as [J1 J2 J3 J4 J5 J6 J7 J8 J9 J10 J10' J11 J12 J13 J14 J15].
  assert (Hnew : new <> cur s) by (rewrite Hg in J15; exact J15).
  split. { cbn [legal legal1]. split; [|exact I]. destruct (J14 new c Hnew) as [K|(todo & K & _)]; [exact K|congruence]. }
  cbn [replay fold_left replay1]. pose proof (J11 new) as (Hk & Hlo & Hw & Hib & Hini). pose proof (init_refines _ _ _ Hlo Hw Hi) as Href.
  constructor; sets; try assumption.
  - intros t. apply (thread_ok_ext s); sets; auto. intros sl c0 Ht. split; [auto|]. intros _ Hsl. rewrite upd2_other by (left; congruence). auto.
  - intros t. apply phase_none. apply (glob_no_roles ncpu nclass s a H). congruence.
  - intros c' Hp. rewrite upd2_other by (left; congruence). auto.
  - intros sl c' Hi'. destruct (Z.eq_dec sl new) as [->|Hne].
    + destruct (Z.eq_dec c' c) as [->|Hne]; [rewrite !upd2_same; assumption|]. rewrite upd2_other in Hi' by tauto. rewrite !upd2_other by tauto. auto.
    + rewrite upd2_other in Hi' by tauto. rewrite !upd2_other by tauto. auto.
  - intros c' Hp. rewrite upd2_other by (left; congruence). auto.
  - intros sl c' Hne. destruct (Z.eq_dec sl new) as [->|Hne'].
    + destruct (Z.eq_dec c' c) as [->|Hne']; [left; rewrite upd2_same; intros cl _; reflexivity|]. rewrite upd2_other by tauto. auto.
    + rewrite upd2_other by tauto. auto.
  - rewrite Hg. assumption.
Qed.

Lemma step_gfence ncpu nclass s a c : INV ncpu nclass s a -> glob s <> GNone -> stopped s c = true ->
  INV ncpu nclass (set_fenced (interrupt_cpu s c) c true) a.
Proof.
  intros H Hg Hs. pose proof H as [J1 J2 J3 J4 J5 J6 J7 J8 J9 J10 J10' J11 J12 J13 J14 J15].
  pose proof (glob_no_roles ncpu nclass s a H Hg) as Hro.
  constructor; sets; try assumption.
  - intros t. destruct (on_cpu s c t) eqn:Eon.
    + unfold thread_ok. sets. rewrite Eon. apply abort_cs.
    + apply (thread_ok_ext s); sets; rewrite ?Eon; auto. intros sl c0 Ht. split; [|tauto].
      pose proof (J3 t) as K. unfold thread_ok in K. rewrite Ht in K. destruct K as [K _]. unfold on_cpu in Eon. rewrite K in Eon.
      assert (c0 <> c) by lia. upds. auto.
  - intros t. destruct (on_cpu s c t); rewrite ?abort_args; apply J4.
  - intros t c' Hr. destruct (on_cpu s c t); rewrite ?abort_role in Hr; rewrite Hro in Hr; discriminate.
  - intros t. apply phase_none. destruct (on_cpu s c t); rewrite ?abort_role; apply Hro.
  - intros c' Hs'. destruct (J8 c' Hs') as [Hrg _]. auto.
  - intros c' Hf. destruct (Z.eq_dec c' c) as [->|Hne]; [assumption|]. rewrite upd_other in Hf by assumption. auto.
Qed.

Lemma step_gswap ncpu nclass s a new : INV ncpu nclass s a -> glob s = GNew new ->
  (forall c, 0 <= c < ncpu -> fenced s c = true /\ (populated s c = true -> inited s new c = true)) ->
  INV ncpu nclass (set_glob (set_cur s new) (GDrain (cur s) (populated s))) a.
Proof.
  intros H Hg Hall. pose proof H as [J1 J2 J3 J4 J5 J6 J7 J8 J9 J10 J10' J11 J12 J13 J14 J15].
  assert (Hnew : new <> cur s) by (rewrite Hg in J15; exact J15). assert (Hgn : glob s <> GNone) by congruence.
  constructor; sets; try assumption.
  - intros t. apply (thread_ok_ext s); sets; auto. intros sl c Ht. split; [auto|]. intros Hm _. exfalso.
    pose proof (J3 t) as K. unfold thread_ok in K. rewrite Ht in K. destruct K as [K _].
    pose proof (glob_fenced ncpu nclass s a t sl c H Hgn Ht (proj1 (Hall c (J2 _ _ K)))). congruence.
  - intros t. apply phase_none. apply (glob_no_roles ncpu nclass s a H Hgn).
  - intros c Hc. split; [discriminate|]. intros _. apply J7; assumption.
  - intros c Hs. destruct (J8 c Hs) as [Hrg _]. split; [assumption|]. left. discriminate.
  - intros c Hp. apply Hall; [apply J10'; assumption|assumption].
  - intros c Hp. destruct (J14 new c Hnew) as [K|(todo & K & _)]; [exact K|congruence].
  - intros sl c Hne. destruct (Z.eq_dec sl (cur s)) as [->|Hne'].
    + destruct (populated s c) eqn:Ep; [right; eauto|]. left. apply J13. assumption.
    + left. destruct (J14 sl c Hne') as [K|(todo & K & _)]; [exact K|congruence].
  - split; [congruence|]. intros c Hp. apply J10. assumption.
Qed.

Lemma step_gstart ncpu nclass s a c : INV ncpu nclass s a -> glob s <> GNone -> INV ncpu nclass (set_fenced (set_stopped s c false) c false) a.
Proof.
  intros H Hg. pose proof H as [J1 J2 J3 J4 J5 J6 J7 J8 J9 J10 J10' J11 J12 J13 J14 J15].
  constructor; sets; try assumption.
  - intros t. apply (thread_ok_ext s); sets; auto. intros sl c0 Ht. split; [|tauto]. unfold upd. destruct (c0 =? c); [discriminate|auto].
  - intros t. apply phase_none. apply (glob_no_roles ncpu nclass s a H Hg).
  - intros c' Hs. unfold upd in Hs. destruct (c' =? c); [discriminate|]. auto.
  - intros c'. unfold upd. destruct (c' =? c); [discriminate|auto].
Qed.

Lemma step_gdrain ncpu nclass s a old todo c r x : INV ncpu nclass s a -> glob s = GDrain old todo -> todo c = true ->
  sop_step (cfgs s old) (begs s old) (regs s old c) ODrain = (r, x) ->
  legal nclass a [LOp Remote (cfgs s old) old c ODrain x]
  /\ INV ncpu nclass (set_glob (set_reg s old c r) (GDrain old (upd todo c false))) (replay a [LOp Remote (cfgs s old) old c ODrain x]).
Proof.
  intros H Hg Ht Hs. pose proof H as [J1 J2 J3 J4 J5 J6 J7 J8 J9 J10 J10' J11 J12 J13 J14 J15].
  rewrite Hg in J15. destruct J15 as [Hold Htodo]. pose proof (Htodo c Ht) as Hi. pose proof (J12 _ _ Hi) as Hr.
  destruct (commit_refines nclass _ _ _ _ ODrain _ _ r (J11 old) Hr I Hs (req_refl r)) as [Hx Hr'].
  split; [cbn [legal legal1]; auto|]. cbn [replay fold_left replay1].
  constructor; sets; try assumption.
  - intros t. apply (thread_ok_ext s); sets; auto. intros sl c0 Ht'. split; [auto|]. intros _ Hsl. rewrite upd2_other by (left; congruence). auto.
  - intros c' Hc'. rewrite J7 by assumption. rewrite Hg. split; discriminate.
  - intros c' Hs'. destruct (J8 c' Hs') as [Hrg _]. split; [assumption|]. left. discriminate.
  - intros sl c' Hi'. destruct (Z.eq_dec sl old) as [->|Hne].
    + destruct (Z.eq_dec c' c) as [->|Hne]; [rewrite !upd2_same; assumption|]. rewrite !upd2_other by tauto. auto.
    + rewrite !upd2_other by tauto. auto.
  - intros c' Hp. rewrite upd2_other by (left; congruence). auto.
  - intros sl c' Hne. destruct (Z.eq_dec sl old) as [->|Hne'].
    + destruct (Z.eq_dec c' c) as [->|Hne']; [left; rewrite upd2_same; intros cl _; reflexivity|]. rewrite upd2_other by tauto.
      destruct (J14 old c' Hne) as [K|(todo' & K & K')]; [auto|]. right. eexists. split; [reflexivity|]. upds. congruence.
    + rewrite upd2_other by tauto. left. destruct (J14 sl c' Hne) as [K|(todo' & K & K')]; [auto|congruence].
  - split; [assumption|]. intros c' Hc'. apply Htodo. destruct (Z.eq_dec c' c) as [->|Hne]; [assumption|]. rewrite upd_other in Hc' by assumption. assumption.
Qed.

Lemma step_gend ncpu nclass s a : INV ncpu nclass s a ->
  (exists old todo, glob s = GDrain old todo /\ forall c, todo c = false) \/ glob s = GRel -> (forall c, stopped s c = false) ->
  INV ncpu nclass (set_glob (set_locks s Free) GNone) a.
Proof.
  intros H Hg Hs. pose proof H as [J1 J2 J3 J4 J5 J6 J7 J8 J9 J10 J10' J11 J12 J13 J14 J15].
  assert (Hgn : glob s <> GNone) by (destruct Hg as [(old & todo & Hg & _)|Hg]; congruence).
  pose proof (glob_no_roles ncpu nclass s a H Hgn) as Hro.
  constructor; sets; try assumption; try exact I.
  - intros t c Hr. rewrite Hro in Hr. discriminate.
  - intros c Hc. split; [discriminate|congruence].
  - intros c Hc. rewrite Hs in Hc. discriminate.
  - intros sl c Hne. left. destruct (J14 sl c Hne) as [K|(todo & K & K')]; [assumption|].
    destruct Hg as [(old' & todo' & Hg & Hz)|Hg]; [|congruence]. rewrite Hg in K. injection K as <- <-. rewrite Hz in K'. discriminate.
Qed.

Lemma drained_empty nclass cf b r a : layout_for nclass cf b -> refines cf r a -> is_drained cf b r = true -> empty_at nclass a.
Proof.
  intros (Hk & Hl & Hw & Hib & _) Hr Hd cl Hcl. assert (Hc : is_class cf cl) by (unfold is_class; lia).
  unfold is_drained in Hd. rewrite forallb_forall in Hd. specialize (Hd cl). rewrite zseq_In in Hd. specialize (Hd ltac:(lia)).
  specialize (Hr cl Hc). destruct (a cl) as [l cap]. destruct Hr as (H1 & H2 & H3 & H4 & H5 & H6).
  pose proof (class_in cf cl Hl Hc) as [H7 _]. assert (0 <= header_words cf) by (unfold header_words; destruct Hl; apply Z.div_pos; lia).
  rewrite (init_slabs_spec cf b Hl Hw Hib cl Hc) in Hd. apply orb_true_iff in Hd.
  assert (zlen l = 0). { unfold zlen in *. destruct Hd as [Hd|Hd]; apply Z.eqb_eq in Hd; lia. }
  cbn [fst]. destruct l; [reflexivity|unfold zlen in *; cbn [length] in *; lia].
Qed.

Lemma step_unmap ncpu nclass s a c : INV ncpu nclass s a -> glob s = GRel -> fenced s c = true ->
  (populated s c = true -> is_drained (cfgs s (cur s)) (begs s (cur s)) (regs s (cur s) c) = true) ->
  INV ncpu nclass (set_inited (set_reg (set_populated s c false) (cur s) c (Region (fun _ => 0) (fun _ => 0) (fun _ => 0))) (cur s) c false) a.
Proof.
  intros H Hg Hf Hd. pose proof H as [J1 J2 J3 J4 J5 J6 J7 J8 J9 J10 J10' J11 J12 J13 J14 J15].
  assert (Hgn : glob s <> GNone) by congruence.
  constructor; sets; try assumption.
  - intros t. apply (thread_ok_ext s); sets; auto. intros sl c0 Ht. split; [auto|]. intros Hm Hsl.
    assert (c0 <> c) by (intros ->; pose proof (glob_fenced ncpu nclass s a t sl c H Hgn Ht Hf); congruence).
    rewrite upd2_other by tauto. upds. auto.
  - intros t. apply phase_none. apply (glob_no_roles ncpu nclass s a H Hgn).
  - intros c' Hp. destruct (Z.eq_dec c' c) as [->|Hne]; [rewrite upd_same in Hp; discriminate|]. rewrite upd_other in Hp by assumption.
    rewrite upd2_other by tauto. auto.
  - intros c' Hp. destruct (Z.eq_dec c' c) as [->|Hne]; [rewrite upd_same in Hp; discriminate|]. rewrite upd_other in Hp by assumption. auto.
  - intros sl c' Hi. destruct (Z.eq_dec sl (cur s)) as [->|Hne].
    + destruct (Z.eq_dec c' c) as [->|Hne]; [rewrite upd2_same in Hi; discriminate|]. rewrite upd2_other in Hi by tauto. rewrite upd2_other by tauto. auto.
    + rewrite upd2_other in Hi by tauto. rewrite upd2_other by tauto. auto.
  - intros c' Hp. destruct (Z.eq_dec c' c) as [->|Hne]; [|rewrite upd_other in Hp by assumption; auto].
    destruct (populated s c) eqn:Ep; [|apply J13; assumption].
    apply (drained_empty nclass (cfgs s (cur s)) (begs s (cur s)) (regs s (cur s) c)); [apply J11|apply J12, J10; assumption|auto].
  - rewrite Hg. exact I.
Qed.

Theorem step_inv ncpu nclass s ls s' a : INV ncpu nclass s a -> rstep ncpu nclass s ls s' ->
  legal nclass a ls /\ INV ncpu nclass s' (replay a ls).
Proof.
  intros H Hs. inversion Hs; subst; clear Hs; try (apply (fun K => conj (I : legal nclass a []) K); cbn [replay fold_left]).
  - apply step_run; assumption.
  - apply step_preempt; assumption.
  - apply step_begin; assumption.
  - apply step_uncache; assumption.
  - eapply step_thread; eassumption.
  - eapply step_remote; eassumption.
  - apply step_gbegin; assumption.
  - apply step_gstop; [assumption| |assumption]. destruct H0 as [->|(new & ->)]; discriminate.
  - apply step_ginit; assumption.
  - apply step_gfence; assumption.
  - apply step_gswap; assumption.
  - apply step_gstart; [assumption|]. destruct H0 as [(old & todo & ->)| ->]; discriminate.
  - apply step_gdrain with (todo := todo); assumption.
  - apply step_gend; assumption.
  - apply step_grel; assumption.
  - apply step_unmap; assumption.
Qed.

Lemma reach_inv ncpu nclass s tr : reach ncpu nclass s tr -> legal nclass no_stacks tr /\ INV ncpu nclass s (replay no_stacks tr).
Proof.
  induction 1 as [s cf b Hlay Ht Hc Hcf Hin Hg|s s' tr ls H [IHl IHi] Hs].
  - split; [exact I|]. constructor; try (intros; exfalso; destruct (Ht t) as (K1 & K2 & K3); congruence).
    + intros t. unfold thread_ok. destruct (Ht t) as (_ & -> & ->). reflexivity.
    + intros t. destruct (Ht t) as (_ & _ & ->). exact I.
    + intros t c. destruct (Ht t) as (_ & _ & ->). discriminate.
    + intros t. destruct (Ht t) as (_ & _ & ->). unfold phase_ok. auto.
    + intros c _. destruct (Hc c) as (_ & _ & -> & _). rewrite Hg. split; [discriminate|congruence].
    + intros c. destruct (Hc c) as (-> & _). discriminate.
    + intros c. destruct (Hc c) as (_ & -> & _). discriminate.
    + intros c. destruct (Hc c) as (_ & _ & _ & ->). discriminate.
    + intros c. destruct (Hc c) as (_ & _ & _ & ->). discriminate.
    + intros sl. destruct (Hcf sl) as [-> ->]. assumption.
    + intros sl c. rewrite Hin. discriminate.
    + intros c _ cl _. reflexivity.
    + intros sl c _. left. intros cl _. reflexivity.
    + rewrite Hg. exact I.
  - destruct (step_inv ncpu nclass s ls s' _ IHi Hs) as [K1 K2]. rewrite replay_app. split; [apply legal_app; auto|assumption].
Qed.
