(** Properties of the capacity accounting of the per-CPU caches (property C24). *)
From Coq Require Import Permutation.
From Verif Require Import Base Slab SlabProps CpuCache StackFilterProps.

(** ** Specification *)

(** The bytes that the capacities [f] of the classes stand for. *)
Definition bytes_of (e : cenv) (f : Z -> Z) : Z := zsum (map (fun k => f k * csize e k) (zseq 1 (Z.to_nat (nclass e - 1)))).
(** The sum of [f] over the CPUs. *)
Definition over_cpus (e : cenv) (f : Z -> Z) : Z := zsum (map f (zseq 0 (Z.to_nat (ncpu e)))).

(** What an operation in progress holds of the budget of [c]: bytes taken from the
    available ones (or from a class) that are not yet elsewhere; negative for bytes
    already added to the available ones and not yet taken from where they come from. *)
Definition in_flight (e : cenv) (t : task) (c : Z) : Z :=
  match t with
  | GSlab c' _ got => if c' =? c then got else 0
  | GBack c' u => if c' =? c then u else 0
  | DrainSt c' k n => if c' =? c then - (n * csize e k) else 0
  | RHold c' a | RWork c' a | RBack c' a => if c' =? c then a else 0
  | SCap _ _ _ src st => if src =? c then st else 0
  | SShrunk _ _ _ src sz => if src =? c then sz else 0
  | SGave d acq => if d =? c then - acq else 0
  | _ => 0
  end.
(** Budget that is moving between CPUs. *)
Definition moving (t : task) : Z :=
  match t with
  | SAcq _ _ acq | SCap _ _ acq _ _ | SLock _ _ acq _ | SWork _ _ acq _ | SShrunk _ _ acq _ _ | SGave _ acq => acq
  | _ => 0
  end.

(** The environment: some CPUs, sizes that are not negative. *)
Definition env_ok (e : cenv) : Prop := 0 <= ncpu e /\ 0 <= limit e /\ forall k, 0 <= csize e k.

(** ** Invariant *)
Definition b2z (b : bool) : Z := if b then 1 else 0.
Definition own (t : task) (c : Z) : Z :=
  match t with
  | DrainAt c' _ | DrainSt c' _ _ | RWork c' _ => b2z (c' =? c)
  | SWork _ _ _ src | SShrunk _ _ _ src _ => b2z (src =? c)
  | ZDrain | ULocked => 1
  | _ => 0
  end.
Definition bg (t : task) : Z := b2z (background t).
Definition task_ok (e : cenv) (m : cmem) (t : task) : Prop :=
  match t with
  | GSlab c k got => is_cpu e c /\ sized e k /\ csize e k <= got
  | GBack c u => is_cpu e c /\ 0 <= u
  | DrainAt c k => is_cpu e c /\ 1 <= k /\ stop m c = true
  | DrainSt c k n => is_cpu e c /\ 1 <= k < nclass e /\ stop m c = true /\ caps m c k = n
  | RHold c a => is_cpu e c /\ 0 <= a /\ pop m c = true
  | RWork c a => is_cpu e c /\ 0 <= a /\ pop m c = true
  | RBack c a => is_cpu e c /\ 0 <= a
  | SAcq d _ acq => is_cpu e d /\ 0 <= acq
  | SCap d _ acq src st => is_cpu e d /\ 0 <= acq /\ is_cpu e src /\ 0 <= st
  | SLock d _ acq src => is_cpu e d /\ 0 <= acq /\ is_cpu e src
  | SWork d _ acq src => is_cpu e d /\ 0 <= acq /\ is_cpu e src
  | SShrunk d _ acq src sz => is_cpu e d /\ 0 <= acq /\ is_cpu e src /\ 0 <= sz
  | SGave d acq => is_cpu e d /\ 0 <= acq
  | ZDrain | ULocked => True
  end.
Definition isz (t : task) : Z := match t with ZDrain => 1 | _ => 0 end.

(** What the counters of [c] say beyond its budget. *)
Definition bal (e : cenv) (m : cmem) (c : Z) : Z := avail m c + bytes_of e (caps m c) + bytes_of e (old m c) - capac m c.
Definition sum (f : task -> Z) (ts : list task) : Z := zsum (map f ts).

Record mem_ok (e : cenv) (m : cmem) : Prop := {
  mo_avail : forall c, is_cpu e c -> 0 <= avail m c;
  mo_caps : forall c k, is_cpu e c -> 1 <= k < nclass e -> 0 <= caps m c k <= maxc m k;
  mo_old : forall c k, is_cpu e c -> 1 <= k < nclass e -> 0 <= old m c k;
  mo_maxc : forall k, 0 <= maxc m k;
  mo_pop : forall c k, is_cpu e c -> 1 <= k < nclass e -> pop m c = false -> caps m c k = 0;
  mo_stop : forall c, is_cpu e c -> stop m c = true -> lock m c = true }.
Record inv (e : cenv) (m : cmem) (ts : list task) : Prop := {
  iv_mem : mem_ok e m;
  iv_task : Forall (task_ok e m) ts;
  iv_bal : forall c, is_cpu e c -> bal e m c + sum (fun t => in_flight e t c) ts = 0;
  iv_tot : over_cpus e (capac m) + sum moving ts = ncpu e * limit e;
  iv_capac : forall c, is_cpu e c -> 0 <= capac m c;
  iv_own : forall c, is_cpu e c -> sum (fun t => own t c) ts = b2z (lock m c);
  iv_bg : sum bg ts <= 1;
  iv_old : sum isz ts = 0 -> forall c k, is_cpu e c -> 1 <= k < nclass e -> old m c k = 0 }.

(** ** Lemmas *)
Lemma sum_app f a b : sum f (a ++ b) = sum f a + sum f b.
Proof. unfold sum. rewrite map_app. apply zsum_app. Qed.
Lemma sum_cons f t b : sum f (t :: b) = f t + sum f b.
Proof. reflexivity. Qed.
Lemma sum_nil f : sum f [] = 0.
Proof. reflexivity. Qed.
Lemma sum_ge0 f l : (forall t, In t l -> 0 <= f t) -> 0 <= sum f l.
Proof.
  unfold sum. induction l as [|t l IH]; intros H; cbn [map zsum]; [lia|].
  pose proof (H t (or_introl eq_refl)). pose proof (IH (fun x Hx => H x (or_intror Hx))). lia.
Qed.

Lemma zsum_upd_at (g : Z -> Z) i v s n : s <= i < s + Z.of_nat n ->
  zsum (map (upd g i v) (zseq s n)) = zsum (map g (zseq s n)) + v - g i.
Proof.
  revert s. induction n as [|n IH]; intros s H; [lia|]. cbn [zseq map zsum]. destruct (Z.eq_dec i s) as [->|N].
  - rewrite upd_same. rewrite (map_ext_in (upd g s v) g); [lia|]. intros j Hj. apply zseq_In in Hj. apply upd_other. lia.
  - rewrite IH by lia. rewrite upd_other by lia. lia.
Qed.
Lemma over_cpus_upd e f c v : is_cpu e c -> over_cpus e (upd f c v) = over_cpus e f + v - f c.
Proof. intros H. unfold over_cpus. apply zsum_upd_at. unfold is_cpu in H. lia. Qed.
Lemma bytes_of_upd e f k v : 1 <= k < nclass e -> bytes_of e (upd f k v) = bytes_of e f + (v - f k) * csize e k.
Proof.
  intros H. unfold bytes_of. pose proof (zsum_upd_at (fun j => f j * csize e j) k (v * csize e k) 1 (Z.to_nat (nclass e - 1)) ltac:(lia)) as E.
  rewrite (map_ext_in (fun j => upd f k v j * csize e j) (upd (fun j => f j * csize e j) k (v * csize e k))); [cbv beta in E; nia|].
  intros j _. destruct (Z.eq_dec j k) as [->|N]; [rewrite !upd_same; reflexivity|rewrite !upd_other by lia; reflexivity].
Qed.
Lemma bytes_of_zero e f : (forall k, 1 <= k < nclass e -> f k = 0) -> bytes_of e f = 0.
Proof.
  intros H. unfold bytes_of. assert (G : forall k, In k (zseq 1 (Z.to_nat (nclass e - 1))) -> f k = 0).
  { intros k Hk. apply zseq_In in Hk. apply H. lia. }
  revert G. generalize (zseq 1 (Z.to_nat (nclass e - 1))). intros l. induction l as [|k l IH]; intros G; cbn [map zsum]; [reflexivity|].
  rewrite (G k) by now left. rewrite IH by (intros; apply G; now right). lia.
Qed.
Lemma bytes_of_nonneg e f : env_ok e -> (forall k, 1 <= k < nclass e -> 0 <= f k) -> 0 <= bytes_of e f.
Proof.
  intros He H. unfold bytes_of. assert (G : forall k, In k (zseq 1 (Z.to_nat (nclass e - 1))) -> 0 <= f k).
  { intros k Hk. apply zseq_In in Hk. apply H. lia. }
  revert G. generalize (zseq 1 (Z.to_nat (nclass e - 1))). intros l. induction l as [|k l IH]; intros G; cbn [map zsum]; [lia|].
  pose proof (G k (or_introl eq_refl)). pose proof (IH (fun x Hx => G x (or_intror Hx))). destruct He as (_ & _ & Hs). specialize (Hs k). nia.
Qed.
Lemma bytes_of_ge e f k : env_ok e -> (forall k, 1 <= k < nclass e -> 0 <= f k) -> 1 <= k < nclass e -> f k * csize e k <= bytes_of e f.
Proof.
  intros He H Hk. pose proof (bytes_of_upd e f k 0 Hk) as E. assert (0 <= bytes_of e (upd f k 0)).
  { apply bytes_of_nonneg; [assumption|]. intros j Hj. destruct (Z.eq_dec j k) as [->|N]; [rewrite upd_same; lia|rewrite upd_other by lia; auto]. }
  lia.
Qed.
Lemma over_cpus_ge e f c : (forall c, is_cpu e c -> 0 <= f c) -> is_cpu e c -> f c <= over_cpus e f.
Proof.
  intros H Hc. unfold over_cpus. apply (zsum_ge_one f); [|apply zseq_In; unfold is_cpu in Hc; lia].
  intros y Hy. apply zseq_In in Hy. apply H. unfold is_cpu. lia.
Qed.
Lemma sub_bounds a mn mx : 0 <= mn -> 0 <= a -> 0 <= mx -> 0 <= subtract_at_least a mn mx <= a /\ subtract_at_least a mn mx <= mx /\
  (subtract_at_least a mn mx <> 0 -> mn <= mx -> mn <= subtract_at_least a mn mx).
Proof. unfold subtract_at_least. intros. destruct (Z.ltb_spec a mn); lia. Qed.

Ltac ups := repeat first [rewrite upd_same | rewrite upd_other by (first [assumption | congruence | lia])].
Ltac fields := cbn [avail capac caps maxc old lock stop pop set_avail set_capac set_cap set_old set_held set_pop set_all activate] in *.

(** One step keeps the balance of every CPU. *)
Lemma tr_bal e m xs m' ys c : env_ok e -> mem_ok e m -> Forall (task_ok e m) xs -> tr e m xs m' ys -> is_cpu e c ->
  (sum isz xs = 0 -> forall k, 1 <= k < nclass e -> old m c k = 0 \/ sum isz ys = 0) ->
  bal e m c + sum (fun t => in_flight e t c) xs = bal e m' c + sum (fun t => in_flight e t c) ys.
Proof.
  intros He Hm Ht T Hc Ho.
  destruct T; repeat match goal with H : Forall _ (_ :: _) |- _ => inversion H; clear H; subst end; cbn [task_ok] in *;
    rewrite ?sum_cons, ?sum_nil; unfold bal; fields; cbn [in_flight].
  (* populate *)
  - destruct (Z.eq_dec c c0) as [->|N]; ups; [|lia]. rewrite (bytes_of_zero e (caps m c0)), (bytes_of_zero e (fun _ => 0)); [lia|reflexivity|].
    intros. apply (mo_pop _ _ Hm); assumption.
  - destruct (Z.eqb_spec c0 c) as [->|N]; ups; lia.
  - destruct (Z.eqb_spec c0 c) as [->|N]; ups; [|lia]. rewrite bytes_of_upd by (unfold sized in *; tauto). lia.
  - destruct (Z.eqb_spec c0 c) as [->|N]; lia.
  - destruct (Z.eqb_spec c0 c) as [->|N]; ups; lia.
  - lia.
  - destruct (Z.eqb_spec c0 c) as [->|N]; ups; lia.
  - destruct (Z.eqb_spec c0 c) as [->|N]; ups; [|lia]. rewrite bytes_of_upd by tauto. replace (caps m c k) with n by (symmetry; tauto). lia.
  - lia.
  - destruct (Z.eqb_spec c0 c) as [->|N]; ups; lia.
  - lia.
  - destruct (Z.eqb_spec c0 c) as [->|N]; ups; [|lia]. rewrite bytes_of_upd by (unfold sized in *; tauto). lia.
  - destruct (Z.eqb_spec c0 c) as [->|N]; ups; [|lia]. rewrite bytes_of_upd by (unfold sized in *; tauto). lia.
  - lia.
  - destruct (Z.eqb_spec c0 c) as [->|N]; ups; lia.
  - lia.
  - destruct (Z.eqb_spec src c) as [->|N]; ups; lia.
  - destruct (bytes <=? acq + st); cbn [in_flight]; destruct (Z.eqb_spec src c) as [->|N]; ups; lia.
  - lia.
  - destruct (Z.eqb_spec src c) as [->|N]; ups; [|lia]. rewrite bytes_of_upd by (unfold sized in *; tauto). lia.
  - destruct (Z.eqb_spec src c) as [->|N]; ups; lia.
  - lia.
  - lia.
  - destruct (Z.eqb_spec d c) as [->|N]; ups; lia.
  - destruct (Z.eqb_spec d c) as [->|N]; ups; lia.
  - rewrite (bytes_of_zero e (fun _ => 0)), (bytes_of_zero e (old m c)); [lia| |reflexivity].
    intros k Hk. destruct (Ho eq_refl k Hk) as [E|E]; [exact E|discriminate].
  - destruct (Z.eqb_spec c0 c) as [->|N]; ups; [|lia]. rewrite bytes_of_upd by tauto. lia.
  - lia.
  - lia.
  - lia.
  - lia.
Qed.

Lemma tr_tot e m xs m' ys : Forall (task_ok e m) xs -> tr e m xs m' ys ->
  over_cpus e (capac m) + sum moving xs = over_cpus e (capac m') + sum moving ys.
Proof.
  intros Ht T.
  destruct T; repeat match goal with H : Forall _ (_ :: _) |- _ => inversion H; clear H; subst end; cbn [task_ok] in *;
    rewrite ?sum_cons, ?sum_nil; fields; cbn [moving]; rewrite ?over_cpus_upd by tauto; try lia.
  destruct (bytes <=? acq + st); cbn [moving]; lia.
Qed.

Lemma tr_mem e m xs m' ys : env_ok e -> mem_ok e m -> Forall (task_ok e m) xs -> tr e m xs m' ys -> mem_ok e m'.
Proof.
  intros He [Ha Hc Ho Hx Hp Hs] Ht T.
  assert (Q : forall a k, 0 < csize e k -> 0 <= a -> 0 <= a / csize e k) by (intros; apply Z.div_pos; lia).
  destruct T; repeat match goal with H : Forall _ (_ :: _) |- _ => inversion H; clear H; subst end; cbn [task_ok] in *;
    constructor; fields; intros; try (unfold set_avail, set_capac, set_cap, set_old, set_held, set_pop, set_all in *; fields); auto.
  all: unfold sized in *.
  all: repeat match goal with H : _ /\ _ |- _ => destruct H end.
  all: try match goal with |- context [upd _ ?a _ ?b] => destruct (Z.eq_dec b a) as [->|]; ups end; auto; try lia.
  all: try match goal with H : context [upd _ ?a _ ?b] |- _ => destruct (Z.eq_dec b a) as [->|]; [rewrite !upd_same in *|rewrite !upd_other in * by assumption] end; auto; try congruence.
  all: try match goal with |- context [upd _ ?a _ ?b] => destruct (Z.eq_dec b a) as [->|]; ups end; auto; try lia.
  all: try (repeat match goal with H : upd _ ?a _ ?a = true |- _ => rewrite upd_same in H end; discriminate).
  - match goal with |- context [subtract_at_least ?a ?b ?d] => pose proof (sub_bounds a b d ltac:(lia) ltac:(auto) ltac:(nia)) end. lia.
  - pose proof (Hc c k ltac:(assumption) ltac:(lia)). pose proof (Q got k ltac:(lia) ltac:(lia)). lia.
  - pose proof (Ha c ltac:(assumption)). pose proof (Hc c k ltac:(assumption) ltac:(lia)). destruct He as (_ & _ & Hz). specialize (Hz k). nia.
  - specialize (Hx k). lia.
  - pose proof (Hc c k ltac:(assumption) ltac:(lia)). lia.
  - pose proof (Hc c k ltac:(assumption) ltac:(lia)). pose proof (Q a k ltac:(lia) ltac:(lia)). lia.
  - match goal with |- context [subtract_at_least ?a ?b ?d] => pose proof (sub_bounds a b d ltac:(lia) ltac:(auto) ltac:(lia)) end. lia.
  - pose proof (Hc src k ltac:(assumption) ltac:(lia)). lia.
  - pose proof (Hp src k ltac:(assumption) ltac:(lia) ltac:(assumption)). lia.
  - match goal with H : forall k, 0 <= mx k |- _ => specialize (H k) end. lia.
  - pose proof (Ha c ltac:(assumption)). pose proof (Ho c k ltac:(assumption) ltac:(lia)). destruct He as (_ & _ & Hz). specialize (Hz k). nia.
Qed.

Lemma tr_task e m xs m' ys : env_ok e -> mem_ok e m -> Forall (task_ok e m) xs -> tr e m xs m' ys -> Forall (task_ok e m') ys.
Proof.
  intros He [Ha Hc Ho Hx Hp Hs] Ht T.
  destruct T; repeat match goal with H : Forall _ (_ :: _) |- _ => inversion H; clear H; subst end; cbn [task_ok] in *;
    try apply Forall_nil; (apply Forall_cons; [|apply Forall_nil]); cbn [task_ok]; fields; rewrite ?upd_same; unfold sized in *; repeat match goal with H : _ /\ _ |- _ => destruct H end;
    repeat match goal with |- _ /\ _ => split end; auto; try lia.
  - match goal with |- context [subtract_at_least ?a ?b ?d] => pose proof (sub_bounds a b d ltac:(lia) ltac:(auto) ltac:(nia)) end. nia.
  - pose proof (Z.mul_div_le got (csize e k) ltac:(lia)). pose proof (Hc c k ltac:(assumption) ltac:(lia)). nia.
  - pose proof (Z.mul_div_le a (csize e k) ltac:(lia)). pose proof (Hc c k ltac:(assumption) ltac:(lia)). nia.
  - match goal with |- context [subtract_at_least ?a ?b ?d] => pose proof (sub_bounds a b d ltac:(lia) ltac:(auto) ltac:(lia)) end. lia.
  - destruct (bytes <=? acq + st); cbn [task_ok]; repeat match goal with |- _ /\ _ => split end; auto; lia.
Qed.

Lemma tr_own e m xs m' ys c : (forall c, is_cpu e c -> sum (fun t => own t c) xs <= b2z (lock m c)) -> tr e m xs m' ys -> is_cpu e c ->
  b2z (lock m' c) + sum (fun t => own t c) xs = b2z (lock m c) + sum (fun t => own t c) ys.
Proof.
  intros Ho T Hc. specialize (Ho c Hc).
  destruct T; rewrite ?sum_cons, ?sum_nil in *; fields; cbn [own] in *; try lia.
  all: try match goal with |- context [upd _ ?a _ ?b] => destruct (Z.eqb_spec a b) as [->|]; ups end; unfold b2z in *;
    repeat match goal with H : lock _ _ = _ |- _ => rewrite H in * end; try lia.
  all: try (destruct (lock m c); lia).
  - destruct (bytes <=? acq + st); cbn [own]; lia.
  - destruct (Z.eqb_spec src c) as [E|E]; [rewrite <- E in *|]; ups; [|lia]. destruct (lock m src); lia.
  - match goal with H : forall c, is_cpu e c -> lock m c = false |- _ => rewrite (H c Hc) end. lia.
  - match goal with H : forall c, is_cpu e c -> lock m c = false |- _ => rewrite (H c Hc) end. lia.
Qed.

Lemma tr_frame e m xs m' ys c : tr e m xs m' ys -> is_cpu e c -> stop m c = true -> lock m c = true -> sum (fun t => own t c) xs = 0 ->
  caps m' c = caps m c /\ stop m' c = true.
Proof.
  intros T Hc Hs Hl Ho.
  destruct T; rewrite ?sum_cons, ?sum_nil in *; fields; cbn [own] in *; try (split; [reflexivity|assumption]).
  all: try match goal with |- context [upd _ ?a _ ?b] => destruct (Z.eqb_spec a b) as [->|] end; unfold b2z in *; try congruence; try lia; ups; auto.
Qed.

Lemma tr_pop e m xs m' ys c : tr e m xs m' ys -> pop m c = true -> pop m' c = true \/ sum bg xs = 1.
Proof.
  intros T Hp. destruct T; rewrite ?sum_cons, ?sum_nil; fields; auto.
  - left. destruct (Z.eq_dec c c0) as [->|]; ups; auto.
Qed.

Lemma tr_old e m xs m' ys : tr e m xs m' ys -> sum isz ys = 0 ->
  (sum isz xs = 0 -> forall c k, is_cpu e c -> 1 <= k < nclass e -> old m c k = 0) ->
  forall c k, is_cpu e c -> 1 <= k < nclass e -> old m' c k = 0.
Proof. intros T Hz H. destruct T; rewrite ?sum_cons, ?sum_nil in *; fields; cbn [isz] in *; auto; try discriminate. Qed.

Lemma tr_bg e m xs m' ys : tr e m xs m' ys -> sum bg ys <= sum bg xs \/ xs = [].
Proof. intros T. destruct T; rewrite ?sum_cons, ?sum_nil; auto; left; try (destruct (_ <=? _)); cbn; lia. Qed.

(** What an operation in progress may have added too early. *)
Lemma task_low e m t c : env_ok e -> mem_ok e m -> task_ok e m t -> is_cpu e c ->
  - (own t c * bytes_of e (caps m c)) - moving t <= in_flight e t c /\ 0 <= moving t /\ 0 <= own t c /\ (bg t = 0 -> moving t = 0) /\ 0 <= bg t.
Proof.
  intros He Hm Ht Hc. assert (B : 0 <= bytes_of e (caps m c)) by (apply bytes_of_nonneg; [assumption|]; intros k Hk; apply (mo_caps _ _ Hm); assumption).
  unfold bg, b2z. destruct t; cbn [task_ok own moving in_flight background] in *; unfold sized in *; unfold b2z;
    repeat match goal with |- context [?a =? ?b] => destruct (Z.eqb_spec a b); subst end; try (split; [|split; [|split; [|split]]]); try lia.
  pose proof (bytes_of_ge e (caps m c) k He (fun j Hj => proj1 (mo_caps _ _ Hm c j Hc Hj)) ltac:(tauto)) as G.
  replace (caps m c k) with n in G by (symmetry; tauto). lia.
Qed.
Lemma tasks_low e m ts c : env_ok e -> mem_ok e m -> Forall (task_ok e m) ts -> is_cpu e c ->
  - (sum (fun t => own t c) ts * bytes_of e (caps m c)) - sum moving ts <= sum (fun t => in_flight e t c) ts /\
  0 <= sum moving ts /\ 0 <= sum (fun t => own t c) ts /\ (sum bg ts = 0 -> sum moving ts = 0) /\ 0 <= sum bg ts.
Proof.
  intros He Hm Ht Hc. induction Ht as [|t ts H Ht IH]; [rewrite !sum_nil; lia|]. rewrite !sum_cons.
  pose proof (task_low e m t c He Hm H Hc) as (A1 & A2 & A3 & A4 & A5). destruct IH as (B1 & B2 & B3 & B4 & B5). repeat split; try lia.
Qed.

Lemma tr_capac e m xs m' ys c : env_ok e -> mem_ok e m -> Forall (task_ok e m) xs -> tr e m xs m' ys -> is_cpu e c ->
  0 <= capac m c -> (sum bg xs = 1 -> sum (fun t => in_flight e t c) xs <= capac m c) -> 0 <= capac m' c.
Proof.
  intros He Hm Ht T Hc H0 Hf.
  destruct T; repeat match goal with H : Forall _ (_ :: _) |- _ => inversion H; clear H; subst end; cbn [task_ok] in *;
    rewrite ?sum_cons, ?sum_nil in *; fields; cbn [in_flight bg background b2z] in *; auto.
  - specialize (Hf eq_refl). destruct (Z.eqb_spec src c) as [->|]; ups; lia.
  - specialize (Hf eq_refl). destruct (Z.eqb_spec src c) as [->|]; ups; lia.
  - destruct (Z.eq_dec c d) as [->|]; ups; lia.
Qed.

(** ** The invariant holds of every history *)
Lemma inv_init e mx : env_ok e -> (forall k, 0 <= mx k) -> inv e (activate e mx) [].
Proof.
  intros He Hx. constructor.
  - constructor; fields; intros; auto; try lia; try discriminate. apply He.
  - constructor.
  - intros c Hc. unfold bal. fields. rewrite !sum_nil, (bytes_of_zero e (fun _ => 0)) by reflexivity. lia.
  - rewrite sum_nil. fields. unfold over_cpus. destruct He as (Hn & _). rewrite <- (Z2Nat.id (ncpu e)) at 2 by assumption. generalize (Z.to_nat (ncpu e)). intros n.
    generalize 0 at 1. induction n as [|n IH]; intros s; cbn [zseq map zsum]; [lia|]. specialize (IH (s + 1)). lia.
  - intros c Hc. fields. apply He.
  - intros c Hc. reflexivity.
  - rewrite sum_nil. lia.
  - intros _ c k _ _. reflexivity.
Qed.

Lemma inv_step e m l1 l2 xs m' ys : env_ok e -> inv e m (l1 ++ xs ++ l2) -> tr e m xs m' ys -> (xs = [] -> sum bg ys + sum bg (l1 ++ l2) <= 1) ->
  inv e m' (l1 ++ ys ++ l2).
Proof.
  intros He [Hm Ht Hb Htot Hcap Ho Hbg Hold] T Hst.
  assert (Hl1 : Forall (task_ok e m) l1) by (apply Forall_app in Ht; tauto).
  assert (Hxs : Forall (task_ok e m) xs) by (apply Forall_app in Ht as [_ Ht]; apply Forall_app in Ht; tauto).
  assert (Hl2 : Forall (task_ok e m) l2) by (apply Forall_app in Ht as [_ Ht]; apply Forall_app in Ht; tauto).
  assert (Hl : Forall (task_ok e m) (l1 ++ l2)) by (apply Forall_app; tauto).
  assert (S : forall f l, sum f (l1 ++ l ++ l2) = sum f l + sum f (l1 ++ l2)) by (intros; rewrite !sum_app; lia).
  rewrite !S in *. setoid_rewrite S in Hb. setoid_rewrite S in Ho.
  assert (Lown : forall c, is_cpu e c -> sum (fun t => own t c) xs <= b2z (lock m c) /\ (sum (fun t => own t c) (l1 ++ l2) <= 1 - sum (fun t => own t c) xs) /\ 0 <= sum (fun t => own t c) xs).
  { intros c Hc. pose proof (tasks_low e m (l1 ++ l2) c He Hm Hl Hc). pose proof (tasks_low e m xs c He Hm Hxs Hc). pose proof (Ho c Hc) as E.
    unfold b2z in *. destruct (lock m c); lia. }
  assert (Zz : forall l, 0 <= sum isz l) by (intros l; apply sum_ge0; intros t _; destruct t; cbn; lia).
  assert (Bz : forall l, 0 <= sum bg l /\ sum isz l <= sum bg l).
  { intros l. induction l as [|t l IH]; [rewrite !sum_nil; lia|]. rewrite !sum_cons. destruct t; cbn [isz bg background b2z]; lia. }
  assert (Hbg' : sum bg ys + sum bg (l1 ++ l2) <= 1).
  { destruct (tr_bg _ _ _ _ _ T) as [G|G]; [lia|auto]. }
  constructor.
  - exact (tr_mem e m xs m' ys He Hm Hxs T).
  - rewrite !Forall_app. assert (F : Forall (task_ok e m') (l1 ++ l2)).
    { rewrite Forall_forall in *. intros t Hin. pose proof (Hl t Hin) as Hok.
      assert (Kown : forall c, is_cpu e c -> own t c = 1 -> stop m c = true -> caps m' c = caps m c /\ stop m' c = true).
      { intros c Hc E Hs. apply (tr_frame _ _ _ _ _ _ T Hc Hs); [apply (mo_stop _ _ Hm); assumption|].
        destruct (Lown c Hc) as (L1 & L2 & L3). assert (1 <= sum (fun t => own t c) (l1 ++ l2)); [|lia].
        rewrite <- E. unfold sum. apply (zsum_ge_one (fun t => own t c)); [|assumption]. intros y Hy.
        apply (task_low e m y c He Hm (Hl y Hy) Hc). }
      assert (Kpop : forall c, bg t = 1 -> pop m c = true -> pop m' c = true).
      { intros c E Hp. destruct (tr_pop _ _ _ _ _ _ T Hp) as [G|G]; [assumption|]. exfalso.
        assert (1 <= sum bg (l1 ++ l2)); [|lia]. rewrite <- E. unfold sum. apply (zsum_ge_one bg); [|assumption].
        intros y _. unfold bg, b2z. destruct (background y); lia. }
      destruct t; cbn [task_ok] in *; auto.
      - destruct Hok as (A & B & D). destruct (Kown c A) as [_ G]; [cbn; rewrite Z.eqb_refl; reflexivity|assumption|]. auto.
      - destruct Hok as (A & B & D & E). destruct (Kown c A) as [F G]; [cbn; rewrite Z.eqb_refl; reflexivity|assumption|]. rewrite F. auto.
      - destruct Hok as (A & B & D). repeat split; try tauto; try apply A. apply Kpop; [reflexivity|assumption].
      - destruct Hok as (A & B & D). repeat split; try tauto; try apply A. apply Kpop; [reflexivity|assumption]. }
    apply Forall_app in F as [F1 F2]. split; [assumption|]. split; [|assumption]. exact (tr_task e m xs m' ys He Hm Hxs T).
  - intros c Hc. rewrite S. rewrite <- (Hb c Hc). rewrite !Z.add_assoc. f_equal. symmetry. apply (tr_bal e m xs m' ys c He Hm Hxs T Hc).
    intros Hz k Hk. destruct (Z.eq_dec (sum isz ys) 0); [auto|]. left. apply Hold; [|assumption|assumption]. pose proof (Zz (l1 ++ l2)). pose proof (Zz ys). pose proof (Bz ys). pose proof (Bz (l1 ++ l2)). lia.
  - rewrite S. pose proof (tr_tot _ _ _ _ _ Hxs T). lia.
  - intros c Hc. apply (tr_capac e m xs m' ys c He Hm Hxs T Hc (Hcap c Hc)). intros E.
    pose proof (tasks_low e m (l1 ++ l2) c He Hm Hl Hc) as (A1 & A2 & A3 & A4 & A5). destruct (Lown c Hc) as (L1 & L2 & L3).
    assert (B : 0 <= bytes_of e (caps m c)) by (apply bytes_of_nonneg; [assumption|]; intros k Hk; apply (mo_caps _ _ Hm); assumption).
    assert (B' : 0 <= bytes_of e (old m c)) by (apply bytes_of_nonneg; [assumption|]; intros k Hk; apply (mo_old _ _ Hm); assumption).
    pose proof (Hb c Hc) as K. unfold bal in K. pose proof (mo_avail _ _ Hm c Hc). rewrite A4 in A1 by lia.
    set (o := sum (fun t => own t c) (l1 ++ l2)) in *. set (b := bytes_of e (caps m c)) in *. assert (o * b <= b) by nia. lia.
  - intros c Hc. rewrite S. pose proof (tr_own e m xs m' ys c (fun c Hc => proj1 (Lown c Hc)) T Hc). pose proof (Ho c Hc). lia.
  - rewrite S. assumption.
  - rewrite S. intros Hz. pose proof (Zz ys). pose proof (Zz (l1 ++ l2)). apply (tr_old _ _ _ _ _ T); [lia|]. intros Hx. apply Hold. lia.
Qed.

Lemma reach_inv e m ts : env_ok e -> reach e m ts -> inv e m ts.
Proof.
  intros He R. induction R as [mx Hx|m m' ts t R IH T Hbg|m m' ts R IH T|m m' l1 l2 t ys R IH T].
  - apply inv_init; assumption.
  - apply (inv_step e m [] ts [] m' [t] He IH T). intros _. rewrite sum_cons, sum_nil. cbn [app].
    destruct (background t) eqn:E; unfold bg at 1; rewrite E; cbn [b2z]; [|pose proof (iv_bg _ _ _ IH); lia].
    specialize (Hbg eq_refl). assert (sum bg ts = 0); [|lia]. clear - Hbg. induction ts as [|x ts IH]; [reflexivity|]. cbn [forallb] in Hbg.
    apply andb_prop in Hbg as [H1 H2]. rewrite sum_cons, (IH H2). unfold bg. destruct (background x); [discriminate|]. reflexivity.
  - apply (inv_step e m [] ts [] m' [] He IH T). intros _. rewrite sum_nil. cbn [app]. pose proof (iv_bg _ _ _ IH). lia.
  - apply (inv_step e m l1 l2 [t] m' ys He IH T). discriminate.
Qed.


(** ** C24 *)

(** In every history and at every moment: the bytes available to a CPU, the bytes allocated
    to its size classes (in its slab and in a slab that is being drained) and what operations
    in progress hold add up to the budget of the CPU; the budgets of all CPUs and what is
    moving between CPUs add up to the total that was configured. *)
Theorem cache_budget : forall e m ts, env_ok e -> reach e m ts ->
  (forall c, is_cpu e c ->
     avail m c + bytes_of e (caps m c) + bytes_of e (old m c) + zsum (map (fun t => in_flight e t c) ts) = capac m c) /\
  over_cpus e (capac m) + zsum (map moving ts) = ncpu e * limit e.
Proof.
  intros e m ts He R. pose proof (reach_inv e m ts He R) as I. split; [|apply (iv_tot _ _ _ I)].
  intros c Hc. pose proof (iv_bal _ _ _ I c Hc) as H. unfold bal, sum in H. lia.
Qed.
Print Assumptions cache_budget.

(** When no operation is in progress: available and allocated bytes are the budget of
    the CPU, and the budgets add up to the configured total. *)
Theorem cache_budget_at_rest : forall e m, env_ok e -> reach e m [] ->
  (forall c, is_cpu e c -> avail m c + bytes_of e (caps m c) = capac m c) /\ over_cpus e (capac m) = ncpu e * limit e.
Proof.
  intros e m He R. pose proof (reach_inv e m [] He R) as I. split.
  - intros c Hc. pose proof (iv_bal _ _ _ I c Hc) as H. unfold bal in H. rewrite sum_nil in H.
    rewrite (bytes_of_zero e (old m c)) in H; [lia|]. intros k Hk. apply (iv_old _ _ _ I); auto.
  - pose proof (iv_tot _ _ _ I) as H. rewrite sum_nil in H. lia.
Qed.
Print Assumptions cache_budget_at_rest.

(** At every moment the sum of the budgets is at most the configured total. *)
Theorem cache_total : forall e m ts, env_ok e -> reach e m ts -> over_cpus e (capac m) <= ncpu e * limit e.
Proof.
  intros e m ts He R. pose proof (reach_inv e m ts He R) as I. pose proof (iv_tot _ _ _ I).
  assert (0 <= sum moving ts); [|lia]. pose proof (iv_task _ _ _ I) as F. apply sum_ge0. intros t Ht.
  rewrite Forall_forall in F. specialize (F t Ht). destruct t; cbn [moving task_ok] in *; lia.
Qed.
Print Assumptions cache_total.

(** The counters never pass below zero or above the total: no unsigned counter wraps. *)
Theorem cache_no_overflow : forall e m ts c, env_ok e -> reach e m ts -> is_cpu e c ->
  0 <= avail m c <= ncpu e * limit e /\ 0 <= capac m c <= ncpu e * limit e.
Proof.
  intros e m ts c He R Hc. pose proof (reach_inv e m ts He R) as I. pose proof (iv_mem _ _ _ I) as Hm.
  pose proof (tasks_low e m ts c He Hm (iv_task _ _ _ I) Hc) as (L1 & L2 & L3 & _).
  pose proof (over_cpus_ge e (capac m) c (iv_capac _ _ _ I) Hc) as G. pose proof (iv_tot _ _ _ I) as T.
  assert (B : 0 <= bytes_of e (caps m c)) by (apply bytes_of_nonneg; [assumption|]; intros k Hk; apply (mo_caps _ _ Hm); assumption).
  assert (B' : 0 <= bytes_of e (old m c)) by (apply bytes_of_nonneg; [assumption|]; intros k Hk; apply (mo_old _ _ Hm); assumption).
  pose proof (iv_bal _ _ _ I c Hc) as K. unfold bal in K. pose proof (mo_avail _ _ Hm c Hc). pose proof (iv_capac _ _ _ I c Hc). pose proof (iv_own _ _ _ I c Hc) as O.
  assert (O' : sum (fun t => own t c) ts <= 1) by (rewrite O; unfold b2z; destruct (lock m c); lia).
  set (o := sum (fun t => own t c) ts) in *. set (b := bytes_of e (caps m c)) in *. assert (o * b <= b) by nia. lia.
Qed.
Print Assumptions cache_no_overflow.

(** No class ever gets more room than its part of the slab has. *)
Theorem cache_class_bounds : forall e m ts c k, env_ok e -> reach e m ts -> is_cpu e c -> 1 <= k < nclass e -> 0 <= caps m c k <= maxc m k.
Proof. intros e m ts c k He R Hc Hk. apply (mo_caps _ _ (iv_mem _ _ _ (reach_inv e m ts He R))); assumption. Qed.
Print Assumptions cache_class_bounds.

(** The release of the slabs of drained CPUs checks that all of the budget of each of them
    is available.  The check holds if no thread is growing a class of that CPU. *)
Definition growing (t : task) (c : Z) : bool := match t with GSlab c' _ _ | GBack c' _ => c' =? c | _ => false end.
Theorem cache_release_check : forall e m ts c, env_ok e -> reach e m ts -> In ULocked ts -> is_cpu e c -> drained e m c ->
  (forall t, In t ts -> growing t c = false) -> avail m c = capac m c.
Proof.
  intros e m ts c He R Hu Hc Hd Hg. pose proof (reach_inv e m ts He R) as I. apply in_split in Hu as (l1 & l2 & ->).
  pose proof (iv_bal _ _ _ I c Hc) as K. pose proof (iv_own _ _ _ I c Hc) as O. pose proof (iv_bg _ _ _ I) as B. pose proof (iv_task _ _ _ I) as F.
  pose proof (iv_old _ _ _ I) as D. unfold bal in K. rewrite (bytes_of_zero e (caps m c)) in K by exact Hd.
  assert (S : forall f, sum f (l1 ++ ULocked :: l2) = f ULocked + sum f (l1 ++ l2)) by (intros; rewrite !sum_app, sum_cons; lia).
  rewrite S in *. cbn [in_flight own isz] in *. change (bg ULocked) with 1 in B.
  assert (O1 : sum (fun t => own t c) (l1 ++ l2) <= 0) by (unfold b2z in O; destruct (lock m c); lia). assert (B1 : sum bg (l1 ++ l2) <= 0) by lia.
  assert (Z : forall l, (forall t, In t l -> growing t c = false) -> sum (fun t => own t c) l <= 0 -> sum bg l <= 0 ->
            sum (fun t => in_flight e t c) l = 0 /\ sum isz l = 0).
  { clear. induction l as [|t l IH]; intros Hg HO HB; [split; reflexivity|]. rewrite !sum_cons in *.
    assert (P : forall l, 0 <= sum (fun t => own t c) l) by (intros; apply sum_ge0; intros x _; destruct x; cbn [own]; unfold b2z; try destruct (_ =? _); lia).
    assert (Q : forall l, 0 <= sum bg l) by (intros; apply sum_ge0; intros x _; unfold bg, b2z; destruct (background x); lia).
    specialize (P l). specialize (Q l).
    pose proof (Hg t (or_introl eq_refl)) as G. assert (W : 0 <= own t c) by (destruct t; cbn [own]; unfold b2z; try destruct (_ =? _); lia).
    assert (W' : 0 <= bg t) by (unfold bg, b2z; destruct (background t); lia).
    destruct IH as [I1 I2]; [intros; apply Hg; now right|lia|lia|]. rewrite I1, I2.
    assert (bg t = 0) by lia. assert (own t c = 0) by lia.
    destruct t; cbn in *; try discriminate; try (rewrite G; lia); try lia. destruct (c0 =? c); cbn in *; lia. }
  destruct (Z (l1 ++ l2)) as [Z1 Z2]; [intros t Ht; apply Hg; apply in_app_iff in Ht as [Ht|Ht]; apply in_app_iff; [now left|right; now right]|assumption|assumption|].
  rewrite (bytes_of_zero e (old m c)) in K by (intros k Hk; apply D; auto; lia). lia.
Qed.
Print Assumptions cache_release_check.

(** ** Histories *)
Definition ex_env : cenv := CEnv 2 3 (fun k => if k =? 1 then 8 else 64) 1000 1500 256.
Definition ex_max : Z -> Z := fun k => if k =? 1 then 20 else 4.
Example ex_env_ok : env_ok ex_env.
Proof. split; [cbn; lia|]. split; [cbn; lia|]. intros k. cbn. destruct (k =? 1); lia. Qed.
Lemma ex_sized k : 1 <= k < 3 -> sized ex_env k.
Proof. intros H. split; [exact H|]. cbn. destruct (k =? 1); lia. Qed.

Definition m1 := Eval cbv beta iota zeta delta [activate CpuCache.avail CpuCache.capac CpuCache.caps CpuCache.maxc CpuCache.old CpuCache.lock CpuCache.stop CpuCache.pop] in
  (let m := activate ex_env ex_max in CMem (avail m) (capac m) (upd (caps m) 0 (fun _ => 0)) (maxc m) (old m) (lock m) (stop m) (upd (pop m) 0 true)).
Lemma ex_m1 : reach ex_env m1 [].
Proof.
  apply (cr_populate ex_env (activate ex_env ex_max)); [apply cr_init; intros k; unfold ex_max; destruct (k =? 1); lia|].
  apply (tr_populate ex_env (activate ex_env ex_max) 0); [split; cbn; lia|reflexivity|reflexivity].
Qed.
(** A thread takes 30 objects' worth for class 1. *)
Definition m2 := set_avail m1 0 760.
Lemma ex_m2 : reach ex_env m2 [GSlab 0 1 240].
Proof.
  apply (cr_start ex_env m1 m2 [] (GSlab 0 1 240)); [apply ex_m1| |discriminate].
  apply (tr_grow ex_env m1 0 1 30); [split; cbn; lia|apply ex_sized; lia|lia|vm_compute; discriminate].
Qed.

(** The check fails if a thread is between taking bytes and giving them to the slab of a
    CPU that is otherwise drained: the release then stops the program. *)
Theorem cache_release_check_refuted : exists e m ts c,
  env_ok e /\ reach e m ts /\ In ULocked ts /\ is_cpu e c /\ pop m c = true /\ drained e m c /\ avail m c <> capac m c.
Proof.
  exists ex_env, (set_all m2 true true), [ULocked; GSlab 0 1 240], 0. split; [apply ex_env_ok|]. split; [|split; [now left|]].
  - apply (cr_start ex_env m2 _ [GSlab 0 1 240] ULocked); [apply ex_m2| |reflexivity].
    apply tr_release. intros c Hc. reflexivity.
  - split; [split; cbn; lia|]. split; [reflexivity|]. split; [|vm_compute; discriminate]. intros k Hk. reflexivity.
Qed.
Print Assumptions cache_release_check_refuted.

(** The slab takes 20 objects, 80 bytes go back; then CPU 1 steals 100 bytes from CPU 0
    and, with CPU 0 locked, two objects of class 1. *)
Definition m3 := set_cap m2 0 1 20.
Lemma ex_m3 : reach ex_env m3 [GBack 0 80].
Proof.
  apply (cr_step ex_env m2 m3 [] [] (GSlab 0 1 240) [GBack 0 80]); [apply ex_m2|].
  apply (tr_grow_slab ex_env m2 0 1 240); [reflexivity|reflexivity|vm_compute; reflexivity].
Qed.
Definition m4 := set_avail m3 0 840.
Lemma ex_m4 : reach ex_env m4 [].
Proof. apply (cr_step ex_env m3 m4 [] [] (GBack 0 80) []); [apply ex_m3|]. apply (tr_grow_back ex_env m3 0 80). Qed.
Example ex_at_rest : avail m4 0 + bytes_of ex_env (caps m4 0) = 1000 /\ avail m4 0 = 840 /\ bytes_of ex_env (caps m4 0) = 160.
Proof. vm_compute. auto. Qed.
(** Meanwhile the background thread replaces the slabs. *)
Definition m5 := CMem (avail m4) (capac m4) (fun _ _ => 0) (fun _ => 10) (caps m4) (fun _ => true) (stop m4) (pop m4).
Example ex_slabs : reach ex_env m5 [ZDrain].
Proof.
  apply (cr_start ex_env m4 m5 [] ZDrain); [apply ex_m4| |reflexivity].
  apply (tr_slabs ex_env m4 (fun _ => 10)); [intros c Hc; reflexivity|intros; lia].
Qed.
Example ex_slabs_old : bytes_of ex_env (old m5 0) = 160 /\ bytes_of ex_env (caps m5 0) = 0.
Proof. vm_compute. auto. Qed.

(** ** Decisions *)

(** The number of objects moved on a miss is at least one and at most one more than the
    class has room for. *)
Theorem refill_count_bounds : forall capacity batch successive,
  0 <= capacity -> 1 <= batch < 2 ^ 53 -> 0 <= successive -> 1 <= target_overflow_refill_count capacity batch successive <= capacity + 1.
Proof.
  intros capacity batch successive Hc Hb Hs. unfold target_overflow_refill_count.
  assert (P : 1 <= 2 ^ Z.min successive 10 <= 2 ^ 10).
  { split; [change 1 with (2 ^ 0); apply Z.pow_le_mono_r; lia|apply Z.pow_le_mono_r; lia]. }
  rewrite wrap64_small. 2:{ unfold two64. change (2 ^ 10) with 1024 in P. change (2 ^ 53) with 9007199254740992 in Hb. nia. }
  assert (1 <= 2 ^ Z.min successive 10 * batch) by nia.
  pose proof (Z.div_le_upper_bound (capacity + 1) 2 (capacity + 1) ltac:(lia) ltac:(lia)). pose proof (Z.div_pos (capacity + 1) 2 ltac:(lia) ltac:(lia)).
  destruct (Z.eqb_spec capacity 1) as [->|N]; cbn [andb].
  - change ((1 + 1) / 2) with 1. destruct (successive <? 3); lia.
  - destruct (Z.eq_dec capacity 0) as [->|]; [change ((0 + 1) / 2) with 0; lia|].
    pose proof (Z.div_lt_upper_bound (capacity + 1) 2 (capacity + 1) ltac:(lia) ltac:(lia)). lia.
Qed.
Print Assumptions refill_count_bounds.

(** A miss asks for at most a batch, and for nothing when the class is at its maximum. *)
Theorem increase_bounds : forall batch mx capacity overflow by_batch, 1 <= batch < 2 ^ 53 -> 0 <= capacity < 2 ^ 16 -> 0 <= mx < 2 ^ 16 ->
  0 <= capacity_increase batch mx capacity overflow by_batch <= batch /\
  (capacity = mx -> capacity_increase batch mx capacity overflow by_batch = 0) /\
  (by_batch = true -> capacity <= mx -> capacity + capacity_increase batch mx capacity overflow by_batch <= mx).
Proof.
  intros batch mx capacity overflow by_batch Hb Hc Hm. unfold capacity_increase, wrap64.
  pose proof (Z.mod_pos_bound (mx - capacity) two64 eq_refl).
  destruct (Z.eqb_spec capacity mx) as [->|N]; cbn [negb].
  { rewrite andb_false_r. lia. }
  rewrite andb_true_r. destruct by_batch.
  - rewrite orb_true_r. split; [lia|]. split; [lia|]. intros _ Hle. rewrite Z.mod_small by (unfold two64; lia). lia.
  - rewrite orb_false_r. split; [|split; [lia|discriminate]].
    destruct (Z.ltb_spec capacity (2 * batch)); [|lia]. destruct overflow; cbn [negb andb]; [lia|]. destruct (Z.ltb_spec capacity batch); lia.
Qed.
Print Assumptions increase_bounds.

(** *** Redistribution of the maximum capacities *)
Definition delta (mx : Z -> Z) (l : list (Z * Z)) : Z := zsum (map (fun p => snd p - mx (fst p)) l).
Lemma delta_app mx a b : delta mx (a ++ b) = delta mx a + delta mx b.
Proof. unfold delta. rewrite map_app. apply zsum_app. Qed.

Definition cls (miss : list (Z * Z)) (j : Z) : Z := fst (nth (Z.to_nat j) miss (0, 0)).
Definition entry_ok (batch mx : Z -> Z) (p : Z * Z) : Prop := mx (fst p) <= snd p \/ batch (fst p) <= snd p.
Record acc_ok (batch mx : Z -> Z) (miss : list (Z * Z)) (gi si : Z) (acc : list (Z * Z)) : Prop := {
  ao_idx : Forall (fun p => exists j, 0 <= j < Z.of_nat (length miss) /\ (j < gi \/ si < j) /\ fst p = cls miss j) acc;
  ao_nd : NoDup (map fst acc);
  ao_ok : Forall (entry_ok batch mx) acc }.
Lemma cls_inj miss i j : NoDup (map fst miss) -> 0 <= i < Z.of_nat (length miss) -> 0 <= j < Z.of_nat (length miss) -> cls miss i = cls miss j -> i = j.
Proof.
  intros Hn Hi Hj E. unfold cls in E. change 0 with (fst (0, 0)) in Hn. rewrite <- !(map_nth fst) in E.
  rewrite NoDup_nth in Hn. assert (Z.to_nat i = Z.to_nat j); [|lia]. apply Hn; [rewrite map_length; lia|rewrite map_length; lia|]. exact E.
Qed.
Lemma acc_add batch mx miss gi si gi' si' acc i v : NoDup (map fst miss) -> acc_ok batch mx miss gi si acc -> gi <= i <= si -> 0 <= i < Z.of_nat (length miss) ->
  entry_ok batch mx (cls miss i, v) -> gi <= gi' -> si' <= si -> (i < gi' \/ si' < i) -> acc_ok batch mx miss gi' si' (acc ++ [(cls miss i, v)]).
Proof.
  intros Hn [A B D] Hi Hl He Hg Hs Hr. constructor.
  - apply Forall_app. split.
    + eapply Forall_impl; [|exact A]. intros p (j & H1 & H2 & H3). exists j. split; [assumption|]. split; [lia|assumption].
    + constructor; [|constructor]. exists i. cbn. auto.
  - rewrite map_app. cbn [map fst].
    apply (Permutation_NoDup (l := cls miss i :: map fst acc)); [apply Permutation_cons_append|]. constructor; [|assumption].
    rewrite in_map_iff. intros (p & Hp & Hin). rewrite Forall_forall in A. destruct (A p Hin) as (j & H1 & H2 & H3). rewrite Hp in H3.
    apply cls_inj in H3; try assumption. lia.
  - apply Forall_app. split; [assumption|]. constructor; [assumption|constructor].
Qed.
Lemma acc_weaken batch mx miss gi si gi' si' acc : acc_ok batch mx miss gi si acc -> gi <= gi' -> si' <= si -> acc_ok batch mx miss gi' si' acc.
Proof.
  intros [A B D] Hg Hs. constructor; try assumption. eapply Forall_impl; [|exact A]. intros p (j & H1 & H2 & H3). exists j. split; [assumption|]. split; [lia|assumption].
Qed.

Lemma shrink_loop_spec batch mx miss gi : NoDup (map fst miss) -> 0 <= gi -> forall fuel si target shrunk acc si' shrunk' acc',
  si < Z.of_nat (length miss) -> acc_ok batch mx miss gi si acc ->
  shrink_loop batch mx fuel miss gi si target shrunk acc = (si', shrunk', acc') ->
  acc_ok batch mx miss gi si' acc' /\ si' <= si /\ (si' = si \/ gi <= si') /\ delta mx acc' + shrunk' = delta mx acc + shrunk /\
  shrunk' <= shrunk + Z.max 0 target /\ (si' = si -> shrunk' = shrunk) /\ ((forall k, 0 <= batch k) -> shrunk <= shrunk').
Proof.
  intros Hn Hg. induction fuel as [|fuel IH]; intros si target shrunk acc si' shrunk' acc' Hsi Ha H; cbn [shrink_loop] in H.
  { injection H as <- <- <-. repeat split; try lia; try apply Ha. }
  destruct ((gi <? si) && (0 <? target)) eqn:E.
  2:{ injection H as <- <- <-. repeat split; try lia; try apply Ha. }
  apply andb_prop in E as [E1 E2]. apply Z.ltb_lt in E1, E2. fold (cls miss si) in H.
  destruct (mx (cls miss si) <=? batch (cls miss si)) eqn:E3.
  { apply IH in H; [|lia|apply (acc_weaken _ _ _ gi si); [assumption|lia|lia]]. destruct H as (A & B & C & D & F & G & K). repeat split; try lia; try apply A. }
  apply Z.leb_gt in E3. destruct (_ =? 0) eqn:E4.
  { apply IH in H; [|lia|apply (acc_weaken _ _ _ gi si); [assumption|lia|lia]]. destruct H as (A & B & C & D & F & G & K). repeat split; try lia; try apply A. }
  apply Z.eqb_neq in E4. apply IH in H; [|lia|].
  - destruct H as (A & B & C & D & F & G & K). rewrite delta_app in D. cbn [delta map zsum fst snd] in D.
    split; [assumption|]. split; [lia|]. split; [lia|]. split; [lia|]. split; [lia|]. split; [lia|]. intros Hb. specialize (K Hb). specialize (Hb (cls miss si)). lia.
  - apply (acc_add _ _ _ gi si); try assumption; try lia. right. cbn [fst snd]. lia.
Qed.

Lemma grow_loop_spec batch mx miss mg : NoDup (map fst miss) -> (forall k, 0 <= batch k) -> forall n gi si factor grown acc,
  0 <= gi -> si < Z.of_nat (length miss) -> Z.of_nat n <= Z.of_nat (length miss) - gi -> acc_ok batch mx miss gi si acc -> delta mx acc = 0 ->
  exists gi' si', acc_ok batch mx miss gi' si' (grow_loop batch mx n miss mg gi si factor grown acc) /\
    delta mx (grow_loop batch mx n miss mg gi si factor grown acc) = 0.
Proof.
  intros Hn Hb. induction n as [|n IH]; intros gi si factor grown acc Hg Hs Hl Ha Hd; cbn [grow_loop]; [eauto|].
  destruct (nth (Z.to_nat gi) miss (0, 0)) as [k misses] eqn:Ek. assert (Hk : k = cls miss gi) by (unfold cls; rewrite Ek; reflexivity).
  destruct (misses =? 0); [eauto|].
  destruct (shrink_loop batch mx (length miss) miss gi si (batch k * factor) 0 acc) as [[si' shrunk] acc'] eqn:E.
  apply shrink_loop_spec in E; try assumption. destruct E as (A & B & C & D & F & G & K). specialize (K Hb).
  destruct (Z.eqb_spec shrunk 0) as [Hz|Hz]; [eauto|].
  assert (A' : acc_ok batch mx miss (gi + 1) si' (acc' ++ [(k, mx k + shrunk)])).
  { rewrite Hk. assert (gi <= si') by (destruct C as [->|]; [exfalso; apply Hz; auto|assumption]). apply (acc_add _ _ _ gi si'); try assumption; try lia.
    left. cbn [fst snd]. lia. }
  assert (D' : delta mx (acc' ++ [(k, mx k + shrunk)]) = 0) by (rewrite delta_app; cbn [delta map zsum fst snd]; lia).
  destruct (grown + 1 =? mg); [eauto|]. apply IH; try assumption; try lia.
Qed.

Lemma zsum_upd_list (f : Z -> Z) k v ks : NoDup ks -> In k ks -> zsum (map (upd f k v) ks) = zsum (map f ks) + v - f k.
Proof.
  induction 1 as [|x ks Hx Hn IH]; intros Hk; [destruct Hk|]. cbn [map zsum]. destruct (Z.eq_dec k x) as [->|N].
  - rewrite upd_same, (map_ext_in (upd f x v) f); [lia|]. intros y Hy. apply upd_other. intros ->. contradiction.
  - destruct Hk as [Hk|Hk]; [congruence|]. rewrite IH by assumption. rewrite upd_other by congruence. lia.
Qed.
Lemma store_other mx l : forall k, ~ In k (map fst l) -> store_max_capacities mx l k = mx k.
Proof.
  unfold store_max_capacities. revert mx. induction l as [|[a v] l IH]; intros mx k Hk; cbn [fold_left fst snd]; [reflexivity|].
  cbn [map fst In] in Hk. rewrite IH by tauto. apply upd_other. intros ->. tauto.
Qed.
Lemma store_in mx l : NoDup (map fst l) -> forall k v, In (k, v) l -> store_max_capacities mx l k = v.
Proof.
  revert mx. induction l as [|[a w] l IH]; intros mx Hn k v Hi; [destruct Hi|]. cbn [map fst] in Hn. inversion Hn; subst.
  unfold store_max_capacities. cbn [fold_left fst snd]. fold (store_max_capacities (upd mx a w) l). destruct Hi as [Hi|Hi].
  - injection Hi as -> ->. rewrite store_other by assumption. apply upd_same.
  - apply IH; assumption.
Qed.
Lemma store_sum ks l : NoDup ks -> forall mx, NoDup (map fst l) -> incl (map fst l) ks ->
  zsum (map (store_max_capacities mx l) ks) = zsum (map mx ks) + delta mx l.
Proof.
  intros Hk. induction l as [|[a v] l IH]; intros mx Hn Hi; [unfold delta; cbn [map zsum store_max_capacities fold_left]; lia|].
  cbn [map fst] in *. inversion Hn; subst. change (store_max_capacities mx ((a, v) :: l)) with (store_max_capacities (upd mx a v) l).
  rewrite IH; [|assumption|intros x Hx; apply Hi; now right]. rewrite zsum_upd_list; [|assumption|apply Hi; now left].
  unfold delta. cbn [map zsum fst snd]. rewrite (map_ext_in (fun p => snd p - upd mx a v (fst p)) (fun p => snd p - mx (fst p))); [lia|].
  intros [b w] Hp. cbn [fst snd]. rewrite upd_other; [reflexivity|]. intros ->. apply H1. apply in_map_iff. exists (a, w). auto.
Qed.

(** Whatever the misses of the classes and their present maximum capacities: the new ones add
    up to the same total, a class that shrinks keeps at least a batch, each class is
    changed at most once, and none but the classes given. *)
Theorem redistribution : forall batch mx miss, NoDup (map fst miss) -> (forall k, 0 <= batch k) ->
  let changes := updated_max_capacities batch mx miss in
  let new := store_max_capacities mx changes in
  zsum (map new (map fst miss)) = zsum (map mx (map fst miss)) /\
  (forall k, new k < mx k -> batch k <= new k) /\
  (forall k, ~ In k (map fst miss) -> new k = mx k) /\
  NoDup (map fst changes) /\ (length changes <= length miss)%nat.
Proof.
  intros batch mx miss Hn Hb changes new.
  destruct (grow_loop_spec batch mx miss (Z.of_nat (length miss) / 2) Hn Hb (length miss) 0 (Z.of_nat (length miss) - 1) 5 0 [])
    as (gi & si & [A B D] & E); try lia; [constructor; constructor|reflexivity|].
  change (grow_loop _ _ _ _ _ _ _ _ _ _) with changes in A, B, D, E.
  assert (I : incl (map fst changes) (map fst miss)).
  { intros k Hk. apply in_map_iff in Hk as (p & <- & Hp). rewrite Forall_forall in A. destruct (A p Hp) as (j & Hj & _ & ->).
    unfold cls. apply in_map. apply nth_In. lia. }
  split; [|split; [|split; [|split]]].
  - unfold new. rewrite store_sum by assumption. lia.
  - intros k Hk. destruct (in_dec Z.eq_dec k (map fst changes)) as [Hi|Hi].
    + apply in_map_iff in Hi as ([k' v] & Ek & Hp). cbn in Ek. subst k'. unfold new in *. rewrite (store_in mx changes B k v Hp) in *.
      rewrite Forall_forall in D. destruct (D _ Hp) as [G|G]; cbn in G; lia.
    + unfold new in Hk. rewrite store_other in Hk by assumption. lia.
  - intros k Hk. apply store_other. intros Hi. apply Hk. apply I. exact Hi.
  - exact B.
  - rewrite <- (map_length fst changes), <- (map_length fst miss). apply NoDup_incl_length; assumption.
Qed.
Print Assumptions redistribution.

(** Three classes with misses and one without: class 3 gives six, class 2 gives four. *)
Example ex_redistribution :
  updated_max_capacities (fun k => if k =? 0 then 0 else 2 * k) (fun k => if k =? 0 then 0 else 12) [(1, 9); (2, 5); (3, 0); (0, 0)] = [(3, 6); (2, 8); (1, 22)].
Proof. reflexivity. Qed.

(** *** The slabs have room for every redistribution *)
Lemma words_before_mono c cl n : layout_ok c -> 1 <= cl -> words_before c cl <= words_before c (cl + Z.of_nat n).
Proof.
  intros Hl Hcl. induction n as [|n IH]; [replace (cl + Z.of_nat 0) with cl by lia; lia|].
  replace (cl + Z.of_nat (S n)) with (cl + Z.of_nat n + 1) by lia. rewrite words_before_next by lia. unfold first_word.
  pose proof (mark_bounds c (cl + Z.of_nat n)). destruct Hl as (_ & _ & Hl). specialize (Hl (cl + Z.of_nat n)). lia.
Qed.
Lemma fits_slabs_loop c n : forall cl b, layout_ok c -> 1 <= cl -> (forall k, s_max c k < 2 ^ 16) ->
  8 * words_before c (cl + Z.of_nat n) <= 2 ^ s_shift c ->
  exists b', init_slabs_loop c n cl (8 * words_before c cl) (prev_empty_at c cl) b = Some b'.
Proof.
  induction n as [|n IH]; intros cl b Hl Hcl Hk H; cbn [init_slabs_loop]; [eauto|].
  assert (W : wrap16 (s_max c cl) = s_max c cl) by (unfold wrap16; apply Z.mod_small; destruct Hl as (_ & _ & Hl); split; [apply Hl|apply Hk]).
  rewrite W, Z.eqb_refl. cbn [negb].
  replace (if prev_empty_at c cl then 8 * words_before c cl else 8 * words_before c cl + word_bytes) with (8 * first_word c cl)
    by (unfold first_word, word_bytes; rewrite <- prev_empty_mark; destruct (prev_empty_at c cl); lia).
  replace (8 * first_word c cl + s_max c cl * word_bytes) with (8 * words_before c (cl + 1)) by (rewrite words_before_next by lia; unfold word_bytes; lia).
  replace (cl + Z.of_nat (S n)) with (cl + 1 + Z.of_nat n) in H by lia. pose proof (words_before_mono c (cl + 1) n Hl ltac:(lia)).
  destruct (Z.ltb_spec (2 ^ s_shift c) (8 * words_before c (cl + 1))); [lia|]. rewrite <- prev_empty_next by lia. apply IH; try assumption; lia.
Qed.
Lemma fits_cpu_loop c n : forall cl r, layout_ok c -> 1 <= cl -> (forall k, s_max c k < 2 ^ 16) ->
  8 * words_before c (cl + Z.of_nat n) <= 2 ^ s_shift c ->
  exists r', init_cpu_loop c n cl (words_before c cl) (prev_empty_at c cl) r = Some r'.
Proof.
  induction n as [|n IH]; intros cl r Hl Hcl Hk H; cbn [init_cpu_loop]; [eauto|].
  assert (W : wrap16 (s_max c cl) = s_max c cl) by (unfold wrap16; apply Z.mod_small; destruct Hl as (_ & _ & Hl); split; [apply Hl|apply Hk]).
  rewrite W, Z.eqb_refl. cbn [negb].
  replace (if prev_empty_at c cl then words_before c cl else words_before c cl + 1) with (first_word c cl)
    by (unfold first_word; rewrite <- prev_empty_mark; destruct (prev_empty_at c cl); lia).
  rewrite <- words_before_next by lia.
  replace (cl + Z.of_nat (S n)) with (cl + 1 + Z.of_nat n) in H by lia. pose proof (words_before_mono c (cl + 1) n Hl ltac:(lia)).
  destruct (Z.ltb_spec (2 ^ s_shift c) (words_before c (cl + 1) * word_bytes)); [unfold word_bytes in *; lia|]. rewrite <- prev_empty_next by lia. apply IH; try assumption; lia.
Qed.
Lemma layout_fits c r : layout_ok c -> 2 <= s_classes c -> s_shift c <= 19 -> (forall k, s_max c k < 2 ^ 16) -> 8 * words_needed c <= 2 ^ s_shift c ->
  (exists b, init_slabs c = Some b) /\ exists r', init_cpu c r = Some r'.
Proof.
  intros Hl Hc Hs Hk H. assert (E : 1 + Z.of_nat (Z.to_nat (s_classes c - 1)) = s_classes c) by lia. unfold words_needed in H. rewrite <- E in H. split.
  - unfold init_slabs. rewrite header_area_eq by lia. rewrite <- words_before_1. change false with (prev_empty_at c 1). apply fits_slabs_loop; try assumption; lia.
  - unfold init_cpu. assert (2 ^ s_shift c <= 2 ^ 19) by (apply Z.pow_le_mono_r; lia).
    destruct (Z.ltb_spec (2 ^ 16 * word_bytes) (2 ^ s_shift c)) as [X|_]; [change (2 ^ 16 * word_bytes) with (2 ^ 19) in X; lia|].
    rewrite header_area_eq by lia. unfold word_bytes. rewrite (Z.mul_comm 8), Z.div_mul by lia. rewrite <- words_before_1. change false with (prev_empty_at c 1).
    apply fits_cpu_loop; try assumption; lia.
Qed.

(** The words needed at the largest shift and below it. *)
Lemma words_top c : layout_ok c -> words_needed c <= header_words c + (s_classes c - 1) + zsum (map (s_max c) (zseq 1 (Z.to_nat (s_classes c - 1)))).
Proof.
  intros (Hc & _ & Hl). unfold words_needed, words_before. rewrite zsum_map_add.
  assert (zsum (map (mark c) (zseq 1 (Z.to_nat (s_classes c - 1)))) <= s_classes c - 1); [|lia].
  rewrite <- (Z2Nat.id (s_classes c - 1)) at 2 by lia. generalize (Z.to_nat (s_classes c - 1)). intros n. generalize 1 at 1.
  induction n as [|n IH]; intros s; cbn [zseq map zsum]; [lia|]. specialize (IH (s + 1)). pose proof (mark_bounds c s). lia.
Qed.
Lemma words_below c mx rel : layout_ok c -> 1 <= rel -> (forall k, 0 <= mx k) -> (forall k, s_max c k = shift_max_capacity mx rel k) ->
  words_needed c <= header_words c + 1 + zsum (map mx (zseq 1 (Z.to_nat (s_classes c - 1)))) / 2 ^ rel.
Proof.
  intros (Hc & _ & Hl) Hr Hm Hs.
  assert (P : 0 < 2 ^ rel) by (apply Z.pow_pos_nonneg; lia).
  assert (K : forall k, 0 <= s_max c k /\ (s_max c k = 0 \/ s_max c k + 1 <= mx k / 2 ^ rel) /\ 0 <= mx k / 2 ^ rel).
  { intros k. split; [apply Hl|]. rewrite Hs. unfold shift_max_capacity. destruct (Z.eqb_spec rel 0); [lia|].
    rewrite Z.shiftr_div_pow2 by lia. specialize (Hm k). pose proof (Z.div_pos (mx k) (2 ^ rel) ltac:(lia) P). lia. }
  assert (G : forall n s, 1 <= s -> zsum (map (fun k => mark c k + s_max c k) (zseq s n)) <=
              mark c s + zsum (map (fun k => mx k / 2 ^ rel) (zseq s n))).
  { induction n as [|n IH]; intros s H1; cbn [zseq map zsum]; [pose proof (mark_bounds c s); lia|]. specialize (IH (s + 1) ltac:(lia)).
    specialize (K s). assert (mark c (s + 1) + s_max c s <= mx s / 2 ^ rel).
    { unfold mark. replace (s + 1 - 1) with s by lia. destruct (Z.eqb_spec (s + 1) 1); [lia|]. cbn [orb]. destruct (Z.eqb_spec (s_max c s) 0); cbn [negb]; lia. }
    lia. }
  assert (D : forall l, zsum (map (fun k => mx k / 2 ^ rel) l) <= zsum (map mx l) / 2 ^ rel).
  { induction l as [|k l IH]; cbn [map zsum]; [rewrite Z.div_0_l by lia; lia|].
    assert (mx k / 2 ^ rel + zsum (map mx l) / 2 ^ rel <= (mx k + zsum (map mx l)) / 2 ^ rel); [|lia].
    apply Z.div_le_lower_bound; [lia|]. pose proof (Z.mul_div_le (mx k) (2 ^ rel) P). pose proof (Z.mul_div_le (zsum (map mx l)) (2 ^ rel) P). lia. }
  unfold words_needed, words_before. specialize (G (Z.to_nat (s_classes c - 1)) 1 ltac:(lia)). specialize (D (zseq 1 (Z.to_nat (s_classes c - 1)))).
  pose proof (mark_bounds c 1). lia.
Qed.

(** The configured maximum capacities [mx0] leave room for every shift, whichever way their
    total is distributed. *)
Definition roomy (n : Z) (mx0 : Z -> Z) (shift rel : Z) : Prop :=
  (n * 4 + 7) / 8 + (if rel =? 0 then n - 1 + zsum (map mx0 (zseq 1 (Z.to_nat (n - 1))))
                     else 1 + zsum (map mx0 (zseq 1 (Z.to_nat (n - 1)))) / 2 ^ rel) <= 2 ^ shift / 8.

(** Any number of redistributions, with any misses, then slabs of any allowed shift: they are
    laid out without failure. *)
Inductive redistributed (n : Z) (batch : Z -> Z) : (Z -> Z) -> (Z -> Z) -> Prop :=
| rd_none mx : redistributed n batch mx mx
| rd_more mx0 mx miss : redistributed n batch mx0 mx -> Permutation (map fst miss) (zseq 0 (Z.to_nat n)) ->
    redistributed n batch mx0 (store_max_capacities mx (updated_max_capacities batch mx miss)).

Lemma zsum_perm l l' : Permutation l l' -> zsum l = zsum l'.
Proof. induction 1; cbn [zsum]; lia. Qed.

Lemma redistributed_total n batch mx0 mx : 1 <= n -> (forall k, 0 <= batch k) -> mx0 0 = 0 -> batch 0 = 0 -> (forall k, 0 <= mx0 k) -> redistributed n batch mx0 mx ->
  (forall k, 0 <= mx k) /\ zsum (map mx (zseq 0 (Z.to_nat n))) = zsum (map mx0 (zseq 0 (Z.to_nat n))).
Proof.
  intros Hn Hb H0 Hb0 Hm R. induction R as [mx|mx0 mx miss R IH P]; [auto|]. destruct (IH H0 Hm) as [I1 I2].
  destruct (redistribution batch mx miss) as (E & L & _); [apply (Permutation_NoDup (Permutation_sym P)); apply zseq_NoDup|assumption|].
  set (new := store_max_capacities mx _) in *. split.
  - intros k. specialize (L k). specialize (I1 k). specialize (Hb k). lia.
  - rewrite <- I2. rewrite (zsum_perm _ _ (Permutation_map new P)), (zsum_perm _ _ (Permutation_map mx P)) in E. exact E.
Qed.

Theorem redistribution_fits : forall n batch mx0 mx shift rel base r,
  2 <= n -> 0 <= shift <= 19 -> 0 <= rel -> (forall k, 0 <= batch k) -> batch 0 = 0 -> mx0 0 = 0 -> (forall k, 0 <= mx0 k) ->
  zsum (map mx0 (zseq 1 (Z.to_nat (n - 1)))) < 2 ^ 16 ->
  roomy n mx0 shift rel -> redistributed n batch mx0 mx ->
  let c := SCfg n (fun k => if (0 <=? k) && (k <? n) then shift_max_capacity mx rel k else 0) shift base in
  (exists b, init_slabs c = Some b) /\ exists r', init_cpu c r = Some r'.
Proof.
  intros n batch mx0 mx shift rel base r Hn Hsh Hrel Hb Hb0 H0 Hm Hlt Hroom R c.
  destruct (redistributed_total n batch mx0 mx ltac:(lia) Hb H0 Hb0 Hm R) as [Hp T].
  assert (Hc0 : forall k, 0 <= shift_max_capacity mx rel k <= mx k).
  { intros k. unfold shift_max_capacity. specialize (Hp k). destruct (Z.eqb_spec rel 0); [lia|]. rewrite Z.shiftr_div_pow2 by lia.
    assert (0 < 2 ^ rel) by (apply Z.pow_pos_nonneg; lia). pose proof (Z.div_pos (mx k) (2 ^ rel) ltac:(lia) ltac:(lia)).
    assert (mx k / 2 ^ rel <= mx k) by (apply Z.div_le_upper_bound; nia). lia. }
  assert (E : Z.to_nat n = S (Z.to_nat (n - 1))) by lia. rewrite E in T. cbn [zseq map zsum] in T. rewrite H0 in T. replace (0 + 1) with 1 in T by lia.
  set (S0 := zsum (map mx0 (zseq 1 (Z.to_nat (n - 1))))) in *. set (S1 := zsum (map mx (zseq 1 (Z.to_nat (n - 1))))) in *.
  assert (HS : S1 <= S0) by (pose proof (Hp 0); lia).
  assert (Hl : layout_ok c).
  { split; [cbn; lia|]. split; [cbn; lia|]. intros k. cbn [s_max c]. destruct (_ && _); [apply Hc0|lia]. }
  apply layout_fits; try assumption; try (cbn; lia).
  - intros k. cbn [s_max c]. destruct ((0 <=? k) && (k <? n)) eqn:Ek; [|lia]. apply andb_prop in Ek as [E1 E2]. apply Z.leb_le in E1. apply Z.ltb_lt in E2.
    destruct (Hc0 k) as [_ Hk]. eapply Z.le_lt_trans; [exact Hk|]. destruct (Z.eq_dec k 0) as [->|N].
    + assert (0 <= S1); [|lia]. unfold S1. clear - Hp. generalize (zseq 1 (Z.to_nat (n - 1))). intros l. induction l as [|x l IH]; cbn [map zsum]; [lia|]. specialize (Hp x). lia.
    + pose proof (zsum_ge_one mx (zseq 1 (Z.to_nat (n - 1))) k (fun y _ => Hp y)) as G. assert (In k (zseq 1 (Z.to_nat (n - 1)))) by (apply zseq_In; lia). specialize (G H). fold S1 in G. lia.
  - unfold roomy in Hroom. fold S0 in Hroom. pose proof (Z.mul_div_le (2 ^ shift) 8 ltac:(lia)) as M. change (s_shift c) with shift.
    assert (words_needed c <= 2 ^ shift / 8); [|lia]. eapply Z.le_trans; [|exact Hroom]. change ((n * 4 + 7) / 8) with (header_words c). destruct (Z.eqb_spec rel 0) as [->|N].
    + pose proof (words_top c Hl) as W. change (s_classes c) with n in W.
      rewrite (map_ext_in (s_max c) mx) in W; [fold S1 in W; lia|]. intros k Hk. apply zseq_In in Hk. cbn [s_max c].
      replace (0 <=? k) with true by (symmetry; apply Z.leb_le; lia). replace (k <? n) with true by (symmetry; apply Z.ltb_lt; lia). reflexivity.
    + pose proof (words_below c (fun k => if (0 <=? k) && (k <? n) then mx k else 0) rel Hl ltac:(lia)) as W. change (s_classes c) with n in W.
      rewrite (map_ext_in (fun k => if (0 <=? k) && (k <? n) then mx k else 0) mx) in W.
      2:{ intros k Hk. apply zseq_In in Hk. replace (0 <=? k) with true by (symmetry; apply Z.leb_le; lia). replace (k <? n) with true by (symmetry; apply Z.ltb_lt; lia). reflexivity. }
      fold S1 in W. assert (S1 / 2 ^ rel <= S0 / 2 ^ rel) by (apply Z.div_le_mono; [apply Z.pow_pos_nonneg; lia|assumption]).
      assert (words_needed c <= header_words c + 1 + S1 / 2 ^ rel); [|lia]. apply W.
      * intros k. destruct (_ && _); [apply Hp|lia].
      * intros k. cbn [s_max c]. destruct (_ && _) eqn:Ek; unfold shift_max_capacity; rewrite Ek; destruct (Z.eqb_spec rel 0); try lia. all: rewrite ?Z.shiftr_0_l; reflexivity.
Qed.
Print Assumptions redistribution_fits.

(** The default build: 86 base classes in two sets (the second, for cold objects, with 36 objects
    for 25 of them), ten classes of 2000 objects and the rest of 123; slabs of 2^14 to 2^18 bytes. *)
Definition default_max : Z -> Z := fun k =>
  if (1 <=? k) && (k <=? 10) then 2000 else if (10 <? k) && (k <? 86) then 123 else if (86 <=? k) && (k <? 111) then 36 else 0.
Example ex_roomy : forall shift, 14 <= shift <= 18 -> roomy 172 default_max shift (18 - shift).
Proof.
  intros shift H. assert (E : shift = 14 \/ shift = 15 \/ shift = 16 \/ shift = 17 \/ shift = 18) by lia.
  destruct E as [->|[->|[->|[->| ->]]]]; vm_compute; discriminate.
Qed.
