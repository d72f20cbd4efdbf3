(** * Hooks (C30)

    Specification.  [reg] lists the hooks that are registered, with repetitions: Add(v) that
    returned true puts [v] in, Remove(v) that returned true takes one [v] out.  While a call is under
    way its effect may or may not be visible, so there are two readings of "registered": *)
From Coq Require Import Permutation.
From Verif Require Import Base HookList.

Definition times (v : Z) (l : list Z) : Z := Z.of_nat (count_occ Z.eq_dec l v).
Definition adding (s : sys) (v : Z) : Z :=
  match sy_writer s with WAddData w _ _ | WAddEnd w _ _ => if w =? v then 1 else 0 | _ => 0 end.
Definition removing (s : sys) (v : Z) : Z :=
  match sy_writer s with WRemData w _ _ | WRemEnd w _ _ => if w =? v then 1 else 0 | _ => 0 end.
(** [v] has been added, counting an Add that is under way. *)
Definition maybe_registered (x : sys * list Z) (v : Z) : Z := times v (snd x) + adding (fst x) v.
(** [v] has been added and no Remove under way can be taking it out. *)
Definition surely_registered (x : sys * list Z) (v : Z) : Z := times v (snd x) - removing (fst x) v.

Fixpoint remove_one (v : Z) (l : list Z) : list Z :=
  match l with
  | [] => []
  | x :: l => if x =? v then l else x :: remove_one v l
  end.
Definition reg_after (e : event) (reg : list Z) : list Z :=
  match e with EAdded v => v :: reg | ERemoved v => remove_one v reg | _ => reg end.

(** All histories of writers and traversals. *)
Inductive hk_reach : sys -> list Z -> Prop :=
| hr_init : hk_reach sy_init []
| hr_write s reg e s' : hk_reach s reg -> wstep s e s' -> hk_reach s' (reg_after e reg)
| hr_start h w n reg : hk_reach (Sys h w RIdle) reg -> hk_reach (Sys h w (traverse_begin h n)) reg
| hr_read s reg s' : hk_reach s reg -> rstep s s' -> hk_reach s' reg
| hr_return h w out reg : hk_reach (Sys h w (RDone out)) reg -> hk_reach (Sys h w RIdle) reg.

(** A traversal with room for [n] hooks, from the moment it starts: the moments so far, the latest
    first. *)
Inductive during (n : Z) : list (sys * list Z) -> sys -> list Z -> Prop :=
| du_start h w reg : hk_reach (Sys h w RIdle) reg ->
    during n [(Sys h w RIdle, reg)] (Sys h w (traverse_begin h n)) reg
| du_write ms s reg e s' : during n ms s reg -> wstep s e s' -> during n ((s, reg) :: ms) s' (reg_after e reg)
| du_read ms s reg s' : during n ms s reg -> rstep s s' -> during n ((s, reg) :: ms) s' reg.

(** ** Invariant *)

Definition slots (h : hooks) (v : Z) : Z := zcount (fun i => hk_data h i =? v) 0 (Z.to_nat k_max_hooks).

Lemma first_at_spec f n : forall i,
  match first_at f i n with
  | Some j => i <= j < i + Z.of_nat n /\ f j = true /\ forall k, i <= k < j -> f k = false
  | None => forall k, i <= k < i + Z.of_nat n -> f k = false
  end.
Proof.
  induction n as [|n IH]; intros i; cbn [first_at]; [intros; lia|]. destruct (f i) eqn:E; [split; [lia|split; [assumption|intros; lia]]|].
  specialize (IH (i + 1)). destruct (first_at f (i + 1) n) as [j|].
  - destruct IH as (A & B & C). split; [lia|]. split; [assumption|]. intros k Hk. destruct (Z.eq_dec k i) as [->|]; [assumption|apply C; lia].
  - intros k Hk. destruct (Z.eq_dec k i) as [->|]; [assumption|apply IH; lia].
Qed.

Lemma lower_end_spec d n : 0 <= lower_end d n <= Z.of_nat n /\ (forall i, lower_end d n <= i < Z.of_nat n -> d i = 0) /\
  (lower_end d n = 0 \/ d (lower_end d n - 1) <> 0).
Proof.
  induction n as [|m IH]; cbn [lower_end]; [split; [lia|split; [intros; lia|left; reflexivity]]|].
  destruct (Z.eqb_spec (d (Z.of_nat m)) 0) as [E|E].
  - destruct IH as (A & B & C). split; [lia|]. split; [|assumption]. intros i Hi. destruct (Z.eq_dec i (Z.of_nat m)) as [->|]; [assumption|apply B; lia].
  - split; [lia|]. split; [intros; lia|]. right. replace (Z.of_nat (S m) - 1) with (Z.of_nat m) by lia. assumption.
Qed.

Lemma zcount_upd (d : Z -> Z) i x v : 0 <= i < k_max_hooks ->
  zcount (fun j => upd d i x j =? v) 0 (Z.to_nat k_max_hooks) =
  zcount (fun j => d j =? v) 0 (Z.to_nat k_max_hooks) - (if d i =? v then 1 else 0) + (if x =? v then 1 else 0).
Proof.
  intros Hi. pose proof (zcount_change (fun j => upd d i x j =? v) (fun j => d j =? v) 0 k_max_hooks i 1 ltac:(lia) ltac:(lia) ltac:(lia)) as H.
  specialize (H ltac:(intros j Hj; cbv beta; rewrite upd_other by lia; reflexivity)). change (Z.to_nat 1) with 1%nat in H. cbn [zcount] in H. rewrite upd_same in H. lia.
Qed.

Lemma times_cons v w l : times v (w :: l) = (if w =? v then 1 else 0) + times v l.
Proof. unfold times. cbn [count_occ]. destruct (Z.eq_dec w v) as [->|E]; [rewrite Z.eqb_refl; lia|]. replace (w =? v) with false by lia. lia. Qed.

Lemma times_remove v w l : 0 < times w l -> times v (remove_one w l) = times v l - (if w =? v then 1 else 0).
Proof.
  induction l as [|x l IH]; intros H; [change (times w []) with 0 in H; lia|]. cbn [remove_one]. rewrite times_cons in H. destruct (Z.eqb_spec x w) as [->|E].
  - rewrite times_cons. lia.
  - rewrite !times_cons, IH by lia. lia.
Qed.

Lemma times_nonneg v l : 0 <= times v l.
Proof. unfold times. lia. Qed.

(** What the writer under way has already changed. *)
Definition ahead (w : wpc) (v : Z) : Z :=
  match w with WAddEnd x _ _ => if x =? v then 1 else 0 | WRemEnd x _ _ => if x =? v then -1 else 0 | _ => 0 end.

Record hk_ok (s : sys) (reg : list Z) : Prop := {
  ho_count : forall v, v <> 0 -> slots (sy_hooks s) v = times v reg + ahead (sy_writer s) v;
  ho_zero : times 0 reg = 0;
  ho_range : 0 <= hk_end (sy_hooks s) <= k_max_hooks;
  (* every hook is below the end, except one that is being added *)
  ho_end : forall i, 0 <= i < k_max_hooks -> hk_data (sy_hooks s) i <> 0 ->
             i < hk_end (sy_hooks s) \/ exists v prev, sy_writer s = WAddEnd v i prev;
  (* the entry below the end is a hook, unless it is being removed *)
  ho_top : hk_end (sy_hooks s) = 0 \/ hk_data (sy_hooks s) (hk_end (sy_hooks s) - 1) <> 0 \/
             exists v e, sy_writer s = WRemEnd v (hk_end (sy_hooks s) - 1) e;
  ho_writer : match sy_writer s with
              | WFree => True
              | WAddData v i prev => v <> 0 /\ 0 <= i < k_max_hooks /\ hk_data (sy_hooks s) i = 0 /\ prev = hk_end (sy_hooks s)
              | WAddEnd v i prev => v <> 0 /\ 0 <= i < k_max_hooks /\ hk_data (sy_hooks s) i = v /\ prev = hk_end (sy_hooks s)
              | WRemData v i e => v <> 0 /\ 0 <= i < e /\ e = hk_end (sy_hooks s) /\ hk_data (sy_hooks s) i = v
              | WRemEnd v i e => v <> 0 /\ 0 <= i < e /\ e = hk_end (sy_hooks s) /\ hk_data (sy_hooks s) i = 0 /\ 0 < times v reg
              end }.

Lemma hk_ok_reader h w r r' reg : hk_ok (Sys h w r) reg -> hk_ok (Sys h w r') reg.
Proof. intros [A B C D E F]. constructor; assumption. Qed.

Lemma slots_pos h v i : 0 <= i < k_max_hooks -> hk_data h i = v -> 0 < slots h v.
Proof.
  intros Hi E. unfold slots. destruct (Z.eq_dec (zcount (fun i => hk_data h i =? v) 0 (Z.to_nat k_max_hooks)) 0) as [H|H].
  - pose proof (zcount_zero_inv _ _ _ H i ltac:(unfold k_max_hooks in *; lia)) as F. cbv beta in F. lia.
  - pose proof (zcount_bound (fun i => hk_data h i =? v) (Z.to_nat k_max_hooks) 0). lia.
Qed.

Lemma zcount_ex f n : forall a, 0 < zcount f a n -> exists i, a <= i < a + Z.of_nat n /\ f i = true.
Proof.
  induction n as [|n IH]; intros a H; cbn [zcount] in H; [lia|]. destruct (f a) eqn:E; [exists a; split; [lia|assumption]|].
  destruct (IH (a + 1) ltac:(lia)) as (i & A & B). exists i. split; [lia|assumption].
Qed.

Lemma slots_ex h v : 0 < slots h v -> exists i, 0 <= i < k_max_hooks /\ hk_data h i = v.
Proof. intros H. apply zcount_ex in H. destruct H as (i & A & B). exists i. unfold k_max_hooks in *. split; lia. Qed.

Lemma zcount_one_only f n a : zcount f a n <= 1 -> forall i j, a <= i < a + Z.of_nat n -> a <= j < a + Z.of_nat n -> f i = true -> f j = true -> i = j.
Proof.
  revert a. induction n as [|n IH]; intros a H i j Hi Hj Fi Fj; [lia|]. cbn [zcount] in H. pose proof (zcount_bound f n (a + 1)).
  assert (Hz : forall k, a + 1 <= k < a + 1 + Z.of_nat n -> f k = true -> 0 < zcount f (a + 1) n).
  { intros k Hk Fk. destruct (Z.eq_dec (zcount f (a + 1) n) 0) as [E|E]; [|lia]. rewrite (zcount_zero_inv _ _ _ E k Hk) in Fk. discriminate. }
  destruct (Z.eq_dec i a) as [->|Ni], (Z.eq_dec j a) as [->|Nj]; try reflexivity.
  - rewrite Fi in H. specialize (Hz j ltac:(lia) Fj). lia.
  - rewrite Fj in H. specialize (Hz i ltac:(lia) Fi). lia.
  - apply (IH (a + 1)); try assumption; try lia. destruct (f a); lia.
Qed.

Lemma slots_unique h v i j : slots h v <= 1 -> 0 <= i < k_max_hooks -> 0 <= j < k_max_hooks -> hk_data h i = v -> hk_data h j = v -> i = j.
Proof. intros H Hi Hj Ei Ej. unfold k_max_hooks in *. apply (zcount_one_only _ _ _ H i j); unfold k_max_hooks; lia. Qed.

Lemma wstep_ok s e s' reg : hk_ok s reg -> wstep s e s' -> hk_ok s' (reg_after e reg).
Proof.
  intros H St. destruct St as [h r v E|h r v w E|h r v i prev|h r v i prev|h r v E|h r v w E|h r v i e|h r v i e]; cbn [reg_after]; try assumption.
  - unfold add_begin in E. destruct (Z.eqb_spec v 0) as [|Nv]; [discriminate|]. pose proof (first_at_spec (fun i => hk_data h i =? 0) (Z.to_nat k_max_hooks) 0) as F.
    destruct (first_at _ 0 _) as [i|]; [|discriminate]. injection E as <-. destruct F as (F1 & F2 & _). destruct H as [A B C D G W]; cbn [sy_hooks sy_writer ahead] in *.
    constructor; cbn [sy_hooks sy_writer ahead].
    + exact A.
    + exact B.
    + exact C.
    + intros k Hk Hd. destruct (D k Hk Hd) as [?|(? & ? & ?)]; [left; assumption|discriminate].
    + destruct G as [?|[?|(? & ? & ?)]]; [left; assumption|right; left; assumption|discriminate].
    + unfold k_max_hooks in *. repeat split; lia.
  - destruct H as [A B C D G W]; cbn [sy_hooks sy_writer ahead] in *. destruct W as (W1 & W2 & W3 & W4). constructor; cbn [sy_hooks sy_writer ahead add_data hk_data hk_end].
    + intros u Hu. unfold slots, add_data, remove_data. cbn [hk_data]. rewrite zcount_upd by assumption. fold (slots h u). rewrite A, W3 by assumption. replace (0 =? u) with false by lia. lia.
    + exact B.
    + exact C.
    + intros k Hk Hd. destruct (Z.eq_dec k i) as [->|]; [right; eauto|]. rewrite upd_other in Hd by congruence. destruct (D k Hk Hd) as [?|(? & ? & ?)]; [left; assumption|discriminate].
    + destruct G as [?|[?|(? & ? & ?)]]; [left; assumption| |discriminate]. right. left. destruct (Z.eq_dec (hk_end h - 1) i) as [->|]; [rewrite upd_same; assumption|rewrite upd_other by congruence; assumption].
    + rewrite upd_same. auto.
  - destruct H as [A B C D G W]; cbn [sy_hooks sy_writer ahead] in *. destruct W as (W1 & W2 & W3 & W4). unfold add_end. subst prev.
    assert (Hd : forall x, hk_data (if hk_end h <=? i then Hooks (hk_data h) (i + 1) else h) x = hk_data h x) by (intros x; destruct (_ <=? _); reflexivity).
    constructor; cbn [sy_hooks sy_writer ahead].
    + intros u Hu. unfold slots. erewrite zcount_ext by (intros j _; rewrite Hd; reflexivity). fold (slots h u). rewrite A, times_cons by assumption. lia.
    + rewrite times_cons, B. replace (v =? 0) with false by lia. reflexivity.
    + destruct (Z.leb_spec (hk_end h) i); cbn [hk_end]; lia.
    + intros k Hk Hk0. rewrite Hd in Hk0. left. destruct (D k Hk Hk0) as [Hlt|(? & ? & E)].
      * destruct (Z.leb_spec (hk_end h) i); cbn [hk_end]; lia.
      * injection E as _ -> _. destruct (Z.leb_spec (hk_end h) k); cbn [hk_end]; lia.
    + rewrite Hd. destruct (Z.leb_spec (hk_end h) i) as [Hle|Hgt]; cbn [hk_end].
      * right. left. replace (i + 1 - 1) with i by lia. congruence.
      * destruct G as [?|[?|(? & ? & ?)]]; [left; assumption|right; left; assumption|discriminate].
    + exact I.
  - unfold remove_begin in E. destruct (Z.eqb_spec v 0) as [|Nv]; [discriminate|]. pose proof (first_at_spec (fun i => hk_data h i =? v) (Z.to_nat (hk_end h)) 0) as F.
    destruct (first_at _ 0 _) as [i|]; [|discriminate]. injection E as <-. destruct F as (F1 & F2 & _). destruct H as [A B C D G W]; cbn [sy_hooks sy_writer ahead] in *.
    constructor; cbn [sy_hooks sy_writer ahead].
    + exact A.
    + exact B.
    + exact C.
    + intros k Hk Hd. destruct (D k Hk Hd) as [?|(? & ? & ?)]; [left; assumption|discriminate].
    + destruct G as [?|[?|(? & ? & ?)]]; [left; assumption|right; left; assumption|discriminate].
    + repeat split; lia.
  - destruct H as [A B C D G W]; cbn [sy_hooks sy_writer ahead] in *. destruct W as (W1 & W2 & W3 & W4). assert (Hi : 0 <= i < k_max_hooks) by lia.
    constructor; cbn [sy_hooks sy_writer ahead remove_data hk_data hk_end].
    + intros u Hu. unfold slots, add_data, remove_data. cbn [hk_data]. rewrite zcount_upd by assumption. fold (slots h u). rewrite A, W4 by assumption. replace (0 =? u) with false by lia. destruct (v =? u); lia.
    + exact B.
    + exact C.
    + intros k Hk Hd. left. destruct (Z.eq_dec k i) as [->|]; [lia|]. rewrite upd_other in Hd by congruence. destruct (D k Hk Hd) as [?|(? & ? & ?)]; [assumption|discriminate].
    + destruct G as [?|[?|(? & ? & ?)]]; [left; assumption| |discriminate]. right. destruct (Z.eq_dec (hk_end h - 1) i) as [->|]; [right; eauto|left; rewrite upd_other by congruence; assumption].
    + rewrite upd_same. repeat match goal with |- _ /\ _ => split end; try assumption; try reflexivity; try lia.
      pose proof (slots_pos h v i Hi W4). rewrite A in H by assumption. lia.
  - destruct H as [A B C D G W]; cbn [sy_hooks sy_writer ahead] in *. destruct W as (W1 & W2 & W3 & W4 & W5). unfold remove_end. subst e.
    assert (Hd : forall x, hk_data (if hk_end h =? i + 1 then Hooks (hk_data h) (lower_end (hk_data h) (Z.to_nat i)) else h) x = hk_data h x) by (intros x; destruct (_ =? _); reflexivity).
    constructor; cbn [sy_hooks sy_writer ahead].
    + intros u Hu. unfold slots. erewrite zcount_ext by (intros j _; rewrite Hd; reflexivity). fold (slots h u). rewrite A, times_remove by assumption. destruct (v =? u); lia.
    + rewrite times_remove, B by assumption. replace (v =? 0) with false by lia. reflexivity.
    + destruct (Z.eqb_spec (hk_end h) (i + 1)); cbn [hk_end]; [|lia]. pose proof (lower_end_spec (hk_data h) (Z.to_nat i)). lia.
    + intros k Hk Hk0. rewrite Hd in Hk0. left. destruct (D k Hk Hk0) as [Hlt|(? & ? & E)]; [|discriminate].
      destruct (Z.eqb_spec (hk_end h) (i + 1)) as [Ee|]; cbn [hk_end]; [|lia]. destruct (lower_end_spec (hk_data h) (Z.to_nat i)) as (L1 & L2 & _).
      destruct (Z.lt_ge_cases k (lower_end (hk_data h) (Z.to_nat i))) as [|Hge]; [assumption|]. exfalso. destruct (Z.eq_dec k i) as [->|]; [congruence|]. apply Hk0. apply L2. lia.
    + rewrite Hd. destruct (Z.eqb_spec (hk_end h) (i + 1)) as [Ee|Ne]; cbn [hk_end].
      * destruct (lower_end_spec (hk_data h) (Z.to_nat i)) as (_ & _ & [L|L]); [left; assumption|right; left; assumption].
      * destruct G as [?|[?|(? & ? & E)]]; [left; assumption|right; left; assumption|]. injection E as _ E _. lia.
    + exact I.
Qed.

Lemma hk_reach_ok s reg : hk_reach s reg -> hk_ok s reg.
Proof.
  induction 1 as [|s reg e s' H IH St|h w n reg H IH|s reg s' H IH St|h w out reg H IH].
  - constructor; cbn [sy_init sy_hooks sy_writer hk_init hk_data hk_end ahead].
    + intros v Hv. unfold slots. rewrite zcount_none; [reflexivity|]. intros j _. change ((0 =? v) = false). lia.
    + reflexivity.
    + unfold k_max_hooks. lia.
    + intros; lia.
    + left. reflexivity.
    + exact I.
  - apply (wstep_ok _ _ _ _ IH St).
  - apply (hk_ok_reader _ _ _ _ _ IH).
  - destruct St. apply (hk_ok_reader _ _ _ _ _ IH).
  - apply (hk_ok_reader _ _ _ _ _ IH).
Qed.

Lemma during_reach n ms s reg : during n ms s reg -> hk_reach s reg /\ (forall x, In x ms -> hk_reach (fst x) (snd x)).
Proof.
  induction 1 as [h w reg H|ms s reg e s' H IH St|ms s reg s' H IH St].
  - split; [apply hr_start; assumption|]. intros x [<-|[]]. assumption.
  - destruct IH as (A & B). split; [apply (hr_write _ _ _ _ A St)|]. intros x [<-|Hx]; [assumption|auto].
  - destruct IH as (A & B). split; [apply (hr_read _ _ _ A St)|]. intros x [<-|Hx]; [assumption|auto].
Qed.

Lemma entry_maybe s reg i : hk_ok s reg -> 0 <= i < k_max_hooks -> hk_data (sy_hooks s) i <> 0 -> 1 <= maybe_registered (s, reg) (hk_data (sy_hooks s) i).
Proof.
  intros H Hi Hd. pose proof (slots_pos (sy_hooks s) _ i Hi eq_refl) as Hp. rewrite (ho_count _ _ H) in Hp by assumption. unfold maybe_registered, adding. cbn [fst snd].
  generalize dependent (hk_data (sy_hooks s) i). intros v Hv Hp. pose proof (times_nonneg v reg).
  revert Hp. destruct (sy_writer s) as [|u j prev|u j prev|u j e|u j e]; cbn [ahead]; try destruct (u =? v); intros; lia.
Qed.

Lemma during_first n ms s reg : during n ms s reg -> exists x l, ms = l ++ [x].
Proof. induction 1 as [h w reg H|ms s reg e s' H (x & l & ->) St|ms s reg s' H (x & l & ->) St]; [eexists _, []; reflexivity|eexists x, (_ :: l); reflexivity..]. Qed.

Definition first_moment (ms : list (sys * list Z)) (x : sys * list Z) : Prop := exists l, ms = l ++ [x].

Lemma first_moment_cons a ms x : ms <> [] -> first_moment (a :: ms) x -> first_moment ms x.
Proof. intros Hn (l & E). destruct l as [|b l]; [cbn [app] in E; injection E as _ ->; congruence|]. cbn [app] in E. injection E as _ E. exists l. assumption. Qed.

(** What the reader has reported, and where it is. *)
Definition reported (n : Z) (ms : list (sys * list Z)) (out : list Z) : Prop :=
  (0 <= n -> Z.of_nat (length out) <= n) /\ forall v, In v out -> v <> 0 /\ exists x, In x ms /\ 1 <= maybe_registered x v.
Definition stays (ms : list (sys * list Z)) (k v : Z) : Prop :=
  (forall x, In x ms -> hk_data (sy_hooks (fst x)) k = v) /\ exists x, first_moment ms x /\ k < hk_end (sy_hooks (fst x)).

Lemma during_reader n ms s reg : during n ms s reg -> exists e, 0 <= e <= k_max_hooks /\
  match sy_reader s with
  | RIdle => False
  | RLoop i e' m out => e' = e /\ 0 <= i <= e /\ (0 <= n -> 0 <= m) /\ Z.of_nat (length out) + m = n /\ Z.of_nat (length out) <= i /\ reported n ms out /\
      (forall k v, 0 <= k < k_max_hooks -> v <> 0 -> stays ms k v -> k < e /\ (k < i -> In v out))
  | RDone out => Z.of_nat (length out) <= e /\ reported n ms out /\
      (forall k v, 0 <= k < k_max_hooks -> v <> 0 -> stays ms k v -> k_max_hooks <= n -> In v out)
  end.
Proof.
  induction 1 as [h w reg H|ms s reg e s' H IH St|ms s reg s' H IH St].
  - pose proof (ho_range _ _ (hk_reach_ok _ _ H)) as R. cbn [sy_hooks] in R. exists (hk_end h). split; [assumption|]. cbn [sy_reader traverse_begin length].
    split; [reflexivity|]. split; [lia|]. split; [lia|]. split; [lia|]. split; [lia|]. split; [split; [cbn; lia|intros v []]|].
    intros k v Hk Hv (_ & x & (l & E) & Hx). destruct l as [|? [|]]; [|discriminate..]. injection E as <-. cbn [fst sy_hooks] in Hx. split; [assumption|lia].
  - destruct (during_first _ _ _ _ H) as (x0 & l0 & E0). assert (Hne : ms <> []) by (intros ->; destruct l0; discriminate).
    destruct IH as (e0 & R & IH). exists e0. split; [assumption|].
    assert (Hr : sy_reader s' = sy_reader s) by (destruct St; reflexivity). rewrite Hr.
    assert (Hrep : forall out, reported n ms out -> reported n ((s, reg) :: ms) out).
    { intros out (A & B). split; [assumption|]. intros v Hv. destruct (B v Hv) as (B1 & x & B2 & B3). split; [assumption|]. exists x. split; [right|]; assumption. }
    assert (Hst : forall k v, stays ((s, reg) :: ms) k v -> stays ms k v).
    { intros k v (A & x & B & C). split; [intros y Hy; apply A; right; assumption|]. exists x. split; [apply (first_moment_cons (s, reg)); assumption|assumption]. }
    destruct (sy_reader s) as [|i e1 m out|out]; [contradiction| |].
    + destruct IH as (I1 & I2 & I3 & I4 & I5 & I6 & I7). repeat match goal with |- _ /\ _ => split end; try assumption; try lia; [apply Hrep; assumption|]. intros k v Hk Hv Hs. apply (I7 k v Hk Hv). apply Hst. assumption.
    + destruct IH as (I1 & I2 & I3). split; [assumption|]. split; [apply Hrep; assumption|]. intros k v Hk Hv Hs. apply (I3 k v Hk Hv). apply Hst. assumption.
  - destruct (during_first _ _ _ _ H) as (x0 & l0 & E0). assert (Hne : ms <> []) by (intros ->; destruct l0; discriminate).
    destruct (during_reach _ _ _ _ H) as (Hreach & _). pose proof (hk_reach_ok _ _ Hreach) as Hok.
    destruct IH as (e0 & R & IH). exists e0. split; [assumption|].
    assert (Hrep : forall out, reported n ms out -> reported n ((s, reg) :: ms) out).
    { intros out (A & B). split; [assumption|]. intros v Hv. destruct (B v Hv) as (B1 & x & B2 & B3). split; [assumption|]. exists x. split; [right|]; assumption. }
    assert (Hst : forall k v, stays ((s, reg) :: ms) k v -> stays ms k v /\ hk_data (sy_hooks s) k = v).
    { intros k v (A & x & B & C). split; [|apply (A (s, reg)); left; reflexivity]. split; [intros y Hy; apply A; right; assumption|]. exists x. split; [apply (first_moment_cons (s, reg)); assumption|assumption]. }
    destruct St as [h w i e1 m out]. cbn [sy_reader sy_hooks] in *. destruct IH as (-> & I2 & I3 & I4 & I5 & I6 & I7). unfold traverse_next.
    destruct (Z.ltb_spec i e0) as [Hi|Hi]; [destruct (Z.ltb_spec 0 m) as [Hm|Hm]|]; cbn [andb].
    + destruct (Z.eqb_spec (hk_data h i) 0) as [Ed|Ed].
      * split; [reflexivity|]. split; [lia|]. split; [lia|]. split; [lia|]. split; [lia|]. split; [apply Hrep; assumption|].
        intros k v Hk Hv Hs. apply Hst in Hs. destruct Hs as (Hs & Hd). destruct (I7 k v Hk Hv Hs) as (J1 & J2). split; [assumption|]. intros Hki.
        destruct (Z.eq_dec k i) as [->|]; [congruence|apply J2; lia].
      * rewrite app_length. cbn [length]. split; [reflexivity|]. split; [lia|]. split; [lia|]. split; [lia|]. split; [lia|]. split.
        { apply Hrep in I6. destruct I6 as (K1 & K2). split; [rewrite app_length; cbn [length]; lia|]. intros v Hv. apply in_app_or in Hv. destruct Hv as [Hv|[<-|[]]]; [auto|].
          split; [assumption|]. exists (Sys h w (RLoop i e0 m out), reg). split; [left; reflexivity|]. apply (entry_maybe _ _ i Hok); cbn [sy_hooks]; [lia|assumption]. }
        intros k v Hk Hv Hs. apply Hst in Hs. destruct Hs as (Hs & Hd). destruct (I7 k v Hk Hv Hs) as (J1 & J2). split; [assumption|]. intros Hki. apply in_or_app.
        destruct (Z.eq_dec k i) as [->|]; [right; left; assumption|left; apply J2; lia].
    + split; [lia|]. split; [apply Hrep; assumption|]. intros k v Hk Hv Hs Hn. apply Hst in Hs. destruct Hs as (Hs & _). destruct (I7 k v Hk Hv Hs) as (J1 & J2). apply J2. lia.
    + split; [lia|]. split; [apply Hrep; assumption|]. intros k v Hk Hv Hs Hn. apply Hst in Hs. destruct Hs as (Hs & _). destruct (I7 k v Hk Hv Hs) as (J1 & J2). apply J2. lia.
Qed.

(** A hook that is registered once at every moment stays in one slot. *)
Lemma stays_unique n ms s reg v : during n ms s reg -> v <> 0 ->
  (forall x, In x ms -> 1 <= surely_registered x v /\ maybe_registered x v <= 1) ->
  exists k, 0 <= k < k_max_hooks /\ stays ms k v /\ (1 <= surely_registered (s, reg) v -> maybe_registered (s, reg) v <= 1 -> hk_data (sy_hooks s) k = v).
Proof.
  intros H Hv. induction H as [h w reg H|ms s reg e s' H IH St|ms s reg s' H IH St]; intros Hall.
  - pose proof (hk_reach_ok _ _ H) as Hok. destruct (Hall _ (or_introl eq_refl)) as (A & B). pose proof (ho_count _ _ Hok v Hv) as C. cbn [sy_hooks sy_writer] in C.
    unfold surely_registered, maybe_registered, adding, removing in A, B. cbn [fst snd sy_writer] in A, B.
    assert (Hp : 0 < slots h v) by (clear - A B C; revert A B C; destruct w as [|u j prev|u j prev|u j e|u j e]; cbn [ahead]; try destruct (u =? v); intros; lia).
    apply slots_ex in Hp. destruct Hp as (k & Hk & Hd). exists k. split; [assumption|]. split; [|intros _ _; exact Hd]. split.
    + intros x [<-|[]]. exact Hd.
    + exists (Sys h w RIdle, reg). split; [exists []; reflexivity|]. cbn [fst sy_hooks]. destruct (ho_end _ _ Hok k Hk ltac:(cbn [sy_hooks]; congruence)) as [Hlt|(u & prev & E)]; [exact Hlt|].
      exfalso. cbn [sy_writer] in E. subst w. pose proof (ho_writer _ _ Hok) as W. cbn [sy_writer sy_hooks] in W. destruct W as (_ & _ & W & _).
      replace (u =? v) with true in * by lia. lia.
  - destruct IH as (k & Hk & (I1 & x & I2 & I3) & I4); [intros y Hy; apply Hall; right; assumption|]. destruct (Hall _ (or_introl eq_refl)) as (A & B). specialize (I4 A B).
    destruct (during_reach _ _ _ _ H) as (Hreach & _). pose proof (hk_reach_ok _ _ Hreach) as Hok.
    exists k. split; [assumption|]. split.
    + split; [intros y [<-|Hy]; [assumption|auto]|]. exists x. split; [|assumption]. destruct I2 as (l & ->). exists ((s, reg) :: l). reflexivity.
    + intros A' B'. destruct St as [h r u E|h r u w E|h r u i prev|h r u i prev|h r u E|h r u w E|h r u i e|h r u i e]; cbn [sy_hooks] in *; try assumption.
      * cbn [add_data hk_data]. pose proof (ho_writer _ _ Hok) as W. cbn [sy_writer sy_hooks] in W. rewrite upd_other; [assumption|]. intros ->. destruct W as (_ & _ & W & _). congruence.
      * unfold add_end. destruct (prev <=? i); assumption.
      * cbn [remove_data hk_data]. destruct (Z.eq_dec i k) as [->|]; [|rewrite upd_other by congruence; assumption].
        exfalso. pose proof (ho_writer _ _ Hok) as W. cbn [sy_writer sy_hooks] in W. destruct W as (_ & _ & _ & W).
        unfold surely_registered, maybe_registered, adding, removing in *. cbn [fst snd sy_writer reg_after] in *. replace (u =? v) with true in * by lia. lia.
      * unfold remove_end. destruct (e =? i + 1); assumption.
  - destruct IH as (k & Hk & (I1 & x & I2 & I3) & I4); [intros y Hy; apply Hall; right; assumption|]. destruct (Hall _ (or_introl eq_refl)) as (A & B). specialize (I4 A B).
    exists k. split; [assumption|]. split.
    + split; [intros y [<-|Hy]; [assumption|auto]|]. exists x. split; [|assumption]. destruct I2 as (l & ->). exists ((s, reg) :: l). reflexivity.
    + intros _ _. destruct St. exact I4.
Qed.

(** ** The theorems *)

(** A traversal reports only hooks that were registered, or being registered, at some moment during it; at most as many
    as there is room for and as the list can hold. *)
Theorem traverse_only_registered : forall n ms s reg out, 0 <= n -> during n ms s reg -> sy_reader s = RDone out ->
  (forall v, In v out -> v <> 0 /\ exists x, In x ms /\ 1 <= maybe_registered x v) /\
  Z.of_nat (length out) <= n /\ Z.of_nat (length out) <= 7.
Proof.
  intros n ms s reg out Hn H E. destruct (during_reader _ _ _ _ H) as (e & R & M). rewrite E in M. destruct M as (A & (B & C) & _).
  split; [exact C|]. unfold k_max_hooks in R. split; [auto|lia].
Qed.

(** With room for all, it reports every hook that is registered at every moment of it and is not registered a second
    time meanwhile. *)
Theorem traverse_all_registered : forall n ms s reg out v, 7 <= n -> during n ms s reg -> sy_reader s = RDone out -> v <> 0 ->
  (forall x, In x ms -> 1 <= surely_registered x v /\ maybe_registered x v <= 1) -> In v out.
Proof.
  intros n ms s reg out v Hn H E Hv Hall. destruct (during_reader _ _ _ _ H) as (e & R & M). rewrite E in M. destruct M as (_ & _ & M).
  destruct (stays_unique _ _ _ _ _ H Hv Hall) as (k & Hk & Hs & _). apply (M k v Hk Hv Hs). exact Hn.
Qed.

(** Without interference a traversal reports the registered hooks, each as often as it is registered. *)
Fixpoint read_all (fuel : nat) (h : hooks) (r : rpc) : rpc :=
  match fuel with
  | O => r
  | S fuel => match r with RLoop i e n out => read_all fuel h (traverse_next h i e n out) | _ => r end
  end.

Lemma read_all_spec h : forall fuel i e n out, 0 <= i -> 0 <= e - i <= n -> e - i < Z.of_nat fuel ->
  read_all fuel h (RLoop i e n out) = RDone (out ++ filter (fun v => negb (v =? 0)) (map (hk_data h) (zseq i (Z.to_nat (e - i))))).
Proof.
  induction fuel as [|fuel IH]; intros i e n out Hi Hn Hf; [lia|]. cbn [read_all]. unfold traverse_next. destruct (Z.ltb_spec i e) as [H|H].
  - replace (0 <? n) with true by lia. cbn [andb]. replace (Z.to_nat (e - i)) with (S (Z.to_nat (e - (i + 1)))) by lia. cbn [zseq map filter].
    destruct (Z.eqb_spec (hk_data h i) 0) as [E|E]; cbn [negb].
    + apply IH; lia.
    + rewrite IH by lia. rewrite <- app_assoc. reflexivity.
  - cbn [andb]. replace (Z.to_nat (e - i)) with O by lia. cbn [zseq map filter]. rewrite app_nil_r. destruct fuel; reflexivity.
Qed.

Definition entries (h : hooks) : list Z := filter (fun v => negb (v =? 0)) (map (hk_data h) (zseq 0 (Z.to_nat k_max_hooks))).

Lemma times_entries h v : v <> 0 -> times v (entries h) = slots h v.
Proof.
  intros Hv. unfold entries, slots. generalize 0 at 2 3 as a. generalize (Z.to_nat k_max_hooks) as n.
  induction n as [|n IH]; intros a; cbn [zseq map filter zcount]; [reflexivity|]. destruct (Z.eqb_spec (hk_data h a) 0) as [E|E]; cbn [negb].
  - rewrite IH. rewrite E. replace (0 =? v) with false by lia. lia.
  - rewrite times_cons, IH. lia.
Qed.

Lemma entries_reg h r reg : hk_ok (Sys h WFree r) reg -> Permutation (entries h) reg.
Proof.
  intros H. apply (Permutation_count_occ Z.eq_dec). intros v. destruct (Z.eq_dec v 0) as [->|Hv].
  - pose proof (ho_zero _ _ H) as Z0. unfold times in Z0. replace (count_occ Z.eq_dec reg 0) with O by lia. apply count_occ_not_In. unfold entries. intros Hin.
    apply filter_In in Hin. destruct Hin as (_ & Hin). discriminate.
  - pose proof (times_entries h v Hv) as E. pose proof (ho_count _ _ H v Hv) as C. cbn [sy_hooks sy_writer ahead] in C. unfold times in *. lia.
Qed.

Lemma entries_below h r reg : hk_ok (Sys h WFree r) reg -> forall i, hk_end h <= i < k_max_hooks -> hk_data h i = 0.
Proof.
  intros H i Hi. pose proof (ho_range _ _ H) as R. cbn [sy_hooks] in R. destruct (Z.eq_dec (hk_data h i) 0) as [|N]; [assumption|].
  destruct (ho_end _ _ H i ltac:(lia) N) as [L|(v & prev & E)]; [cbn [sy_hooks] in L; lia|discriminate].
Qed.

Theorem traverse_quiet : forall h r reg, hk_reach (Sys h WFree r) reg ->
  exists out, read_all 8 h (traverse_begin h 7) = RDone out /\ Permutation out reg.
Proof.
  intros h r reg H. apply hk_reach_ok in H. pose proof (ho_range _ _ H) as R. cbn [sy_hooks] in R. unfold k_max_hooks in R. unfold traverse_begin.
  rewrite read_all_spec by lia. eexists. split; [reflexivity|]. cbn [app]. rewrite <- (entries_reg _ _ _ H). rewrite Z.sub_0_r. unfold entries.
  replace (Z.to_nat k_max_hooks) with (Z.to_nat (hk_end h) + Z.to_nat (k_max_hooks - hk_end h))%nat by (unfold k_max_hooks; lia).
  assert (Ez : forall m a n, zseq a (n + m) = zseq a n ++ zseq (a + Z.of_nat n) m).
  { intros m a n. revert a. induction n as [|n IH]; intros a; cbn [zseq Nat.add app]; [now replace (a + Z.of_nat 0) with a by lia|]. rewrite IH. do 3 f_equal. lia. }
  rewrite Ez, map_app, filter_app. assert (En : filter (fun v => negb (v =? 0)) (map (hk_data h) (zseq (0 + Z.of_nat (Z.to_nat (hk_end h))) (Z.to_nat (k_max_hooks - hk_end h)))) = []).
  { assert (G : forall l, (forall i, In i l -> hk_data h i = 0) -> filter (fun v => negb (v =? 0)) (map (hk_data h) l) = []).
    { induction l as [|x l IH]; intros Hl; [reflexivity|]. cbn [map filter]. rewrite (Hl x (or_introl eq_refl)). cbn. apply IH. intros i Hi. apply Hl. right. assumption. }
    apply G. intros i Hi. apply zseq_In in Hi. apply (entries_below _ _ _ H). lia. }
  rewrite En, app_nil_r. reflexivity.
Qed.

Lemma entries_length h : Z.of_nat (length (entries h)) = k_max_hooks - slots h 0.
Proof.
  unfold entries, slots. assert (G : forall n a, Z.of_nat (length (filter (fun v => negb (v =? 0)) (map (hk_data h) (zseq a n)))) = Z.of_nat n - zcount (fun i => hk_data h i =? 0) a n).
  { induction n as [|n IH]; intros a; cbn [zseq map filter zcount]; [reflexivity|]. specialize (IH (a + 1)). destruct (hk_data h a =? 0); cbn [negb length]; lia. }
  rewrite G. reflexivity.
Qed.

(** With no writer under way: Add is refused exactly for the null hook and when seven hooks are registered, Remove exactly
    for a hook that is not registered, and [empty] tells exactly whether there is none. *)
Theorem hooks_sequential : forall h r reg v, hk_reach (Sys h WFree r) reg ->
  (add_begin h v = None <-> v = 0 \/ length reg = 7%nat) /\ (length reg <= 7)%nat /\
  (remove_begin h v = None <-> v = 0 \/ ~ In v reg) /\
  (hk_empty h = true <-> reg = []).
Proof.
  intros h r reg v H. apply hk_reach_ok in H. pose proof (entries_reg _ _ _ H) as P. pose proof (entries_length h) as L. pose proof (Permutation_length P) as PL.
  pose proof (zcount_bound (fun i => hk_data h i =? 0) (Z.to_nat k_max_hooks) 0) as B. fold (slots h 0) in B. unfold k_max_hooks in L, B.
  assert (Hin : forall u, u <> 0 -> In u reg <-> exists i, 0 <= i < hk_end h /\ hk_data h i = u).
  { intros u Hu. split.
    - intros Hr. apply (Permutation_in _ (Permutation_sym P)) in Hr. unfold entries in Hr. apply filter_In in Hr. destruct Hr as (Hr & _). apply in_map_iff in Hr.
      destruct Hr as (i & E & Hi). apply zseq_In in Hi. exists i. split; [|assumption]. destruct (Z.lt_ge_cases i (hk_end h)); [lia|].
      rewrite (entries_below _ _ _ H i) in E by (unfold k_max_hooks in *; lia). congruence.
    - intros (i & Hi & E). pose proof (ho_range _ _ H) as R. cbn [sy_hooks] in R. apply (Permutation_in _ P). unfold entries. apply filter_In. split; [|lia].
      apply in_map_iff. exists i. split; [assumption|]. apply zseq_In. lia. }
  split; [|split; [lia|split]].
  - unfold add_begin. destruct (Z.eqb_spec v 0) as [->|Nv]; [tauto|]. pose proof (first_at_spec (fun i => hk_data h i =? 0) (Z.to_nat k_max_hooks) 0) as F.
    destruct (first_at _ 0 _) as [i|].
    + destruct F as (F1 & F2 & _). split; [discriminate|]. intros [|F3]; [contradiction|]. pose proof (slots_pos h 0 i ltac:(unfold k_max_hooks in *; lia) ltac:(lia)). lia.
    + split; [|reflexivity]. intros _. right. assert (slots h 0 = 0) by (apply zcount_none; exact F). lia.
  - unfold remove_begin. destruct (Z.eqb_spec v 0) as [->|Nv]; [tauto|]. pose proof (first_at_spec (fun i => hk_data h i =? v) (Z.to_nat (hk_end h)) 0) as F.
    pose proof (ho_range _ _ H) as R. cbn [sy_hooks] in R. rewrite (Hin v Nv). destruct (first_at _ 0 _) as [i|].
    + destruct F as (F1 & F2 & _). split; [discriminate|]. intros [|F3]; [contradiction|]. exfalso. apply F3. exists i. lia.
    + split; [|reflexivity]. intros _. right. intros (i & Hi & E). specialize (F i ltac:(lia)). cbv beta in F. lia.
  - unfold hk_empty. rewrite Z.eqb_eq. split.
    + intros E. destruct reg as [|u reg]; [reflexivity|]. exfalso. assert (Nu : u <> 0) by (intros ->; pose proof (ho_zero _ _ H) as Z0; rewrite times_cons in Z0; pose proof (times_nonneg 0 reg); cbn in Z0; lia).
      destruct (proj1 (Hin u Nu) (or_introl eq_refl)) as (i & Hi & _). lia.
    + intros ->. destruct (ho_top _ _ H) as [T|[T|(? & ? & ?)]]; cbn [sy_hooks] in *; [assumption| |discriminate].
      pose proof (ho_range _ _ H) as R. cbn [sy_hooks] in R. destruct (Z.eq_dec (hk_end h) 0) as [|N]; [assumption|]. exfalso.
      apply (proj2 (Hin _ T)). exists (hk_end h - 1). split; [lia|reflexivity].
Qed.

(** The full claim, that a hook is reported if it is registered at every moment, fails for a hook that is registered
    twice for a while: [5] is in slot 0 when the traversal starts, is added again (slot 1), is removed once (slot 0), and the
    traversal looks at slot 0 only. *)
Theorem traverse_throughout_refuted :
  ~ (forall n ms s reg out v, 7 <= n -> during n ms s reg -> sy_reader s = RDone out -> v <> 0 ->
       (forall x, In x ms -> 1 <= surely_registered x v) -> In v out).
Proof.
  intros F.
  pose proof (hr_write _ _ _ _ hr_init (ws_add hk_init RIdle 5 _ eq_refl)) as R1.
  pose proof (hr_write _ _ _ _ R1 (ws_add_data _ _ _ _ _)) as R2. pose proof (hr_write _ _ _ _ R2 (ws_add_end _ _ _ _ _)) as R3.
  pose proof (du_start 7 _ _ _ R3) as D0.
  pose proof (fun w E => du_write _ _ _ _ _ _ D0 (ws_add _ _ 5 w E)) as D1; specialize (D1 _ eq_refl). pose proof (du_write _ _ _ _ _ _ D1 (ws_add_data _ _ _ _ _)) as D2.
  pose proof (du_write _ _ _ _ _ _ D2 (ws_add_end _ _ _ _ _)) as D3. pose proof (fun w E => du_write _ _ _ _ _ _ D3 (ws_remove _ _ 5 w E)) as D4; specialize (D4 _ eq_refl).
  pose proof (du_write _ _ _ _ _ _ D4 (ws_remove_data _ _ _ _ _)) as D5. pose proof (du_write _ _ _ _ _ _ D5 (ws_remove_end _ _ _ _ _)) as D6.
  pose proof (du_read _ _ _ _ _ D6 (rs_next _ _ _ _ _ _)) as D7. pose proof (du_read _ _ _ _ _ D7 (rs_next _ _ _ _ _ _)) as D8.
  assert (Hin : In 5 []); [|destruct Hin].
  apply (F 7 _ _ _ [] 5 ltac:(lia) D8); [vm_compute; reflexivity|lia|]. apply Forall_forall. repeat constructor; vm_compute; discriminate.
Qed.

(** Nor does a traversal report a hook at most as often as it was registered at any one moment: [5] is seen in slot 0,
    then moves to slot 1. *)
Theorem traverse_multiplicity_refuted :
  ~ (forall n ms s reg out v, 7 <= n -> during n ms s reg -> sy_reader s = RDone out -> v <> 0 ->
       (forall x, In x ms -> maybe_registered x v <= 1) -> times v out <= 1).
Proof.
  intros F.
  pose proof (hr_write _ _ _ _ hr_init (ws_add hk_init RIdle 5 _ eq_refl)) as R1.
  pose proof (hr_write _ _ _ _ R1 (ws_add_data _ _ _ _ _)) as R2. pose proof (hr_write _ _ _ _ R2 (ws_add_end _ _ _ _ _)) as R3.
  pose proof (fun w E => hr_write _ _ _ _ R3 (ws_add _ _ 6 w E)) as R4; specialize (R4 _ eq_refl).
  pose proof (hr_write _ _ _ _ R4 (ws_add_data _ _ _ _ _)) as R5. pose proof (hr_write _ _ _ _ R5 (ws_add_end _ _ _ _ _)) as R6.
  pose proof (du_start 7 _ _ _ R6) as D0. pose proof (du_read _ _ _ _ _ D0 (rs_next _ _ _ _ _ _)) as D1.
  pose proof (fun w E => du_write _ _ _ _ _ _ D1 (ws_remove _ _ 5 w E)) as D2; specialize (D2 _ eq_refl). pose proof (du_write _ _ _ _ _ _ D2 (ws_remove_data _ _ _ _ _)) as D3.
  pose proof (du_write _ _ _ _ _ _ D3 (ws_remove_end _ _ _ _ _)) as D4.
  pose proof (fun w E => du_write _ _ _ _ _ _ D4 (ws_remove _ _ 6 w E)) as D5; specialize (D5 _ eq_refl). pose proof (du_write _ _ _ _ _ _ D5 (ws_remove_data _ _ _ _ _)) as D6.
  pose proof (du_write _ _ _ _ _ _ D6 (ws_remove_end _ _ _ _ _)) as D7.
  pose proof (fun w E => du_write _ _ _ _ _ _ D7 (ws_add _ _ 6 w E)) as D8; specialize (D8 _ eq_refl). pose proof (du_write _ _ _ _ _ _ D8 (ws_add_data _ _ _ _ _)) as D9.
  pose proof (du_write _ _ _ _ _ _ D9 (ws_add_end _ _ _ _ _)) as D10.
  pose proof (fun w E => du_write _ _ _ _ _ _ D10 (ws_add _ _ 5 w E)) as D11; specialize (D11 _ eq_refl). pose proof (du_write _ _ _ _ _ _ D11 (ws_add_data _ _ _ _ _)) as D12.
  pose proof (du_write _ _ _ _ _ _ D12 (ws_add_end _ _ _ _ _)) as D13.
  pose proof (du_read _ _ _ _ _ D13 (rs_next _ _ _ _ _ _)) as D14. pose proof (du_read _ _ _ _ _ D14 (rs_next _ _ _ _ _ _)) as D15.
  assert (Hle : times 5 [5; 5] <= 1); [|vm_compute in Hle; apply Hle; reflexivity].
  apply (F 7 _ _ _ [5; 5] 5 ltac:(lia) D15); [vm_compute; reflexivity|lia|]. apply Forall_forall. repeat constructor; vm_compute; discriminate.
Qed.

(** ** A concrete case

    Hooks 5 and 6 are registered; during a traversal 6 is removed and 7 is added. The traversal has passed slot 0 when 6 goes,
    and reports 5 and 7: the hypotheses of the theorems above are met for 5 with ten moments. *)
Example traverse_example : exists ms s reg,
  during 7 ms s reg /\ sy_reader s = RDone [5; 7] /\ reg = [7; 5] /\ length ms = 10%nat /\
  (forall x, In x ms -> 1 <= surely_registered x 5 /\ maybe_registered x 5 <= 1).
Proof.
  pose proof (hr_write _ _ _ _ hr_init (ws_add hk_init RIdle 5 _ eq_refl)) as R1.
  pose proof (hr_write _ _ _ _ R1 (ws_add_data _ _ _ _ _)) as R2. pose proof (hr_write _ _ _ _ R2 (ws_add_end _ _ _ _ _)) as R3.
  pose proof (fun w E => hr_write _ _ _ _ R3 (ws_add _ _ 6 w E)) as R4; specialize (R4 _ eq_refl).
  pose proof (hr_write _ _ _ _ R4 (ws_add_data _ _ _ _ _)) as R5. pose proof (hr_write _ _ _ _ R5 (ws_add_end _ _ _ _ _)) as R6.
  pose proof (du_start 7 _ _ _ R6) as D0. pose proof (du_read _ _ _ _ _ D0 (rs_next _ _ _ _ _ _)) as D1.
  pose proof (fun w E => du_write _ _ _ _ _ _ D1 (ws_remove _ _ 6 w E)) as D2; specialize (D2 _ eq_refl). pose proof (du_write _ _ _ _ _ _ D2 (ws_remove_data _ _ _ _ _)) as D3.
  pose proof (du_write _ _ _ _ _ _ D3 (ws_remove_end _ _ _ _ _)) as D4.
  pose proof (fun w E => du_write _ _ _ _ _ _ D4 (ws_add _ _ 7 w E)) as D5; specialize (D5 _ eq_refl). pose proof (du_write _ _ _ _ _ _ D5 (ws_add_data _ _ _ _ _)) as D6.
  pose proof (du_write _ _ _ _ _ _ D6 (ws_add_end _ _ _ _ _)) as D7.
  pose proof (du_read _ _ _ _ _ D7 (rs_next _ _ _ _ _ _)) as D8. pose proof (du_read _ _ _ _ _ D8 (rs_next _ _ _ _ _ _)) as D9.
  do 3 eexists. split; [exact D9|]. split; [vm_compute; reflexivity|]. split; [vm_compute; reflexivity|]. split; [reflexivity|].
  apply Forall_forall. repeat constructor; vm_compute; discriminate.
Qed.

Print Assumptions traverse_only_registered.
Print Assumptions traverse_all_registered.
Print Assumptions traverse_quiet.
Print Assumptions hooks_sequential.
Print Assumptions traverse_throughout_refuted.
Print Assumptions traverse_multiplicity_refuted.
Print Assumptions traverse_example.
