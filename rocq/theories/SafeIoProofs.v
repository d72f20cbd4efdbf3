(** Lemmas for C60. *)
From Verif Require Import Base CpuList CpuListProps SafeIo.

(** ** signal_safe_read *)

Lemma safe_poll_spec polls errno p e r : safe_poll polls errno = (p, e, r) ->
  exists cp, polls = cp ++ r /\
    (p = 1 \/ (p = 0 /\ In PNone cp) \/ (p = -1 /\ In (PFail e) cp)) /\
    (p = -1 \/ e = errno \/ e = EINTR).
Proof.
  revert errno. induction polls as [|x polls IH]; intros errno E; cbn [safe_poll] in E.
  - injection E as <- <- <-. exists []. split; [reflexivity|]. split; [now left|right; now left].
  - destruct x as [|f| |].
    + apply IH in E as (cp & -> & A & B). exists (PIntr :: cp). split; [reflexivity|]. split; [|intuition].
      destruct A as [A|[(A & B')|(A & B')]]; [now left|right; left; split; [exact A|now right]|right; right; split; [exact A|now right]].
    + injection E as <- <- <-. exists [PFail f]. split; [reflexivity|]. split; [right; right; split; [reflexivity|now left]|now left].
    + injection E as <- <- <-. exists [PNone]. split; [reflexivity|]. split; [right; left; split; [reflexivity|now left]|right; now left].
    + injection E as <- <- <-. exists [PReady]. split; [reflexivity|]. split; [now left|right; now left].
Qed.

(** What one read(2) does. *)
Lemma sys_read_spec w n w' r e : sys_read w n = (w', r, e) ->
  s_polls w' = s_polls w /\
  match r with
  | Some b => s_rest w = b ++ s_rest w' /\ (length b <= n)%nat /\ (b = [] -> n = O \/ s_rest w = []) /\
      ((s_reads w = [] /\ s_reads w' = [] /\ (length b = n \/ s_rest w' = [])) \/ (exists k, s_reads w = RGive k :: s_reads w'))
  | None => s_rest w' = s_rest w /\ ((s_reads w = RIntr :: s_reads w' /\ e = EINTR) \/ s_reads w = RFail e :: s_reads w')
  end.
Proof.
  assert (G : forall k b, b = firstn (Nat.min n (Nat.max 1 k)) (s_rest w) ->
    s_rest w = b ++ skipn (length b) (s_rest w) /\ (length b <= n)%nat /\ (b = [] -> n = O \/ s_rest w = [])).
  { intros k b ->. rewrite firstn_length. split; [|split].
    - generalize (Nat.min n (Nat.max 1 k)). intros j. destruct (Nat.le_ge_cases j (length (s_rest w))) as [H|H].
      + rewrite Nat.min_l by lia. symmetry. apply firstn_skipn.
      + rewrite Nat.min_r by lia. rewrite firstn_all2, skipn_all2 by lia. now rewrite app_nil_r.
    - lia.
    - intros E. destruct (s_rest w) as [|x l]; [now right|]. left. destruct n as [|n']; [reflexivity|]. exfalso.
      destruct (Nat.min (S n') (Nat.max 1 k)) as [|j] eqn:M; [lia|]. cbn in E. discriminate. }
  unfold sys_read. destruct (s_reads w) as [|[|f|k] rs] eqn:Er; intros E; apply pair_equal_spec in E as (E & <-); apply pair_equal_spec in E as (<- & <-); cbn [s_polls s_rest s_reads tl]; (split; [reflexivity|]).
  - specialize (G n _ eq_refl). destruct G as (A & B & C). split; [exact A|]. split; [exact B|]. split; [exact C|]. left. split; [reflexivity|]. split; [reflexivity|].
    destruct (Nat.le_ge_cases n (length (s_rest w))) as [H|H].
    + left. rewrite firstn_length. lia.
    + right. apply skipn_all2. rewrite firstn_length. lia.
  - split; [reflexivity|]. left. split; reflexivity.
  - split; [reflexivity|]. right. reflexivity.
  - specialize (G k _ eq_refl). destruct G as (A & B & C). split; [exact A|]. split; [exact B|]. split; [exact C|]. right. exists k. reflexivity.
Qed.

Definition need (w : source) : nat := (length (s_reads w) + match s_rest w with [] => 1 | _ => 2 end)%nat.

(** A failure that is not an interruption, among the outcomes used. *)
Definition failed_read (cr : list read_event) : Prop := exists e, e <> EINTR /\ In (RFail e) cr.
Definition failed_poll (cp : list poll_event) : Prop := exists e, In (PFail e) cp.

Lemma read_loop_spec fuel : forall w count got errno, (length got <= count)%nat -> (got <> [] -> (length got < count)%nat) ->
  (need w <= fuel)%nat ->
  exists w' rc e more cr cp, read_loop fuel w count got errno = Some (w', rc, e, got ++ more) /\
    s_rest w = more ++ s_rest w' /\ (length (got ++ more) <= count)%nat /\
    s_reads w = cr ++ s_reads w' /\ s_polls w = cp ++ s_polls w' /\
    (rc = None -> e <> EINTR -> failed_read cr \/ failed_poll cp) /\
    (got ++ more = [] -> (rc <> None \/ e = EINTR) -> count = O \/ s_rest w = []) /\
    ((rc <> None \/ e = EINTR) -> (length (got ++ more) < count)%nat -> s_rest w' = [] \/ In PNone cp \/ failed_poll cp).
Proof.
  induction fuel as [|fuel IH]; intros w count got errno Hg Hg' Hf; [unfold need in Hf; destruct (s_rest w); lia|].
  cbn [read_loop]. destruct (sys_read w (count - length got)) as ((w1 & r) & e1) eqn:Es.
  apply sys_read_spec in Es as (Sp & Sr). cbv zeta.
  destruct r as [b|].
  - destruct Sr as (R1 & R2 & R3 & R4). cbn [option_map].
    assert (Hcr : exists cr, s_reads w = cr ++ s_reads w1 /\ ~ failed_read cr).
    { destruct R4 as [(A & B & _)|(k & A)]; [exists []; rewrite A, B; split; [reflexivity|intros (e & _ & [])]|].
      exists [RGive k]. rewrite A. split; [reflexivity|]. intros (e & _ & [H|[]]). discriminate. }
    destruct Hcr as (cr1 & Hcr1 & Nf1).
    destruct (length b) as [|lb] eqn:Eb.
    + destruct b; [|discriminate]. exists w1, (Some O), errno, [], cr1, []. rewrite app_nil_r in *. split; [reflexivity|]. split; [exact R1|]. split; [lia|]. split; [exact Hcr1|].
      split; [rewrite Sp; reflexivity|]. split; [discriminate|]. split.
      * intros -> _. cbn in R3. destruct (R3 eq_refl) as [H|H]; [left; lia|right; exact H].
      * intros _ Hl. left. destruct (R3 eq_refl) as [H|H]; [lia|]. rewrite H in R1. cbn in R1. congruence.
    + assert (Hb : b <> []) by (intros ->; discriminate).
      assert (Hl : length (got ++ b) = (length got + S lb)%nat) by (rewrite app_length; lia).
      destruct (Nat.ltb_spec (length (got ++ b)) count) as [Lt|Ge].
      * cbn [andb orb]. destruct (safe_poll (s_polls w1) errno) as ((p & e2) & pr) eqn:Ep.
        pose proof (safe_poll_spec _ _ _ _ _ Ep) as (cp1 & Hcp & Pp & Pe).
        replace (Nat.eqb (length (got ++ b)) 0) with false by (rewrite Hl; reflexivity || (symmetry; apply Nat.eqb_neq; lia)).
        rewrite orb_false_r.
        destruct (Z.eqb_spec p 1) as [->|Np].
        -- destruct (IH (mk_source (s_rest w1) (s_reads w1) pr) count (got ++ b) e2) as (w' & rc & e & more & cr & cp & E & K1 & K2 & K3 & K4 & K5 & K6 & K7).
           { lia. } { intros _. exact Lt. }
           { unfold need in *. cbn [s_rest s_reads]. destruct (s_rest w) as [|x l] eqn:Ew; [destruct b; [congruence|discriminate]|].
             destruct R4 as [(A & B & [C|C])|(k & A)].
             - rewrite app_length in Lt. lia.
             - rewrite C, B. rewrite A in Hf. cbn in *. lia.
             - rewrite A in Hf. cbn [length] in Hf. destruct (s_rest w1); lia. }
           exists w', rc, e, (b ++ more), (cr1 ++ cr), (cp1 ++ cp). cbn [s_rest s_reads s_polls] in *. rewrite <- !app_assoc in *. rewrite E.
           split; [reflexivity|]. split; [rewrite R1, K1; reflexivity|]. split; [exact K2|].
           split; [rewrite Hcr1, K3; reflexivity|]. split; [rewrite <- Sp, Hcp, K4; reflexivity|].
           split; [|split].
           ++ intros A B. destruct (K5 A B) as [(f & F1 & F2)|(f & F1)]; [left; exists f; split; [exact F1|apply in_or_app; now right]|right; exists f; apply in_or_app; now right].
           ++ intros A. apply (f_equal (@length Z)) in A. rewrite !app_length, Eb in A. cbn in A. lia.
           ++ intros A B. destruct (K7 A B) as [F|[F|(f & F)]]; [now left|right; left; apply in_or_app; now right|right; right; exists f; apply in_or_app; now right].
        -- exists (mk_source (s_rest w1) (s_reads w1) pr), (Some (S lb)), e2, b, cr1, cp1. cbn [s_rest s_reads s_polls].
           split; [reflexivity|]. split; [exact R1|]. split; [lia|]. split; [exact Hcr1|]. split; [rewrite <- Sp, Hcp; reflexivity|]. split; [discriminate|].
           split; [intros A; rewrite A in Hl; cbn in Hl; lia|]. intros _ _. right. destruct Pp as [A|[(A & B)|(A & B)]]; [lia|now left|right; exists e2; exact B].
      * cbn [andb]. exists w1, (Some (S lb)), errno, b, cr1, []. split; [reflexivity|]. split; [exact R1|]. split; [rewrite app_length; lia|]. split; [exact Hcr1|].
        split; [rewrite Sp; reflexivity|]. split; [discriminate|]. split; [intros A; rewrite A in Hl; cbn in Hl; lia|]. intros _ A. lia.
  - destruct Sr as (R1 & R2). cbn [option_map].
    assert (Hcr : exists ev, s_reads w = ev :: s_reads w1 /\ (ev = RFail e1 \/ (ev = RIntr /\ e1 = EINTR))).
    { destruct R2 as [(A & B)|A]; [exists RIntr; tauto|exists (RFail e1); tauto]. }
    destruct Hcr as (ev & Hev & Hev'). cbn [orb].
    destruct (Nat.ltb (length got) count && (e1 =? EINTR)) eqn:Ec.
    + apply andb_true_iff in Ec as (Ec1 & Ec2). apply Nat.ltb_lt in Ec1. apply Z.eqb_eq in Ec2. subst e1.
      destruct (safe_poll (s_polls w1) EINTR) as ((p & e2) & pr) eqn:Ep.
      pose proof (safe_poll_spec _ _ _ _ _ Ep) as (cp1 & Hcp & Pp & Pe).
      destruct ((p =? 1) || Nat.eqb (length got) 0) eqn:Eg.
      * destruct (IH (mk_source (s_rest w1) (s_reads w1) pr) count got e2) as (w' & rc & e & more & cr & cp & E & K1 & K2 & K3 & K4 & K5 & K6 & K7).
        { exact Hg. } { exact Hg'. }
        { unfold need in *. cbn [s_rest s_reads]. rewrite R1. rewrite Hev in Hf. cbn [length] in Hf. lia. }
        exists w', rc, e, more, (ev :: cr), (cp1 ++ cp). cbn [s_rest s_reads s_polls] in *. rewrite E. split; [reflexivity|]. split; [rewrite <- R1; exact K1|].
        split; [exact K2|]. split; [rewrite Hev, K3; reflexivity|]. split; [rewrite <- Sp, Hcp, K4; apply app_assoc|]. split; [|split].
        -- intros A B. destruct (K5 A B) as [(f & F1 & F2)|(f & F1)]; [left; exists f; split; [exact F1|now right]|right; exists f; apply in_or_app; now right].
        -- intros A B. rewrite <- R1. apply K6; assumption.
        -- intros A B. destruct (K7 A B) as [F|[F|(f & F)]]; [now left|right; left; apply in_or_app; now right|right; right; exists f; apply in_or_app; now right].
      * apply orb_false_iff in Eg as (Eg1 & Eg2). apply Z.eqb_neq in Eg1. apply Nat.eqb_neq in Eg2.
        exists (mk_source (s_rest w1) (s_reads w1) pr), None, e2, [], [ev], cp1. cbn [s_rest s_reads s_polls app]. rewrite app_nil_r.
        split; [reflexivity|]. split; [symmetry; exact R1|]. split; [exact Hg|]. split; [exact Hev|]. split; [rewrite <- Sp; exact Hcp|]. split; [|split].
        -- intros _ B. right. destruct Pp as [A|[(A & C)|(A & C)]]; [lia| |exists e2; exact C]. exfalso. apply B. destruct Pe as [P|[P|P]]; [lia|exact P|exact P].
        -- intros A. rewrite A in Eg2. cbn in Eg2. lia.
        -- intros _ _. right. destruct Pp as [A|[(A & C)|(A & C)]]; [lia|now left|right; exists e2; exact C].
    + exists w1, None, e1, [], [ev], []. cbn [app]. rewrite app_nil_r. split; [reflexivity|]. split; [symmetry; exact R1|]. split; [exact Hg|]. split; [exact Hev|].
      split; [rewrite Sp; reflexivity|]. split; [|split].
      * intros _ B. left. exists e1. split; [exact B|]. left. destruct Hev' as [H|(_ & H)]; [exact H|congruence].
      * intros -> [A|A]; [congruence|]. subst e1. rewrite andb_true_r in Ec. apply Nat.ltb_ge in Ec. left. cbn in Ec. lia.
      * intros [A|A] B; [congruence|]. subst e1. rewrite andb_true_r in Ec. apply Nat.ltb_ge in Ec. lia.
Qed.

Lemma safe_read_spec w count : exists w' rc got cr cp, safe_read w count = Some (w', rc, got) /\
  s_rest w = got ++ s_rest w' /\ (length got <= count)%nat /\ s_reads w = cr ++ s_reads w' /\ s_polls w = cp ++ s_polls w' /\
  ((rc = None /\ (failed_read cr \/ failed_poll cp)) \/
   (rc = Some (length got) /\ (got = [] -> count = O \/ s_rest w = []) /\
    ((length got < count)%nat -> s_rest w' = [] \/ In PNone cp \/ failed_poll cp))).
Proof.
  destruct (read_loop_spec (length (s_reads w) + 3) w count [] 0) as (w' & rc & e & more & cr & cp & E & K1 & K2 & K3 & K4 & K5 & K6 & K7).
  { cbn. lia. } { congruence. } { unfold need. destruct (s_rest w); lia. }
  cbn [app] in *. unfold safe_read. rewrite E. cbn [obind]. eexists w', _, more, cr, cp. split; [reflexivity|]. split; [exact K1|]. split; [exact K2|]. split; [exact K3|]. split; [exact K4|].
  destruct rc as [k|].
  - right. split; [reflexivity|]. split; [intros A; apply K6; [exact A|left; discriminate]|intros A; apply K7; [left; discriminate|exact A]].
  - destruct (Z.eqb_spec e EINTR) as [->|Ne].
    + right. split; [reflexivity|]. split; [intros A; apply K6; [exact A|now right]|intros A; apply K7; [now right|exact A]].
    + left. split; [reflexivity|]. apply K5; [reflexivity|exact Ne].
Qed.

(** ** signal_safe_write *)
Lemma safe_write_spec fuel : forall out events buf total, (total <= length buf)%nat -> (length events + 2 <= fuel)%nat ->
  exists out' rc total', safe_write fuel out events buf total = Some (out', rc, total') /\
    out' = out ++ firstn (total' - total) (skipn total buf) /\ (total <= total' <= length buf)%nat /\
    match rc with
    | None => exists e, e <> EINTR /\ In (WFail e) events
    | Some O => total' = length buf \/ In (WTake 0) events
    | Some _ => total' = length buf
    end.
Proof.
  induction fuel as [|fuel IH]; intros out events buf total Ht Hf; [lia|].
  set (take := fun (k : nat) (r : list write_event) =>
    let b := firstn k (skipn total buf) in
    if Nat.ltb 0 (length b) && Nat.ltb (total + length b) (length buf) then safe_write fuel (out ++ b) r buf (total + length b)
    else Some (out ++ b, Some (length b), (total + length b)%nat)).
  assert (U : safe_write (S fuel) out events buf total = match events with
    | [] => take (length (skipn total buf)) []
    | WTake k :: r => take k r
    | WIntr :: r => safe_write fuel out r buf total
    | WFail e :: r => if e =? EINTR then safe_write fuel out r buf total else Some (out, None, total)
    end) by (destruct events as [|[]]; reflexivity).
  rewrite U. clear U.
  assert (G : forall k r, (length r + 2 <= fuel)%nat \/ (length buf - total <= k)%nat -> exists out' rc total', take k r = Some (out', rc, total') /\
    out' = out ++ firstn (total' - total) (skipn total buf) /\ (total <= total' <= length buf)%nat /\
    match rc with
    | None => exists e, e <> EINTR /\ In (WFail e) r
    | Some O => total' = length buf \/ k = O \/ In (WTake 0) r
    | Some _ => total' = length buf
    end).
  { intros k r Hr. unfold take. cbv zeta. clear take. set (b := firstn k (skipn total buf)).
    assert (Lb : length b = Nat.min k (length buf - total)) by (unfold b; rewrite firstn_length, skipn_length; reflexivity).
    assert (Fb : firstn (length b) (skipn total buf) = b).
    { rewrite Lb. unfold b. destruct (Nat.le_ge_cases k (length buf - total)); [rewrite Nat.min_l by lia; reflexivity|].
      rewrite Nat.min_r by lia. rewrite !firstn_all2; try reflexivity; rewrite skipn_length; lia. }
    destruct (Nat.ltb_spec 0 (length b)) as [P|P]; destruct (Nat.ltb_spec (total + length b) (length buf)) as [Q|Q]; cbn [andb].
    - destruct (IH (out ++ b) r buf (total + length b)%nat) as (out' & rc & total' & E & A & B & C); [lia|lia|]. exists out', rc, total'. split; [exact E|].
      split; [|split; [lia|destruct rc as [[|]|]; tauto]].
      rewrite A, <- app_assoc. f_equal. replace (total' - total)%nat with (length b + (total' - (total + length b)))%nat by lia.
      rewrite <- (firstn_skipn (length b) (skipn total buf)) at 1. rewrite firstn_app. rewrite Fb. rewrite (@firstn_all2 Z (length b + (total' - (total + length b))) b) by lia. f_equal.
      replace (length b + (total' - (total + length b)) - length b)%nat with (total' - (total + length b))%nat by lia.
      f_equal. generalize (length b). clear. intros j. revert buf. induction total as [|t IHt]; intros buf; [reflexivity|]. destruct buf; cbn; [destruct j; reflexivity|apply IHt].
    - exists (out ++ b), (Some (length b)), (total + length b)%nat. split; [reflexivity|]. replace (total + length b - total)%nat with (length b) by lia. rewrite Fb.
      split; [reflexivity|]. split; [lia|]. destruct (length b); lia.
    - exists (out ++ b), (Some (length b)), (total + length b)%nat. split; [reflexivity|]. replace (total + length b - total)%nat with (length b) by lia. rewrite Fb.
      split; [reflexivity|]. split; [lia|]. destruct (length b) eqn:El; [|lia]. right. left. lia.
    - exists (out ++ b), (Some (length b)), (total + length b)%nat. split; [reflexivity|]. replace (total + length b - total)%nat with (length b) by lia. rewrite Fb.
      split; [reflexivity|]. split; [lia|]. destruct (length b) eqn:El; [|lia]. left. lia. }
  clearbody take. destruct events as [|[|e|k] r]; cbn [length] in Hf.
  - destruct (G (length (skipn total buf)) []) as (out' & rc & total' & E & A & B & C); [right; rewrite skipn_length; lia|]. exists out', rc, total'.
    split; [exact E|]. split; [exact A|]. split; [exact B|]. destruct rc as [[|]|]; [|exact C|exact C]. destruct C as [C|[C|[]]]; [now left|]. rewrite skipn_length in C. left. lia.
  - destruct (IH out r buf total Ht ltac:(lia)) as (out' & rc & total' & E & A & B & C). exists out', rc, total'. split; [exact E|]. split; [exact A|]. split; [exact B|].
    destruct rc as [[|]|]; [|exact C|]; [destruct C as [C|C]; [now left|right; now right]|]. destruct C as (f & F1 & F2). exists f. split; [exact F1|now right].
  - destruct (Z.eqb_spec e EINTR) as [->|Ne].
    + destruct (IH out r buf total Ht ltac:(lia)) as (out' & rc & total' & E & A & B & C). exists out', rc, total'. split; [exact E|]. split; [exact A|]. split; [exact B|].
      destruct rc as [[|]|]; [|exact C|]; [destruct C as [C|C]; [now left|right; now right]|]. destruct C as (f & F1 & F2). exists f. split; [exact F1|now right].
    + exists out, None, total. split; [reflexivity|]. rewrite Nat.sub_diag. cbn [firstn]. rewrite app_nil_r. split; [reflexivity|]. split; [lia|]. exists e. split; [exact Ne|now left].
  - destruct (G k r) as (out' & rc & total' & E & A & B & C); [left; lia|]. exists out', rc, total'. split; [exact E|]. split; [exact A|]. split; [exact B|].
    destruct rc as [[|]|]; [|exact C|]; [destruct C as [C|[C|C]]; [now left|right; left; now rewrite C|right; now right]|]. destruct C as (f & F1 & F2). exists f. split; [exact F1|now right].
Qed.

(** ** SafeCopyMemory *)
Lemma chunk_sum mem chunks : Z.of_nat (length (flat_map (chunk_bytes mem) chunks)) = zsum (map (fun c => Z.of_nat (snd c)) chunks).
Proof.
  induction chunks as [|c l IH]; [reflexivity|]. cbn [flat_map map]. rewrite app_length, Nat2Z.inj_add, IH. unfold chunk_bytes at 1. rewrite map_length, zseq_length. reflexivity.
Qed.
Lemma all_mapped (l : list (option Z)) : forallb (fun b => match b with Some _ => true | None => false end) l = true ->
  map Some (map (fun b => match b with Some v => v | None => 0 end) l) = l.
Proof. induction l as [|[v|] l IH]; cbn; intros H; [reflexivity| |discriminate]. rewrite IH by exact H. reflexivity. Qed.
Lemma mapped_all (bytes : list Z) : forallb (fun b => match b with Some _ => true | None => false end) (map Some bytes) = true.
Proof. induction bytes; [reflexivity|exact IHbytes]. Qed.
Lemma copy_batches_spec fuel : forall mem part chunks dst, (length chunks < fuel)%nat ->
  exists dst' ok, copy_batches fuel mem part chunks dst = Some (dst', ok) /\
    (ok = true -> exists bytes, dst' = dst ++ bytes /\ map Some bytes = flat_map (chunk_bytes mem) chunks) /\
    (forall bytes, map Some bytes = flat_map (chunk_bytes mem) chunks -> ok = true).
Proof.
  induction fuel as [|fuel IH]; intros mem part chunks dst Hf; [lia|]. cbn [copy_batches]. destruct chunks as [|c l]; cbv zeta.
  - exists dst, true. split; [reflexivity|]. split; [|reflexivity]. intros _. exists []. rewrite app_nil_r. split; reflexivity.
  - set (all := c :: l) in *. assert (Sk : flat_map (chunk_bytes mem) all = flat_map (chunk_bytes mem) (firstn k_max_iov all) ++ flat_map (chunk_bytes mem) (skipn k_max_iov all)).
    { rewrite <- flat_map_app, firstn_skipn. reflexivity. }
    unfold vm_readv. destruct (forallb _ (flat_map (chunk_bytes mem) (firstn k_max_iov all))) eqn:Ef.
    + rewrite chunk_sum, Z.eqb_refl. pose proof (all_mapped _ Ef) as Am.
      set (b := map (fun b => match b with Some v => v | None => 0 end) (flat_map (chunk_bytes mem) (firstn k_max_iov all))) in *.
      destruct (IH mem part (skipn k_max_iov all) (dst ++ b)) as (dst' & ok & E & A & B).
      { rewrite skipn_length. unfold all, k_max_iov in *. cbn [length] in *. lia. }
      exists dst', ok. split; [exact E|]. split.
      * intros Ho. destruct (A Ho) as (bytes & -> & Hb). exists (b ++ bytes). rewrite app_assoc. split; [reflexivity|]. rewrite map_app, Am, Hb. symmetry. exact Sk.
      * intros bytes Hb. apply (B (skipn (length b) bytes)). rewrite Sk in Hb. rewrite <- skipn_map, Hb.
        assert (L : length (flat_map (chunk_bytes mem) (firstn k_max_iov all)) = length b) by (unfold b; now rewrite map_length).
        rewrite <- L. rewrite skipn_app, skipn_all, Nat.sub_diag. reflexivity.
    + assert (Nn : ((if (0 <=? part) && (part <? Z.of_nat (length (flat_map (chunk_bytes mem) (firstn k_max_iov all)))) then part else -1) =?
                    zsum (map (fun c => Z.of_nat (snd c)) (firstn k_max_iov all))) = false).
      { rewrite <- (chunk_sum mem). apply Z.eqb_neq. destruct ((0 <=? part) && _) eqn:Ep; lia. }
      rewrite Nn. exists dst, false. split; [reflexivity|]. split; [discriminate|]. intros bytes Hb. exfalso. rewrite Sk in Hb.
      assert (X : forallb (fun b => match b with Some _ => true | None => false end) (flat_map (chunk_bytes mem) (firstn k_max_iov all) ++ flat_map (chunk_bytes mem) (skipn k_max_iov all)) = true)
        by (rewrite <- Hb; apply mapped_all). rewrite forallb_app, Ef in X. discriminate.
Qed.
