(** * Giving memory back: on request (C48), at a constant rate (C49), and the background loop (C50)

    Specification.  A history is a sequence of requests made through one releaser, with anything happening to the page heaps in
    between.  Of every request we note how many bytes were asked for, what was returned, and the calls to the heaps
    ([plays], [got_total], [asks_missing]: LimitsProps.v).  [given cf c] is the number of bytes the heaps gave back in request [c];
    [short cf c] is by how much the heaps stayed behind what they were asked for. *)
From Coq Require Import Sorted.
From Verif Require Import Base Limits LimitsProps Releaser.

Record request := Request { rq_bytes : Z; rq_ret : Z; rq_log : list call }.
Definition given (cf : config) (c : request) : Z := got_total (rq_log c) * cf_page cf.
Definition first_asked (log : list call) : Z := match log with [] => 0 | c :: _ => ca_asked c end.
Definition short (cf : config) (c : request) : Z := Z.max 0 (first_asked (rq_log c) * cf_page cf - given cf c).

(** Heaps report no negative number of pages. *)
Definition sane {W} (rel : op W) (cf : config) : Prop := forall w h n w' got, In h (heaps cf) -> 0 <= n -> rel w h n = (w', got) -> 0 <= got.

(** [rl_runs rel cf reqs extra]: the requests [reqs] were made one after the other; [extra] is what the releaser then remembers. *)
Inductive rl_runs {W} (rel : op W) (cf : config) : list request -> Z -> Prop :=
| rr_start : rl_runs rel cf [] 0
| rr_request reqs extra w n w' extra' ret log : rl_runs rel cf reqs extra -> 0 <= n -> rl_release rel cf w extra n = (w', extra', ret, log) ->
    rl_runs rel cf (reqs ++ [Request n ret log]) extra'.

Definition total (f : request -> Z) (reqs : list request) : Z := zsum (map f reqs).

(** ** Lemmas *)

Lemma total_snoc f reqs c : total f (reqs ++ [c]) = total f reqs + f c.
Proof. unfold total. rewrite map_app, zsum_app. cbn [map]. rewrite zsum_cons. change (zsum []) with 0. lia. Qed.

Lemma release_from_log {W} (rel : op W) n : forall hs w r log w' r' log', release_from rel hs n w r log = (w', r', log') ->
  map ca_heap log' = map ca_heap log ++ hs.
Proof.
  induction hs as [|h hs IH]; intros w r log w' r' log' E; cbn [release_from] in E; [inversion E; subst; rewrite app_nil_r; reflexivity|].
  destruct (rel w h _) as (w1, got). rewrite (IH _ _ _ _ _ _ E), map_app. cbn [map ca_heap]. rewrite <- app_assoc. reflexivity.
Qed.

Lemma release_from_unbroken {W} (rel : op W) n : forall hs w r log w' r' log', release_from rel hs n w r log = (w', r', log') ->
  forall c, In c log' -> In c log \/ ca_break c = false.
Proof.
  induction hs as [|h hs IH]; intros w r log w' r' log' E c Hc; cbn [release_from] in E; [inversion E; subst; left; assumption|].
  destruct (rel w h _) as (w1, got). destruct (IH _ _ _ _ _ _ E c Hc) as [H|H]; [|right; assumption].
  apply in_app_or in H. destruct H as [H|[<-|[]]]; [left; assumption|right; reflexivity].
Qed.

Lemma plays_sane {W} (rel : op W) cf : sane rel cf -> forall log w w', (forall c, In c log -> In (ca_heap c) (heaps cf) /\ 0 <= ca_asked c) -> plays rel rel w log w' -> 0 <= got_total log.
Proof.
  intros Hs. induction log as [|c log IH]; intros w w' Hin P; [reflexivity|]. cbn [plays] in P. replace (if ca_break c then rel else rel) with rel in P by (destruct (ca_break c); reflexivity).
  destruct (rel w (ca_heap c) (ca_asked c)) as (w1, got) eqn:E. destruct P as (Eg & P). destruct (Hin c (or_introl eq_refl)) as (A & B). pose proof (Hs _ _ _ _ _ A B E).
  specialize (IH w1 w' ltac:(intros d Hd; apply Hin; right; assumption) P). unfold got_total in *. cbn [map]. rewrite zsum_cons. lia.
Qed.

Lemma heaps_nonempty cf : exists h hs, heaps cf = h :: hs.
Proof.
  unfold heaps. destruct (if cf_cold cf then [Cold] else []) as [|h l]; [|exists h; eexists; reflexivity]. cbn [app].
  destruct (map Normal (seq 0 (cf_partitions cf))) as [|h l]; [|exists h; eexists; reflexivity]. cbn [app]. destruct (cf_sampled cf); eexists _, _; reflexivity.
Qed.

(** ** C48: releasing on request *)

(** One request: the bytes that are due are those asked for less what was given back in excess by the request before.  The
    heaps, all of them and in order, are asked for the pages that cover the due bytes, each for what is still missing.  The bytes returned
    are those given back, but no more than are due; what was given back beyond is remembered. *)
Theorem release_request : forall W (rel : op W) cf w extra n w' extra' ret log, 0 < cf_page cf -> sane rel cf -> 0 <= extra -> 0 <= n ->
  rl_release rel cf w extra n = (w', extra', ret, log) ->
  let due := Z.max 0 (n - extra) in
  let back := got_total log * cf_page cf in
  plays rel rel w log w' /\ map ca_heap log = heaps cf /\ (forall c, In c log -> ca_break c = false) /\
  (exists pages, due <= pages * cf_page cf < due + cf_page cf /\ asks_missing pages log /\ first_asked log = pages) /\
  0 <= back /\ ret = Z.min due back /\ extra' = Z.max 0 (back - due).
Proof.
  intros W rel cf w extra n w' extra' ret log Hp Hs He Hn E due back. unfold rl_release in E.
  set (d := if n <=? extra then (extra - n, 0) else (extra, n - extra)) in E. assert (Ed : exists x, d = (x, due)) by (unfold d, due; destruct (Z.leb_spec n extra); eexists; f_equal; lia).
  destruct Ed as (x & Ed). rewrite Ed in E. clear d Ed. assert (Hd : 0 <= due) by (unfold due; lia).
  set (pages := if 0 <? due then pages_ceil cf due else 0) in E. assert (Hc : due <= pages * cf_page cf < due + cf_page cf).
  { unfold pages. destruct (Z.ltb_spec 0 due); [apply ceil_covers; lia|lia]. }
  destruct (release rel cf pages w) as ((w1, r), log1) eqn:Er. unfold release in Er. pose proof (release_from_log _ _ _ _ _ _ _ _ _ Er) as Hl. cbn [map app] in Hl.
  assert (Hb : forall c, In c log1 -> ca_break c = false) by (intros c Hc1; destruct (release_from_unbroken _ _ _ _ _ _ _ _ _ Er c Hc1) as [[]|]; assumption).
  destruct (release_from_spec rel rel pages (heaps cf) w w [] w1 r log1 Er eq_refl) as (P & Eg & A & _ & _).
  { intros pre c post F. destruct pre; discriminate. }
  assert (Hf : first_asked log1 = pages).
  { destruct (heaps_nonempty cf) as (h & hs & Eh). rewrite Eh in Hl. destruct log1 as [|c l]; [discriminate|]. cbn [first_asked]. rewrite (A [] c l eq_refl). change (got_total []) with 0. assert (0 <= pages) by nia. lia. }
  assert (Hg : 0 <= got_total log1).
  { apply (plays_sane rel cf Hs log1 w w1); [|assumption]. intros c Hc1. split; [rewrite <- Hl; apply in_map; assumption|]. apply in_split in Hc1. destruct Hc1 as (l1 & l2 & F). rewrite (A _ _ _ F). lia. }
  subst r. assert (H0 : 0 <= got_total log1 * cf_page cf) by nia. destruct (Z.ltb_spec due (got_total log1 * cf_page cf)); inversion E; subst; unfold back.
  - split; [assumption|]. split; [assumption|]. split; [assumption|]. split; [exists pages; auto|]. lia.
  - split; [assumption|]. split; [assumption|]. split; [assumption|]. split; [exists pages; auto|]. lia.
Qed.
Print Assumptions release_request.

(** What a request reports is no more than was asked for, and no more than the memory in use has become less by. *)
Theorem release_reported : forall W (rel : op W) (backed : W -> Z) cf w extra n w' extra' ret log, 0 < cf_page cf -> 0 <= extra -> 0 <= n ->
  (forall v h m v' got, In h (heaps cf) -> 0 <= m -> rel v h m = (v', got) -> 0 <= got /\ backed v' = backed v - got * cf_page cf) ->
  rl_release rel cf w extra n = (w', extra', ret, log) -> 0 <= ret <= n /\ ret <= backed w - backed w' /\ (extra = 0 -> n <= ret \/ ret = backed w - backed w').
Proof.
  intros W rel backed cf w extra n w' extra' ret log Hp He Hn Hb E. assert (Hs : sane rel cf) by (intros v h m v' got A B C; apply (Hb v h m v' got A B C)).
  destruct (release_request _ _ _ _ _ _ _ _ _ _ Hp Hs He Hn E) as (P & Hl & _ & (pages & Hc & A & _) & H0 & Hr & _).
  assert (G : forall l v v', (forall c, In c l -> In (ca_heap c) (heaps cf) /\ 0 <= ca_asked c) -> plays rel rel v l v' -> backed v' = backed v - got_total l * cf_page cf).
  { induction l as [|c l IH]; intros v v' Hin Pl; cbn [plays] in Pl; [subst; unfold got_total; cbn [map]; change (zsum []) with 0; lia|].
    replace (if ca_break c then rel else rel) with rel in Pl by (destruct (ca_break c); reflexivity). destruct (rel v (ca_heap c) (ca_asked c)) as (v1, got) eqn:E1. destruct Pl as (Eg & Pl).
    destruct (Hin c (or_introl eq_refl)) as (I1 & I2). destruct (Hb _ _ _ _ _ I1 I2 E1) as (_ & Eb). rewrite (IH v1 v' ltac:(intros d Hd; apply Hin; right; assumption) Pl), Eb. unfold got_total. cbn [map]. rewrite zsum_cons, Eg. ring. }
  assert (Hin : forall c, In c log -> In (ca_heap c) (heaps cf) /\ 0 <= ca_asked c).
  { intros c Hc1. split; [rewrite <- Hl; apply in_map; assumption|]. apply in_split in Hc1. destruct Hc1 as (l1 & l2 & F). rewrite (A _ _ _ F). lia. }
  rewrite (G log w w' Hin P). lia.
Qed.
Print Assumptions release_reported.

Lemma runs_extra {W} (rel : op W) cf reqs extra : 0 < cf_page cf -> sane rel cf -> rl_runs rel cf reqs extra ->
  0 <= extra /\ total rq_bytes reqs + extra <= total (given cf) reqs + total (short cf) reqs.
Proof.
  intros Hp Hs H. induction H as [|reqs extra w n w' extra' ret log H IH Hn E]; [unfold total; cbn [map]; change (zsum []) with 0; lia|].
  destruct IH as (I1 & I2). destruct (release_request _ _ _ _ _ _ _ _ _ _ Hp Hs I1 Hn E) as (_ & _ & _ & (pages & Hc & _ & Hf) & H0 & Hr & He).
  rewrite !total_snoc. assert (Eg : given cf (Request n ret log) = got_total log * cf_page cf) by reflexivity.
  assert (Es : short cf (Request n ret log) = Z.max 0 (pages * cf_page cf - got_total log * cf_page cf)) by (unfold short, given; cbn [rq_log]; rewrite Hf; reflexivity).
  rewrite Eg, Es. cbn [rq_bytes]. clear - I1 I2 Hc H0 He Hn. lia.
Qed.

(** No byte asked for is forgotten: over any history, the bytes asked for are at most those given back and those that the heaps
    were asked for and did not give back. *)
Theorem release_all_asked : forall W (rel : op W) cf reqs extra, 0 < cf_page cf -> sane rel cf -> rl_runs rel cf reqs extra ->
  total rq_bytes reqs <= total (given cf) reqs + total (short cf) reqs.
Proof. intros W rel cf reqs extra Hp Hs H. destruct (runs_extra rel cf reqs extra Hp Hs H) as (A & B). lia. Qed.
Print Assumptions release_all_asked.

(** What malloc_trim gives back: all heaps are asked for 0 pages, and what they give back is remembered as excess. *)
Theorem malloc_trim_releases : forall W (rel : op W) cf w extra w' extra' ret log, 0 < cf_page cf -> sane rel cf -> 0 <= extra ->
  malloc_trim rel cf w extra = (w', extra', ret, log) ->
  plays rel rel w log w' /\ map ca_heap log = heaps cf /\ asks_missing 0 log /\ extra' = got_total log * cf_page cf.
Proof.
  intros W rel cf w extra w' extra' ret log Hp Hs He E. unfold malloc_trim in E. destruct (rl_release rel cf w extra 0) as (((w1, e1), r1), l1) eqn:E1. inversion E; subst.
  destruct (release_request _ _ _ _ _ _ _ _ _ _ Hp Hs He (Z.le_refl 0) E1) as (P & Hl & _ & (pages & Hc & A & _) & H0 & _ & Hx). replace (Z.max 0 (0 - extra)) with 0 in * by lia.
  assert (pages = 0) by nia. subst pages. split; [assumption|]. split; [assumption|]. split; [assumption|]. lia.
Qed.
Print Assumptions malloc_trim_releases.

(** But it always returns 0, so a caller cannot learn from it that memory was given back (malloc_trim(3): "returns 1 if memory was
    actually released back to the system, or 0 if it was not"). *)
Theorem malloc_trim_returns_zero : forall W (rel : op W) cf w extra w' extra' ret log, 0 < cf_page cf -> sane rel cf -> 0 <= extra ->
  malloc_trim rel cf w extra = (w', extra', ret, log) -> ret = 0.
Proof.
  intros W rel cf w extra w' extra' ret log Hp Hs He E. unfold malloc_trim in E. destruct (rl_release rel cf w extra 0) as (((w1, e1), r1), l1) eqn:E1. inversion E; subst.
  destruct (release_request _ _ _ _ _ _ _ _ _ _ Hp Hs He (Z.le_refl 0) E1) as (_ & _ & _ & _ & H0 & -> & _). replace (Z.min (Z.max 0 (0 - extra)) (got_total log * cf_page cf)) with 0 by lia. reflexivity.
Qed.
Print Assumptions malloc_trim_returns_zero.

(** ** C49: a constant rate *)

(** If every request asks for at least what the request before gave back in excess, then over any history what is given back exceeds what was
    asked for by at most what the last request gave back. *)
Inductive rl_steady {W} (rel : op W) (cf : config) : list request -> Z -> Prop :=
| rs_start : rl_steady rel cf [] 0
| rs_request reqs extra w n w' extra' ret log : rl_steady rel cf reqs extra -> 0 <= n -> extra <= n -> rl_release rel cf w extra n = (w', extra', ret, log) ->
    rl_steady rel cf (reqs ++ [Request n ret log]) extra'.
Lemma steady_runs {W} (rel : op W) cf reqs extra : rl_steady rel cf reqs extra -> rl_runs rel cf reqs extra.
Proof. intros H. induction H; [constructor|econstructor; eassumption]. Qed.

Theorem constant_rate_partial : forall W (rel : op W) cf reqs c extra, 0 < cf_page cf -> sane rel cf -> rl_steady rel cf (reqs ++ [c]) extra ->
  total (given cf) (reqs ++ [c]) <= total rq_bytes (reqs ++ [c]) + given cf c.
Proof.
  intros W rel cf reqs c extra Hp Hs H. assert (G : forall l x, rl_steady rel cf l x -> total (given cf) l <= total rq_bytes l + x /\ (forall l' d, l = l' ++ [d] -> x <= given cf d)).
  { clear H. intros l x H. induction H as [|l x w n w' x' ret log H IH Hn Hx E]; [split; [reflexivity|intros l' d F; destruct l'; discriminate]|]. destruct IH as (I & _).
    destruct (runs_extra rel cf l x Hp Hs (steady_runs _ _ _ _ H)) as (X & _). destruct (release_request _ _ _ _ _ _ _ _ _ _ Hp Hs X Hn E) as (_ & _ & _ & _ & H0 & Hr & He).
    rewrite !total_snoc. assert (Eg : given cf (Request n ret log) = got_total log * cf_page cf) by reflexivity. rewrite Eg. cbn [rq_bytes]. split; [lia|]. intros l' d F. apply app_inj_tail in F. destruct F as (_ & <-). unfold given. cbn [rq_log]. lia. }
  destruct (G _ _ H) as (A & B). specialize (B reqs c eq_refl). lia.
Qed.
Print Assumptions constant_rate_partial.

(** A page heap that gives back a whole hugepage of 256 pages whenever it is asked for something. *)
Definition one_cf : config := Config false 1 false true 8192.
Definition by_hugepage : op unit := fun _ _ n => (tt, 256 * ((n + 255) / 256)).
Lemma by_hugepage_sane cf : sane by_hugepage cf.
Proof. intros w h n w' got _ Hn E. injection E as <- <-. pose proof (Z.div_pos (n + 255) 256 ltac:(lia) ltac:(lia)). lia. Qed.

(** In general the excess is not bounded, and the rate not constant: what is left of the excess is forgotten by a request it
    covers.  Requests of one byte each make a page heap that gives back hugepages give back a million times as much. *)
Theorem constant_rate_refuted : forall bound, exists reqs extra, rl_runs by_hugepage one_cf reqs extra /\
  (forall c, In c reqs -> rq_bytes c = 1 /\ given one_cf c <= 256 * 8192) /\
  bound <= total (given one_cf) reqs /\ total (given one_cf) reqs = 2 ^ 20 * total rq_bytes reqs.
Proof.
  assert (G : forall k : nat, exists reqs, rl_runs by_hugepage one_cf reqs 0 /\ (forall c, In c reqs -> rq_bytes c = 1 /\ given one_cf c <= 256 * 8192) /\
    total (given one_cf) reqs = 2 ^ 21 * Z.of_nat k /\ total rq_bytes reqs = 2 * Z.of_nat k).
  { induction k as [|k IH]; [exists []; split; [constructor|]; split; [intros c []|]; split; reflexivity|]. destruct IH as (reqs & R & A & B & C).
    destruct (rl_release by_hugepage one_cf tt 0 1) as (((w1, x1), r1), l1) eqn:E1. destruct (rl_release by_hugepage one_cf tt x1 1) as (((w2, x2), r2), l2) eqn:E2.
    exists ((reqs ++ [Request 1 r1 l1]) ++ [Request 1 r2 l2]). vm_compute in E1. injection E1 as <- <- <- <-. vm_compute in E2. injection E2 as <- <- <- <-.
    split; [refine (rr_request _ _ _ _ tt _ _ _ _ _ (rr_request _ _ _ _ tt _ _ _ _ _ R _ _) _ _); [lia|vm_compute; reflexivity|lia|vm_compute; reflexivity]|].
    split.
    - intros c Hc. apply in_app_or in Hc. destruct Hc as [Hc|[<-|[]]]; [apply in_app_or in Hc; destruct Hc as [Hc|[<-|[]]]; [apply A; assumption|]|]; (split; [reflexivity|vm_compute; discriminate]).
    - rewrite !total_snoc, B, C. cbn [rq_bytes]. unfold given. cbn [rq_log]. split; [|lia].
      match goal with |- _ + ?a + ?b = _ => change a with (2 ^ 21); change b with 0 end. lia. }
  intros bound. destruct (G (Z.to_nat bound)) as (reqs & R & A & B & C). exists reqs, 0. split; [assumption|]. split; [assumption|]. rewrite B, C. split; [lia|]. change (2 ^ 21) with (2 ^ 20 * 2). lia.
Qed.
Print Assumptions constant_rate_refuted.

(** ** C50: the background loop *)

Definition time_goes_on (H : list (bg_env * list event)) : Prop :=
  forall pre e1 v1 mid e2 v2 post, H = pre ++ (e1, v1) :: mid ++ (e2, v2) :: post -> be_now e1 <= be_now e2.
(** Whether an iteration is to perform the action when its time has come. *)
Definition switched_on (a : action) (e : bg_env) : bool :=
  match a with
  | DrainCaches | ShuffleCaches | ResizeClasses => be_percpu e
  | ResizeMaxCapacities => be_percpu e && be_maxcap e
  | ResizeSlab => be_percpu e && be_slab e
  | PlunderTransfer | ResizeTransfer => negb (be_small e)
  | TreatHugepages => true
  end.

(** The layers of caches, from the outermost to the page heap. *)
Definition layer (v : event) : Z :=
  match v with
  | Do (DrainCaches | ShuffleCaches | ResizeClasses | ResizeMaxCapacities | ResizeSlab) | ClearTouched => 0
  | PlunderSharded => 1
  | Do (PlunderTransfer | ResizeTransfer) => 2
  | Do TreatHugepages => 3
  | ReleaseBytes _ => 4
  end.

Definition every_event (n : Z) : list event :=
  [Do DrainCaches; Do ShuffleCaches; Do ResizeClasses; Do ResizeMaxCapacities; Do ResizeSlab; ClearTouched; PlunderSharded;
   Do PlunderTransfer; Do ResizeTransfer; Do TreatHugepages; ReleaseBytes n].
Definition runs_now (st : bg_state) (e : bg_env) (a : action) : bool := switched_on a e && (period a * be_sleep e <=? be_now e - bg_last st a).
Definition keep (st : bg_state) (e : bg_env) (v : event) : bool :=
  match v with
  | Do a => runs_now st e a
  | ClearTouched => be_percpu e
  | PlunderSharded => true
  | ReleaseBytes n => (0 <? n) || be_regions e
  end.

Definition among (b : action) (done : list action) : bool := existsb (action_eqb b) done.
Definition done_so_far (st : bg_state) (e : bg_env) (done : list action) (s : (action -> Z) * list event) (evs : list event) : Prop :=
  snd s = evs /\ forall b, fst s b = if among b done && runs_now st e b then be_now e else bg_last st b.
Lemma maybe_done st e done s evs on a : done_so_far st e done s evs -> among a done = false -> on = switched_on a e ->
  done_so_far st e (a :: done) (maybe on a e s) (evs ++ if runs_now st e a then [Do a] else []).
Proof.
  intros (A & B) Ha Eo. destruct s as (last, evs0). cbn [fst snd] in *. subst evs0. unfold maybe. pose proof (B a) as Ba. rewrite Ha in Ba. cbn [andb] in Ba.
  subst on. fold (runs_now st e a). assert (Er : switched_on a e && (period a * be_sleep e <=? be_now e - last a) = runs_now st e a) by (unfold runs_now; rewrite Ba; reflexivity). rewrite Er.
  destruct (runs_now st e a) eqn:R; split; cbn [fst snd]; rewrite ?app_nil_r; try reflexivity; intros b; unfold among; cbn [existsb]; fold (among b done).
  - unfold set_last. destruct (action_eqb a b) eqn:Eb; destruct (action_eqb b a) eqn:Ec; try (destruct a, b; discriminate).
    + replace b with a by (destruct a, b; congruence || discriminate). rewrite R. reflexivity.
    + apply B.
  - destruct (action_eqb b a) eqn:Ec; cbn [orb]; [|apply B]. replace b with a by (destruct a, b; congruence || discriminate). rewrite R, andb_false_r. apply Ba.
Qed.
Lemma skip_done st e done s evs a : done_so_far st e done s evs -> switched_on a e = false -> done_so_far st e (a :: done) s (evs ++ if runs_now st e a then [Do a] else []).
Proof.
  intros (A & B) Ha. assert (R : runs_now st e a = false) by (unfold runs_now; rewrite Ha; reflexivity). rewrite R, app_nil_r. split; [assumption|]. intros b. rewrite B. unfold among. cbn [existsb].
  destruct (action_eqb b a) eqn:Ec; [|reflexivity]. replace b with a by (destruct a, b; congruence || discriminate). rewrite R, !andb_false_r. reflexivity.
Qed.
Lemma say_done st e done s evs v : done_so_far st e done s evs -> done_so_far st e done (fst s, snd s ++ [v]) (evs ++ [v]).
Proof. intros (<- & B). split; [reflexivity|]. exact B. Qed.

Lemma step_spec st e st' evs : bg_step st e = (st', evs) ->
  evs = filter (keep st e) (every_event (bytes_to_release (be_rate e) (be_now e - bg_prev st))) /\
  bg_prev st' = be_now e /\ (forall a, bg_last st' a = if runs_now st e a then be_now e else bg_last st a).
Proof.
  unfold bg_step. set (n := bytes_to_release _ _). clearbody n.
  assert (D0 : done_so_far st e [] (bg_last st, []) []) by (split; reflexivity).
  set (s1 := if be_percpu e then _ else _).
  assert (D1 : done_so_far st e [ResizeSlab; ResizeMaxCapacities; ResizeClasses; ShuffleCaches; DrainCaches] s1
    (filter (keep st e) [Do DrainCaches; Do ShuffleCaches; Do ResizeClasses; Do ResizeMaxCapacities; Do ResizeSlab; ClearTouched])).
  { unfold s1. destruct (be_percpu e) eqn:Ep.
    - pose proof (maybe_done st e _ _ _ true DrainCaches D0 eq_refl (eq_sym Ep)) as D1.
      pose proof (maybe_done st e _ _ _ true ShuffleCaches D1 eq_refl (eq_sym Ep)) as D2.
      pose proof (maybe_done st e _ _ _ true ResizeClasses D2 eq_refl (eq_sym Ep)) as D3.
      assert (S4 : be_maxcap e = switched_on ResizeMaxCapacities e) by (cbn [switched_on]; rewrite Ep; reflexivity). pose proof (maybe_done st e _ _ _ _ ResizeMaxCapacities D3 eq_refl S4) as D4.
      assert (S5 : be_slab e = switched_on ResizeSlab e) by (cbn [switched_on]; rewrite Ep; reflexivity). pose proof (maybe_done st e _ _ _ _ ResizeSlab D4 eq_refl S5) as D5.
      pose proof (say_done st e _ _ _ ClearTouched D5) as D6. cbv zeta. destruct D6 as (D6 & D7). split; [|exact D7]. etransitivity; [exact D6|]. cbn [filter keep]. rewrite Ep.
      destruct (runs_now st e DrainCaches), (runs_now st e ShuffleCaches), (runs_now st e ResizeClasses), (runs_now st e ResizeMaxCapacities), (runs_now st e ResizeSlab); reflexivity.
    - assert (SW : forall a, In a [ResizeSlab; ResizeMaxCapacities; ResizeClasses; ShuffleCaches; DrainCaches] -> switched_on a e = false) by (intros a Ha; cbn [In] in Ha; repeat destruct Ha as [<-|Ha]; try destruct Ha; cbn [switched_on]; rewrite Ep; reflexivity).
      pose proof (skip_done st e _ _ _ DrainCaches D0 (SW DrainCaches ltac:(cbn [In]; tauto))) as D1. pose proof (skip_done st e _ _ _ ShuffleCaches D1 (SW ShuffleCaches ltac:(cbn [In]; tauto))) as D2.
      pose proof (skip_done st e _ _ _ ResizeClasses D2 (SW ResizeClasses ltac:(cbn [In]; tauto))) as D3. pose proof (skip_done st e _ _ _ ResizeMaxCapacities D3 (SW ResizeMaxCapacities ltac:(cbn [In]; tauto))) as D4.
      pose proof (skip_done st e _ _ _ ResizeSlab D4 (SW ResizeSlab ltac:(cbn [In]; tauto))) as D5. destruct D5 as (D6 & D7). split; [|exact D7]. etransitivity; [exact D6|]. cbn [filter keep]. rewrite Ep.
      destruct (runs_now st e DrainCaches), (runs_now st e ShuffleCaches), (runs_now st e ResizeClasses), (runs_now st e ResizeMaxCapacities), (runs_now st e ResizeSlab); reflexivity. }
  clearbody s1. clear D0. pose proof (say_done st e _ _ _ PlunderSharded D1) as D2. set (s2 := (fst s1, snd s1 ++ [PlunderSharded])) in *. clearbody s2. clear D1.
  set (s3 := if be_small e then _ else _).
  match type of D2 with done_so_far _ _ ?d _ ?l => assert (D3 : done_so_far st e (ResizeTransfer :: PlunderTransfer :: d) s3 (l ++ filter (keep st e) [Do PlunderTransfer; Do ResizeTransfer])) end.
  { unfold s3. destruct (be_small e) eqn:Ep.
    - assert (W1 : switched_on PlunderTransfer e = false) by (cbn [switched_on]; rewrite Ep; reflexivity). assert (W2 : switched_on ResizeTransfer e = false) by exact W1.
      pose proof (skip_done st e _ _ _ ResizeTransfer (skip_done st e _ _ _ PlunderTransfer D2 W1) W2) as (D6 & D7). split; [|exact D7]. etransitivity; [exact D6|]. rewrite <- app_assoc. f_equal. cbn [filter keep].
      destruct (runs_now st e PlunderTransfer), (runs_now st e ResizeTransfer); reflexivity.
    - assert (W1 : true = switched_on PlunderTransfer e) by (cbn [switched_on]; rewrite Ep; reflexivity). assert (W2 : true = switched_on ResizeTransfer e) by exact W1.
      pose proof (maybe_done st e _ _ _ true ResizeTransfer (maybe_done st e _ _ _ true PlunderTransfer D2 eq_refl W1) eq_refl W2) as (D6 & D7). split; [|exact D7]. etransitivity; [exact D6|]. rewrite <- app_assoc. f_equal. cbn [filter keep].
      destruct (runs_now st e PlunderTransfer), (runs_now st e ResizeTransfer); reflexivity. }
  clearbody s3. clear D2. pose proof (maybe_done st e _ _ _ true TreatHugepages D3 eq_refl eq_refl) as (D6 & D7).
  set (s4 := maybe true TreatHugepages e s3) in *. clearbody s4. intros E. injection E as <- <-. cbn [bg_prev bg_last]. split; [|split; [reflexivity|]].
  - rewrite D6. unfold every_event. change (filter (keep st e) (every_event n)) with (filter (keep st e) ([Do DrainCaches; Do ShuffleCaches; Do ResizeClasses; Do ResizeMaxCapacities; Do ResizeSlab; ClearTouched] ++ [PlunderSharded; Do PlunderTransfer; Do ResizeTransfer; Do TreatHugepages; ReleaseBytes n])).
    match goal with |- _ = filter _ ?l => change l with ([Do DrainCaches; Do ShuffleCaches; Do ResizeClasses; Do ResizeMaxCapacities; Do ResizeSlab; ClearTouched] ++ [PlunderSharded; Do PlunderTransfer; Do ResizeTransfer; Do TreatHugepages; ReleaseBytes n]) end.
    rewrite filter_app. set (F := filter (keep st e) [Do DrainCaches; Do ShuffleCaches; Do ResizeClasses; Do ResizeMaxCapacities; Do ResizeSlab; ClearTouched]). clearbody F.
    cbn [filter keep]. destruct ((0 <? n) || be_regions e), (runs_now st e PlunderTransfer), (runs_now st e ResizeTransfer), (runs_now st e TreatHugepages); cbn [app]; rewrite <- ?app_assoc; reflexivity.
  - intros a. rewrite D7. destruct a; reflexivity.
Qed.

Lemma step_does st e st' evs a : bg_step st e = (st', evs) -> In (Do a) evs <-> runs_now st e a = true.
Proof.
  intros E. destruct (step_spec _ _ _ _ E) as (-> & _). rewrite filter_In. cbn [keep]. split; [intros (_ & H); exact H|]. intros H. split; [|exact H]. destruct a; cbn; tauto.
Qed.

(** When each action last ran. *)
Lemma runs_last t0 H st : bg_runs t0 H st -> forall a,
  (bg_last st a = t0 /\ forall e v, In (e, v) H -> ~ In (Do a) v) \/
  (exists pre e v post, H = pre ++ (e, v) :: post /\ In (Do a) v /\ bg_last st a = be_now e /\ forall e' v', In (e', v') post -> ~ In (Do a) v').
Proof.
  intros R. induction R as [|H st e st' evs R IH E]; intros a; [left; split; [reflexivity|intros e v []]|].
  pose proof (step_does _ _ _ _ a E) as D. destruct (step_spec _ _ _ _ E) as (_ & _ & L). specialize (L a). destruct (runs_now st e a) eqn:Rn.
  - right. exists H, e, evs, []. split; [reflexivity|]. split; [apply D; reflexivity|]. split; [assumption|intros ? ? []].
  - assert (Nd : ~ In (Do a) evs) by (intros F; apply D in F; discriminate). destruct (IH a) as [(A & B)|(pre & e0 & v & post & A & B & C & F)].
    + left. split; [congruence|]. intros e' v' Hi. apply in_app_or in Hi. destruct Hi as [Hi|[Hi|[]]]; [eauto|injection Hi as <- <-; assumption].
    + right. exists pre, e0, v, (post ++ [(e, evs)]). split; [rewrite A, <- app_assoc; reflexivity|]. split; [assumption|]. split; [congruence|]. intros e' v' Hi. apply in_app_or in Hi. destruct Hi as [Hi|[Hi|[]]]; [eauto|injection Hi as <- <-; assumption].
Qed.

Lemma runs_split t0 H st : bg_runs t0 H st -> forall pre e v post, H = pre ++ (e, v) :: post -> exists st0 st1, bg_runs t0 pre st0 /\ bg_step st0 e = (st1, v).
Proof.
  intros R. induction R as [|H st e st' evs R IH E]; intros pre e0 v post Eq; [destruct pre; discriminate|].
  destruct post as [|z post] using rev_ind.
  - apply app_inj_tail in Eq. destruct Eq as (<- & Eq). injection Eq as <- <-. eauto.
  - clear IHpost. rewrite app_comm_cons, app_assoc in Eq. apply app_inj_tail in Eq. destruct Eq as (Eq & _). eauto.
Qed.

(** No action runs more often than its period: between two runs of it at least its period passes, by the sleep interval in force at the
    later one. *)
Theorem background_not_too_often : forall t0 H st pre e1 v1 mid e2 v2 post a, bg_runs t0 H st -> time_goes_on H ->
  H = pre ++ (e1, v1) :: mid ++ (e2, v2) :: post -> In (Do a) v1 -> In (Do a) v2 -> period a * be_sleep e2 <= be_now e2 - be_now e1.
Proof.
  intros t0 H st pre e1 v1 mid e2 v2 post a R T Eq I1 I2. rewrite app_comm_cons, app_assoc in Eq. destruct (runs_split _ _ _ R _ _ _ _ Eq) as (s0 & s1 & R0 & E).
  pose proof (proj1 (step_does _ _ _ _ a E) I2) as Rn. unfold runs_now in Rn. apply andb_prop in Rn. destruct Rn as (_ & Rn). apply Z.leb_le in Rn.
  destruct (runs_last _ _ _ R0 a) as [(_ & F)|(p & e & v & q & Ep & Iv & El & F)].
  - exfalso. apply (F e1 v1); [apply in_or_app; right; left; reflexivity|assumption].
  - enough (be_now e1 <= be_now e) by lia. assert (Hin : In (e1, v1) (p ++ (e, v) :: q)) by (rewrite <- Ep; apply in_or_app; right; left; reflexivity).
    apply in_app_or in Hin. destruct Hin as [Hin|[Hin|Hin]]; [|injection Hin as -> ->; lia|exfalso; apply (F _ _ Hin); assumption].
    apply in_split in Hin. destruct Hin as (p1 & p2 & ->). apply (T p1 e1 v1 p2 e v (q ++ (e2, v2) :: post)). rewrite Eq, Ep. repeat (rewrite <- app_assoc; cbn [app]). reflexivity.
Qed.
Print Assumptions background_not_too_often.

(** And none is forgotten: an iteration that has the action switched on either performs it, or it was performed, or the loop started, less than a
    period ago. *)
Theorem background_not_forgotten : forall t0 H st pre e v post a, bg_runs t0 H st -> H = pre ++ (e, v) :: post -> switched_on a e = true ->
  In (Do a) v \/ exists t, (t = t0 \/ exists e' v', In (e', v') pre /\ In (Do a) v' /\ be_now e' = t) /\ be_now e - t < period a * be_sleep e.
Proof.
  intros t0 H st pre e v post a R Eq So. destruct (runs_split _ _ _ R _ _ _ _ Eq) as (s0 & s1 & R0 & E). destruct (runs_now s0 e a) eqn:Rn; [left; apply (step_does _ _ _ _ a E); assumption|].
  right. unfold runs_now in Rn. rewrite So in Rn. cbn [andb] in Rn. apply Z.leb_gt in Rn. exists (bg_last s0 a). split; [|assumption].
  destruct (runs_last _ _ _ R0 a) as [(A & _)|(p & e0 & v0 & q & Ep & Iv & El & _)]; [left; assumption|]. right. exists e0, v0. split; [rewrite Ep; apply in_or_app; right; left; reflexivity|]. auto.
Qed.
Print Assumptions background_not_forgotten.

(** Nothing that is switched off is done, nothing is done twice in an iteration, and an iteration works from the outermost caches to the
    page heap. *)
Theorem background_order : forall t0 H st e v, bg_runs t0 H st -> In (e, v) H ->
  (forall a, In (Do a) v -> switched_on a e = true) /\ NoDup v /\ StronglySorted Z.le (map layer v) /\ In PlunderSharded v.
Proof.
  intros t0 H st e v R Hi. apply in_split in Hi. destruct Hi as (pre & post & Eq). destruct (runs_split _ _ _ R _ _ _ _ Eq) as (s0 & s1 & R0 & E).
  split; [intros a Ha; apply (step_does _ _ _ _ a E) in Ha; unfold runs_now in Ha; apply andb_prop in Ha; apply Ha|]. destruct (step_spec _ _ _ _ E) as (Ev & _).
  set (n := bytes_to_release _ _) in Ev. clearbody n. split; [|split].
  - rewrite Ev. apply NoDup_filter. unfold every_event. repeat (constructor; [cbn [In]; intros F; decompose [or] F; try discriminate; try contradiction|]). constructor.
  - rewrite Ev. assert (G : forall l, StronglySorted Z.le (map layer l) -> StronglySorted Z.le (map layer (filter (keep s0 e) l))).
    { induction l as [|x l IH]; intros S; [constructor|]. cbn [map] in S. apply StronglySorted_inv in S. destruct S as (S & F). cbn [filter]. destruct (keep s0 e x); [|auto]. cbn [map]. constructor; [auto|].
      rewrite Forall_forall in *. intros y Hy. apply F. apply in_map_iff in Hy. destruct Hy as (z & <- & Hz). apply filter_In in Hz. apply in_map. apply Hz. }
    apply G. unfold every_event. cbn [map layer]. repeat (constructor; [|repeat (constructor; [lia|]); constructor]). constructor.
  - rewrite Ev. apply filter_In. split; [unfold every_event; cbn [In]; tauto|reflexivity].
Qed.
Print Assumptions background_order.

(** *** The amount *)

Definition asked_in (v : list event) : Z := zsum (map (fun x => match x with ReleaseBytes n => n | _ => 0 end) v).
Definition asked_by (H : list (bg_env * list event)) : Z := zsum (map (fun p => asked_in (snd p)) H).

Lemma asked_step st e st' evs : bg_step st e = (st', evs) -> asked_in evs = bytes_to_release (be_rate e) (be_now e - bg_prev st) /\
  (forall n, In (ReleaseBytes n) evs -> n = bytes_to_release (be_rate e) (be_now e - bg_prev st)) .
Proof.
  intros E. destruct (step_spec _ _ _ _ E) as (-> & _). set (n := bytes_to_release _ _). assert (Hn : 0 <= n) by (unfold n, bytes_to_release; lia). clearbody n. split.
  - assert (G : forall l x, layer x <> 4 -> asked_in (x :: l) = asked_in l) by (intros l x Hx; unfold asked_in; cbn [map]; rewrite zsum_cons; destruct x; [reflexivity..|contradiction Hx; reflexivity]).
    assert (G2 : forall l x, layer x <> 4 -> asked_in (filter (keep st e) (x :: l)) = asked_in (filter (keep st e) l)) by (intros l x Hx; cbn [filter]; destruct (keep st e x); [apply G; assumption|reflexivity]).
    unfold every_event. rewrite !G2 by discriminate. cbn [filter keep]. destruct ((0 <? n) || be_regions e) eqn:Ez; unfold asked_in; cbn [map]; rewrite ?zsum_cons; change (zsum []) with 0; [lia|].
    apply orb_false_elim in Ez. destruct Ez as (Ez & _). apply Z.ltb_ge in Ez. lia.
  - intros m Hm. apply filter_In in Hm. destruct Hm as (Hm & _). unfold every_event in Hm. cbn [In] in Hm. decompose [or] Hm; try discriminate; try contradiction. congruence.
Qed.

(** The time of the iteration before. *)
Definition clock (t0 : Z) (H : list (bg_env * list event)) : Z := last (map (fun p => be_now (fst p)) H) t0.
Lemma clock_snoc t0 H p : clock t0 (H ++ [p]) = be_now (fst p).
Proof. unfold clock. rewrite map_app. apply last_last. Qed.
Lemma runs_prev t0 H st : bg_runs t0 H st -> bg_prev st = clock t0 H.
Proof. intros R. destruct R as [|H st e st' evs R E]; [reflexivity|]. rewrite clock_snoc. apply (step_spec _ _ _ _ E). Qed.

(** With a constant rate and time that does not go back, the background loop asks over any history for no more than the rate times the time
    passed, and, if no iteration takes so long that the amount exceeds the largest ssize_t, it is behind by less than a byte per
    iteration. *)
Theorem background_rate : forall t0 H st rate, bg_runs t0 H st -> 0 <= rate -> (forall e v, In (e, v) H -> be_rate e = rate) ->
  (forall pre e v post, H = pre ++ (e, v) :: post -> clock t0 pre <= be_now e) ->
  asked_by H * 10 ^ 9 <= rate * (clock t0 H - t0) /\
  ((forall pre e v post, H = pre ++ (e, v) :: post -> rate * (be_now e - clock t0 pre) < 2 ^ 63 * 10 ^ 9) ->
   rate * (clock t0 H - t0) <= asked_by H * 10 ^ 9 + Z.of_nat (length H) * (10 ^ 9 - 1)).
Proof.
  intros t0 H st rate R Hr. induction R as [|H st e st' evs R IH E]; intros Hc Ht.
  - unfold clock, asked_by. cbn [map last length]. change (zsum []) with 0. lia.
  - assert (Hc' : forall e v, In (e, v) H -> be_rate e = rate) by (intros e0 v0 Hi; apply (Hc e0 v0); apply in_or_app; left; assumption).
    assert (Ht' : forall pre e0 v0 post, H = pre ++ (e0, v0) :: post -> clock t0 pre <= be_now e0) by (intros pre e0 v0 post Eq; apply (Ht pre e0 v0 (post ++ [(e, evs)])); rewrite Eq, <- app_assoc; reflexivity).
    destruct (IH Hc' Ht') as (I1 & I2). destruct (asked_step _ _ _ _ E) as (A & _). rewrite (runs_prev _ _ _ R), (Hc e evs ltac:(apply in_or_app; right; left; reflexivity)) in A.
    pose proof (Ht H e evs [] eq_refl) as Hm. assert (Ea : asked_by (H ++ [(e, evs)]) = asked_by H + asked_in evs) by (unfold asked_by; rewrite map_app, zsum_app; cbn [map snd]; rewrite zsum_cons; change (zsum []) with 0; lia).
    rewrite Ea, A, clock_snoc. cbn [fst]. set (x := rate * (be_now e - clock t0 H)) in *. assert (Hx : 0 <= x) by (unfold x; nia).
    assert (Eb : bytes_to_release rate (be_now e - clock t0 H) = Z.min ssize_max (x / 10 ^ 9)) by (unfold bytes_to_release; fold x; rewrite Z.quot_div_nonneg by lia; pose proof (Z.div_pos x (10 ^ 9) Hx ltac:(lia)); unfold ssize_max; lia).
    rewrite Eb. pose proof (Z.div_mod x (10 ^ 9) ltac:(lia)) as Dm. pose proof (Z.mod_pos_bound x (10 ^ 9) ltac:(lia)) as Mb. assert (Ex : rate * (be_now e - t0) = rate * (clock t0 H - t0) + x) by (unfold x; ring). rewrite Ex.
    split; [clearbody x; clear - I1 Dm Mb; lia|]. intros Hs. pose proof (Hs H e evs [] eq_refl) as Hs1. fold x in Hs1. clearbody x.
    assert (J : rate * (clock t0 H - t0) <= asked_by H * 10 ^ 9 + Z.of_nat (length H) * (10 ^ 9 - 1)).
    { apply I2. intros pre e0 v0 post Eq. apply (Hs pre e0 v0 (post ++ [(e, evs)])). rewrite Eq, <- app_assoc. reflexivity. }
    rewrite app_length. cbn [length]. rewrite Nat2Z.inj_add. change (Z.of_nat 1) with 1.
    assert (Hq : x / 10 ^ 9 <= ssize_max) by (unfold ssize_max; apply Z.lt_succ_r; apply Z.div_lt_upper_bound; lia). clear - J Dm Mb Hq. lia.
Qed.
Print Assumptions background_rate.


(** Whatever the rates and the clock: an iteration asks for between 0 and the largest ssize_t bytes, for none if the time was set back or
    the rate is 0, and the page heap is then not asked at all unless releasing from hugepage regions is on. *)
Theorem background_amount : forall t0 H st pre e v post n, bg_runs t0 H st -> H = pre ++ (e, v) :: post -> 0 <= be_rate e -> In (ReleaseBytes n) v ->
  0 <= n <= 2 ^ 63 - 1 /\ (be_now e <= clock t0 pre \/ be_rate e = 0 -> n = 0) /\ (n = 0 -> be_regions e = true).
Proof.
  intros t0 H st pre e v post n R Eq Hr Hi. destruct (runs_split _ _ _ R _ _ _ _ Eq) as (s0 & s1 & R0 & E). destruct (asked_step _ _ _ _ E) as (_ & A). pose proof (A n Hi) as En.
  rewrite (runs_prev _ _ _ R0) in En. split; [|split].
  - subst n. unfold bytes_to_release, ssize_max. lia.
  - intros Hd. subst n. unfold bytes_to_release, ssize_max. assert (be_rate e * (be_now e - clock t0 pre) <= 0) by nia. set (y := be_rate e * _) in *. clearbody y.
    replace y with (- (- y)) by lia. rewrite Z.quot_opp_l by lia. rewrite Z.quot_div_nonneg by lia. pose proof (Z.div_pos (- y) (10 ^ 9) ltac:(lia) ltac:(lia)). lia.
  - intros ->. destruct (step_spec _ _ _ _ E) as (Ev & _). rewrite Ev in Hi. apply filter_In in Hi. destruct Hi as (_ & Hk). exact Hk.
Qed.
Print Assumptions background_amount.

(** ** Examples *)

(** A page heap with 600 free pages in two heaps that gives back hugepages of 256 pages. *)
Definition small_rel : op (Z * Z) := fun w h n =>
  let k := 256 * ((n + 255) / 256) in
  match h with
  | Normal _ => let g := Z.min k (fst w) in ((fst w - g, snd w), g)
  | _ => let g := Z.min k (snd w) in ((fst w, snd w - g), g)
  end.
Example release_case : exists l1 l2 l3,
  (* 1 MiB asked: a hugepage is given back, half of it in excess *)
  rl_release small_rel one_cf (500, 100) 0 (2 ^ 20) = ((244, 100), 2 ^ 20, 2 ^ 20, l1) /\
  (* 3 MiB asked: 2 MiB are due *)
  rl_release small_rel one_cf (244, 100) (2 ^ 20) (3 * 2 ^ 20) = ((0, 0), 88 * 8192, 2 ^ 21, l2) /\
  (* 4 MiB asked, when another 100 pages are free: all of them *)
  rl_release small_rel one_cf (60, 40) (88 * 8192) (4 * 2 ^ 20) = ((0, 0), 0, 100 * 8192, l3) /\
  map ca_asked l2 = [256; 12] /\ map ca_got l2 = [244; 100] /\
  rl_runs small_rel one_cf [Request (2 ^ 20) (2 ^ 20) l1; Request (3 * 2 ^ 20) (2 ^ 21) l2; Request (4 * 2 ^ 20) (100 * 8192) l3] 0.
Proof.
  eexists _, _, _. split; [vm_compute; reflexivity|]. split; [vm_compute; reflexivity|]. split; [vm_compute; reflexivity|]. split; [reflexivity|]. split; [reflexivity|].
  match goal with |- rl_runs _ _ [?a; ?b; ?c] _ => change [a; b; c] with ((([] ++ [a]) ++ [b]) ++ [c]) end.
  apply (rr_request small_rel one_cf _ (88 * 8192) (60, 40) _ (0, 0)); [|lia|vm_compute; reflexivity].
  apply (rr_request small_rel one_cf _ (2 ^ 20) (244, 100) _ (0, 0)); [|lia|vm_compute; reflexivity].
  apply (rr_request small_rel one_cf _ 0 (500, 100) _ (244, 100)); [constructor|lia|vm_compute; reflexivity].
Qed.
Example small_sane : sane (fun w h n => small_rel (Z.max 0 (fst w), Z.max 0 (snd w)) h n) one_cf.
Proof. intros w h n w' got _ Hn E. unfold small_rel in E. pose proof (Z.div_pos (n + 255) 256 ltac:(lia) ltac:(lia)). destruct h; injection E as <- <-; cbn [fst snd]; lia. Qed.

(** malloc_trim gives a free hugepage of a region back and returns 0. *)
Definition region_rel : op Z := fun w h n => match h with Normal _ => (0, w) | _ => (w, 0) end.
Example malloc_trim_case : exists log, malloc_trim region_rel one_cf 256 0 = (0, 256 * 8192, 0, log) /\ got_total log = 256.
Proof. eexists. split; [vm_compute; reflexivity|reflexivity]. Qed.

(** 61 iterations with a second between them, of a loop that sleeps a second: what each does after 5, 29, 30 and 60 of them. *)
Definition tick (i : Z) : bg_env := BgEnv (i * 10 ^ 9) (10 ^ 9) true true true false (10 * 2 ^ 20) false.
Fixpoint loop (st : bg_state) (es : list bg_env) : list (bg_env * list event) * bg_state :=
  match es with
  | [] => ([], st)
  | e :: es => let (st1, v) := bg_step st e in let (H, st2) := loop st1 es in ((e, v) :: H, st2)
  end.
Lemma loop_runs t0 es : forall H st H' st', bg_runs t0 H st -> loop st es = (H', st') -> bg_runs t0 (H ++ H') st'.
Proof.
  induction es as [|e es IH]; intros H st H' st' R E; cbn [loop] in E; [injection E as <- <-; rewrite app_nil_r; assumption|].
  destruct (bg_step st e) as (st1, v) eqn:E1. destruct (loop st1 es) as (H2, st2) eqn:E2. injection E as <- <-. change ((e, v) :: H2) with ([(e, v)] ++ H2). rewrite app_assoc. apply (IH _ st1); [|assumption]. econstructor; eassumption.
Qed.
Example background_case :
  let H := fst (loop (bg_init 0) (map tick (zseq 1 60))) in
  (exists st, bg_runs 0 H st) /\
  map snd (firstn 2 H) = [[ClearTouched; PlunderSharded; ReleaseBytes (10 * 2 ^ 20)];
                          [Do ResizeClasses; ClearTouched; PlunderSharded; Do ResizeTransfer; ReleaseBytes (10 * 2 ^ 20)]] /\
  snd (nth 29 H (tick 0, [])) = [Do DrainCaches; Do ShuffleCaches; Do ResizeClasses; ClearTouched; PlunderSharded; Do PlunderTransfer; Do ResizeTransfer; Do TreatHugepages; ReleaseBytes (10 * 2 ^ 20)] /\
  asked_by H = 600 * 2 ^ 20.
Proof.
  split; [|vm_compute; auto]. destruct (loop (bg_init 0) (map tick (zseq 1 60))) as (H, st) eqn:E. exists st. apply (loop_runs 0 _ [] (bg_init 0) H st (br_start 0) E).
Qed.
