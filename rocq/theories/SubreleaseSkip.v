(** Lemmas for SubreleaseProps.v: the decisions not to release that are counted. *)
From Coq Require Import Permutation Sorted.
From Verif Require Import Base TimeSeries TimeSeriesProps Subrelease SubreleaseSpec SubreleaseProofs.

(** A decision: the pages not released, and the demand that would have made it right. *)
Definition sum_dec (l : list (Z * Z)) : decided := Decided (wrap64 (zsum (map fst l))) (wrap64 (Z.of_nat (length l))).

Lemma wrap64_add a b : wrap64 (wrap64 a + wrap64 b) = wrap64 (a + b).
Proof. unfold wrap64. symmetry. apply Zplus_mod. Qed.
Lemma sum_dec_app a b : d_add (sum_dec a) (sum_dec b) = sum_dec (a ++ b).
Proof. unfold d_add, sum_dec. cbn [d_pages d_count]. rewrite !wrap64_add, map_app, zsum_app, app_length. f_equal. f_equal. lia. Qed.
Lemma sum_dec_one p k : d_add d_zero (d_one p) = sum_dec [(p, k)].
Proof. unfold d_add, sum_dec, d_one, d_zero. cbn [d_pages d_count map zsum fst length]. f_equal; f_equal; lia. Qed.
Lemma sum_dec_snoc a p k : d_add (sum_dec a) (d_one p) = sum_dec (a ++ [(p, k)]).
Proof.
  rewrite <- sum_dec_app. unfold d_add, sum_dec, d_one. cbn [d_pages d_count map zsum fst length].
  assert (W : forall x, wrap64 (wrap64 (x + 0)) = wrap64 x) by (intros; unfold wrap64; rewrite Z.add_0_r; apply Zmod_mod).
  f_equal; unfold wrap64; rewrite ?Z.add_0_r, Zplus_mod_idemp_l; rewrite ?Zplus_mod_idemp_r, ?Zplus_mod_idemp_l; reflexivity.
Qed.
Lemma sum_dec_perm a b : Permutation a b -> sum_dec a = sum_dec b.
Proof.
  intros H. unfold sum_dec. f_equal; f_equal; [|now rewrite (Permutation_length H)].
  induction H; cbn [map zsum]; lia.
Qed.

(** ** The decisions of a log *)
Definition is_dec (u : cupdate) : bool := d_count (cu_dec u) =? 1.
Definition the_dec (u : cupdate) : Z * Z := (d_pages (cu_dec u), cu_num u).
Definition decs (l : list cupdate) : list (Z * Z) := map the_dec (filter is_dec l).
Definition upd_ok (u : cupdate) : Prop := 0 <= cu_num u /\ 0 <= cu_peak u /\ ((exists p, cu_dec u = d_one p) \/ cu_dec u = d_zero).
Definition F (log : list (Z * cupdate)) (x : Z) : centry := fold_left ce_report (at_epoch log x) centry_nil.
Definition decs_at (log : list (Z * cupdate)) (x : Z) : list (Z * Z) := decs (at_epoch log x).
Definition decs_of (log : list (Z * cupdate)) : list (Z * Z) := decs (map snd log).

Lemma decs_app a b : decs (a ++ b) = decs a ++ decs b.
Proof. unfold decs. now rewrite filter_app, map_app. Qed.

Lemma d_add_zero l : d_add (sum_dec l) d_zero = sum_dec l.
Proof. unfold d_add, sum_dec, d_zero. cbn [d_pages d_count]. rewrite !Z.add_0_r. unfold wrap64. now rewrite !Zmod_mod. Qed.

Lemma ce_fold l : Forall upd_ok l ->
  let e := fold_left ce_report l centry_nil in
  ce_dec e = sum_dec (decs l) /\ 0 <= ce_num e /\ (forall u, In u l -> cu_peak u <= ce_peak e /\ cu_num u <= ce_num e).
Proof.
  induction l as [|u l IH] using rev_ind; intros Fo; cbv zeta.
  - cbn. split; [reflexivity|]. split; [lia|intros u []].
  - apply Forall_app in Fo as (Fo & Fu). inversion Fu as [|? ? (U1 & U2 & U3) _]; subst. destruct (IH Fo) as (I1 & I2 & I3). rewrite fold_left_app. cbn [fold_left].
    set (e := fold_left ce_report l centry_nil) in *. unfold ce_report. cbn [ce_dec ce_num ce_peak]. split; [|split; [lia|]].
    + rewrite I1, decs_app. destruct U3 as [(p & E)|E].
      * assert (Ed : decs [u] = [(p, cu_num u)]) by (unfold decs, is_dec, the_dec; cbn [filter]; rewrite E; cbn; rewrite E; reflexivity).
        rewrite Ed, E. apply sum_dec_snoc.
      * assert (Ed : decs [u] = []) by (unfold decs, is_dec; cbn [filter]; rewrite E; reflexivity). rewrite Ed, E, app_nil_r. apply d_add_zero.
    + intros w Hw. apply in_app_or in Hw as [Hw|[->|[]]]; [|lia]. specialize (I3 w Hw). lia.
Qed.

(** ** The callback *)
Definition add_all (f : Z -> centry) (a : decided) (l : list Z) : decided := fold_left (fun a x => d_add a (ce_dec (f x))) l a.

Lemma confirm_spec cur (f : Z -> centry) l : forall ents largest ok pend, StronglySorted Z.gt l ->
  map snd ents = map f l -> (forall o d e, In (o, d, e) ents -> o <> 0) ->
  exists Cn Pn (lg : Z), confirm cur ents (largest, ok, pend) = (lg, add_all f ok Cn, add_all f pend Pn) /\
    incl Cn l /\ incl Pn l /\ NoDup (Cn ++ Pn) /\ (forall x, In x Cn -> ce_num (f x) <= cur) /\
    (forall x, In x (Cn ++ Pn) -> largest < ce_num (f x) /\ forall y, In y l -> x < y -> ce_peak (f y) < ce_num (f x)).
Proof.
  induction l as [|a l IH]; intros ents largest ok pend So Em Ho.
  - destruct ents; [|discriminate]. exists [], [], largest. split; [reflexivity|]. split; [intros x []|]. split; [intros x []|]. split; [apply NoDup_nil|]. split; intros x [].
  - destruct ents as [|((o & d) & e) ents]; [discriminate|]. cbn [map snd] in Em. inversion Em as [[Ee Em']]. subst e.
    pose proof (Ho o d _ (or_introl eq_refl)) as No. cbn [confirm]. apply Z.eqb_neq in No. rewrite No. cbv zeta.
    set (k := (0 <? d_count (ce_dec (f a))) && (largest <? ce_num (f a))).
    apply StronglySorted_inv in So as (So & Sa). rewrite Forall_forall in Sa.
    destruct (IH ents (Z.max largest (ce_peak (f a))) (if k && (ce_num (f a) <=? cur) then d_add ok (ce_dec (f a)) else ok)
       (if k && negb (ce_num (f a) <=? cur) then d_add pend (ce_dec (f a)) else pend) So Em' ltac:(intros o' d' e' H'; apply (Ho o' d' e'); now right))
      as (Cn & Pn & lg & E & I1 & I2 & I3 & I4 & I5).
    assert (Na : ~ In a (Cn ++ Pn)). { intros H. apply in_app_or in H as [H|H]; [apply I1 in H|apply I2 in H]; specialize (Sa _ H); lia. }
    assert (Rest : forall x, In x (Cn ++ Pn) -> largest < ce_num (f x) /\ forall y, In y (a :: l) -> x < y -> ce_peak (f y) < ce_num (f x)).
    { intros x Hx. destruct (I5 x Hx) as (A & B). split; [lia|]. intros y [<-|Hy] L; [lia|exact (B y Hy L)]. }
    assert (Here : k = true -> largest < ce_num (f a) /\ forall y, In y (a :: l) -> a < y -> ce_peak (f y) < ce_num (f a)).
    { intros Ek. unfold k in Ek. apply andb_true_iff in Ek as (_ & Ek). split; [lia|]. intros y [<-|Hy] L; [lia|]. specialize (Sa _ Hy). lia. }
    rewrite E. clear E Em Em' Ho. destruct k eqn:Ek; cbn [andb]; [destruct (Z.leb_spec (ce_num (f a)) cur) as [Hc|Hc]; cbn [negb]|].
    + exists (a :: Cn), Pn, lg. split; [reflexivity|]. split; [intros x [<-|H]; [now left|right; apply I1, H]|]. split; [intros x H; right; apply I2, H|].
      split; [cbn [app]; now constructor|]. split; [intros x [<-|H]; [exact Hc|apply I4, H]|]. intros x [<-|Hx]; [now apply Here|now apply Rest].
    + exists Cn, (a :: Pn), lg. split; [reflexivity|]. split; [intros x H; right; apply I1, H|]. split; [intros x [<-|H]; [now left|right; apply I2, H]|].
      split; [apply NoDup_Add with a (Cn ++ Pn); [apply Add_app|split; assumption]|]. split; [exact I4|].
      intros x Hx. apply in_app_or in Hx as [Hx|[<-|Hx]]; [apply Rest, in_or_app; now left|now apply Here|apply Rest, in_or_app; now right].
    + exists Cn, Pn, lg. split; [reflexivity|]. split; [intros x H; right; apply I1, H|]. split; [intros x H; right; apply I2, H|]. auto.
Qed.

Lemma add_all_sum log l : (forall e u, In (e, u) log -> upd_ok u) -> forall a, add_all (F log) (sum_dec a) l = sum_dec (a ++ flat_map (decs_at log) l).
Proof.
  intros U. induction l as [|x l IH]; intros a; cbn [flat_map]; [now rewrite app_nil_r|]. unfold add_all in *. cbn [fold_left].
  assert (E : ce_dec (F log x) = sum_dec (decs_at log x)).
  { apply (ce_fold (at_epoch log x)). rewrite Forall_forall. intros u Hu. apply in_at_epoch in Hu. exact (U _ _ Hu). }
  rewrite E, sum_dec_app, IH, app_assoc. reflexivity.
Qed.

(** ** Distinct epochs hold distinct decisions *)
Lemma split_epoch (log : list (Z * cupdate)) x : Permutation (decs_of log) (decs_at log x ++ decs_of (filter (fun y => negb (fst y =? x)) log)).
Proof.
  unfold decs_of, decs_at, at_epoch. induction log as [|(e & u) log IH]; [constructor|]. cbn [filter map fst snd]. destruct (e =? x); cbn [negb map snd].
  - unfold decs in *. cbn [filter map]. destruct (is_dec u); cbn [map]; [|exact IH]. constructor. exact IH.
  - unfold decs in *. cbn [filter map]. destruct (is_dec u); cbn [map]; [|exact IH]. apply Permutation_cons_app. exact IH.
Qed.
Lemma other_epoch (log : list (Z * cupdate)) x y : x <> y -> at_epoch (filter (fun y => negb (fst y =? x)) log) y = at_epoch log y.
Proof.
  intros N. unfold at_epoch. f_equal. induction log as [|(e & u) log IH]; [reflexivity|]. cbn [filter fst]. destruct (Z.eqb_spec e x) as [->|H]; cbn [negb].
  - rewrite IH. replace (x =? y) with false by lia. reflexivity.
  - cbn [filter fst]. rewrite IH. reflexivity.
Qed.
Lemma split_epochs E : NoDup E -> forall log, exists r, Permutation (decs_of log) (flat_map (decs_at log) E ++ r).
Proof.
  induction 1 as [|x E Nx ND IH]; intros log; [exists (decs_of log); apply Permutation_refl|].
  destruct (IH (filter (fun y => negb (fst y =? x)) log)) as (r & P). exists r. cbn [flat_map]. rewrite <- app_assoc.
  etransitivity; [apply (split_epoch log x)|]. apply Permutation_app_head. etransitivity; [exact P|]. apply Permutation_app_tail.
  replace (flat_map (decs_at (filter (fun y => negb (fst y =? x)) log)) E) with (flat_map (decs_at log) E); [apply Permutation_refl|].
  rewrite !flat_map_concat_map. f_equal. apply map_ext_in. intros y Hy. unfold decs_at. rewrite other_epoch; [reflexivity|]. intros ->. contradiction.
Qed.

(** ** Invariant *)
Record cinv (c : scfg) (s : cstate) (last : Z) (log : list (Z * cupdate)) (goneC goneR all : list (Z * Z)) (demands : list Z) (C : list Z) (pend rest : list (Z * Z)) : Prop := {
  v_reach : reach_ts (sc_slots c) centry_nil ce_report (cs_t s) last log;
  v_upd : forall e u, In (e, u) log -> upd_ok u;
  v_all : Permutation all (goneC ++ goneR ++ decs_of log);
  v_parts : Permutation all (goneC ++ flat_map (decs_at log) C ++ pend ++ rest);
  v_total : cs_total s = sum_dec all;
  v_correct : cs_correct s = sum_dec (goneC ++ flat_map (decs_at log) C);
  v_pending : cs_pending s = sum_dec pend;
  v_nodup : NoDup C;
  v_conf : forall x, In x C -> exists e u, x < e /\ In (e, u) log /\ ce_num (F log x) <= cu_peak u;
  v_gone : forall d, In d goneC -> exists q, In q demands /\ snd d <= q;
  v_dem : forall x, In x C -> exists q, In q demands /\ ce_num (F log x) <= q;
  v_last : 0 <= cs_last s;
  v_peaks : forall u, In (last, u) log -> cu_peak u <= cs_last s }.

Lemma log_le {P V} K (nil : P) (rep : P -> V -> P) t last log e v : 0 < K -> reach_ts K nil rep t last log -> In (e, v) log -> e <= last.
Proof. intros HK R H. destruct (reach_inv _ _ _ _ _ _ HK R) as (h & I). apply (chain_le h last e (i_chain _ _ _ _ _ _ _ I)). exact (i_log _ _ _ _ _ _ _ I _ _ H). Qed.

Lemma at_snoc (log : list (Z * cupdate)) e u x : x <> e -> at_epoch (log ++ [(e, u)]) x = at_epoch log x.
Proof. intros N. rewrite at_epoch_app. unfold at_epoch at 2. cbn [filter fst]. replace (e =? x) with false by lia. apply app_nil_r. Qed.
Lemma flat_snoc (log : list (Z * cupdate)) e u C : (forall x, In x C -> x <> e) -> flat_map (decs_at (log ++ [(e, u)])) C = flat_map (decs_at log) C.
Proof. intros H. rewrite !flat_map_concat_map. f_equal. apply map_ext_in. intros x Hx. unfold decs_at. rewrite at_snoc; auto. Qed.
Lemma decs_of_snoc log e u : decs_of (log ++ [(e, u)]) = decs_of log ++ decs [u].
Proof. unfold decs_of. now rewrite map_app, decs_app. Qed.

Lemma dec_num log x d : (forall e u, In (e, u) log -> upd_ok u) -> In d (decs_at log x) -> snd d <= ce_num (F log x).
Proof.
  intros U H. unfold decs_at, decs in H. apply in_map_iff in H as (u & <- & H). apply filter_In in H as (H & _).
  assert (Fo : Forall upd_ok (at_epoch log x)). { rewrite Forall_forall. intros w Hw. apply in_at_epoch in Hw. exact (U _ _ Hw). }
  destruct (ce_fold _ Fo) as (_ & _ & M). apply (M u H).
Qed.

(** The clock went backwards: what was confirmed stays so, the rest is forgotten. *)
Lemma cinv_regress c s last log gC gR all dem C pend rest e u : cinv c s last log gC gR all dem C pend rest ->
  0 <= e < 2 ^ 63 -> e < last -> upd_ok u ->
  let gC' := gC ++ flat_map (decs_at log) C in
  reach_ts (sc_slots c) centry_nil ce_report (snd (ts_report (sc_slots c) centry_nil ce_report (cs_t s) e u)) e [(e, u)] /\
  Permutation all (gC' ++ pend ++ rest) /\ cs_correct s = sum_dec gC' /\ (forall d, In d gC' -> exists q, In q dem /\ snd d <= q).
Proof.
  intros I He Hl Hu. cbv zeta. pose proof I as [A1 A2 A3 A4 A5 A6 A7 A8 A9 A10 A11 A12 A13]. split; [|split; [|split]].
  - pose proof (R_report _ _ _ _ _ _ e u A1 He) as R. replace (e <? last) with true in R by lia. exact R.
  - now rewrite <- app_assoc.
  - exact A6.
  - intros d Hd. apply in_app_or in Hd as [Hd|Hd]; [now apply A10|]. apply in_flat_map in Hd as (x & Hx & Hd). destruct (A11 x Hx) as (q & Hq & Le).
    exists q. split; [exact Hq|]. pose proof (dec_num log x d A2 Hd). lia.
Qed.

Lemma cinv_skip c s last log gC gR all dem C pend rest e p k : 0 < sc_slots c ->
  cinv c s last log gC gR all dem C pend rest -> 0 <= e < 2 ^ 63 -> 0 <= k ->
  exists log' gC' gR' C' rest', cinv c (cs_skip c s e p k) e log' gC' gR' (all ++ [(p, k)]) dem C' (pend ++ [(p, k)]) rest'.
Proof.
  intros HK I He Hk. pose proof I as [A1 A2 A3 A4 A5 A6 A7 A8 A9 A10 A11 A12 A13].
  set (u := CUpdate (d_one p) k 0). assert (Hu : upd_ok u) by (unfold upd_ok, u; cbn; split; [lia|]; split; [lia|left; now exists p]).
  assert (Du : decs [u] = [(p, k)]) by reflexivity.
  destruct (Z_lt_le_dec e last) as [Hl|Hl].
  - destruct (cinv_regress c s last log gC gR all dem C pend rest e u I He Hl Hu) as (R & P & Ec & G).
    exists [(e, u)], (gC ++ flat_map (decs_at log) C), (pend ++ rest), [], rest. unfold cs_skip. constructor; cbn [cs_t cs_total cs_correct cs_pending cs_last flat_map].
    + exact R.
    + intros e' u' [E|[]]. inversion E; subst. exact Hu.
    + change (decs_of [(e, u)]) with (decs [u]). rewrite Du. rewrite app_assoc. now apply Permutation_app_tail.
    + cbn [app]. etransitivity; [apply Permutation_app_tail, P|]. rewrite <- !app_assoc. do 2 apply Permutation_app_head. apply Permutation_app_head, Permutation_app_comm.
    + rewrite A5. apply sum_dec_snoc.
    + rewrite app_nil_r. exact Ec.
    + rewrite A7. apply sum_dec_snoc.
    + constructor.
    + intros x [].
    + exact G.
    + intros x [].
    + exact A12.
    + intros u' [E|[]]. inversion E; subst. exact A12.
  - assert (Nx : forall x, In x C -> x <> e). { intros x Hx. destruct (A9 x Hx) as (e' & u' & L & Hi & _). pose proof (log_le _ _ _ _ _ _ _ _ HK A1 Hi). lia. }
    assert (EF : forall x, In x C -> F (log ++ [(e, u)]) x = F log x) by (intros x Hx; unfold F; now rewrite at_snoc by auto).
    exists (log ++ [(e, u)]), gC, gR, C, rest. unfold cs_skip. constructor; cbn [cs_t cs_total cs_correct cs_pending cs_last].
    + pose proof (R_report _ _ _ _ _ _ e u A1 He) as R. replace (e <? last) with false in R by lia. exact R.
    + intros e' u' H. apply in_app_or in H as [H|[E|[]]]; [exact (A2 _ _ H)|]. inversion E; subst. exact Hu.
    + rewrite decs_of_snoc, Du. etransitivity; [apply Permutation_app_tail, A3|]. rewrite <- !app_assoc. apply Permutation_refl.
    + rewrite flat_snoc by exact Nx. etransitivity; [apply Permutation_app_tail, A4|]. rewrite <- !app_assoc. do 3 apply Permutation_app_head. apply Permutation_app_comm.
    + rewrite A5. apply sum_dec_snoc.
    + rewrite flat_snoc by exact Nx. exact A6.
    + rewrite A7. apply sum_dec_snoc.
    + exact A8.
    + intros x Hx. rewrite EF by exact Hx. destruct (A9 x Hx) as (e' & u' & L & Hi & Q). exists e', u'. split; [exact L|]. split; [apply in_or_app; now left|exact Q].
    + exact A10.
    + intros x Hx. rewrite EF by exact Hx. auto.
    + exact A12.
    + intros u' H. apply in_app_or in H as [H|[E|[]]].
      * pose proof (log_le _ _ _ _ _ _ _ _ HK A1 H). assert (e = last) by lia. subst e. now apply A13.
      * inversion E; subst. exact A12.
Qed.

Lemma nodup_app_l (a b : list Z) : NoDup (a ++ b) -> NoDup a.
Proof.
  induction a as [|x a IH]; intros H; [constructor|]. inversion H; subst. constructor; [|now apply IH].
  intros Hx. apply H2. apply in_or_app. now left.
Qed.
Lemma chain_sorted h : forall e, chain e h -> StronglySorted Z.gt (map fst h).
Proof.
  induction h as [|(x & d) h IH]; intros e Ch; constructor.
  - apply (IH (e - d)). apply Ch.
  - rewrite Forall_forall. intros y Hy. destruct Ch as (-> & Hd & Ch). pose proof (chain_le _ _ _ Ch Hy). cbn [fst]. lia.
Qed.
Lemma sorted_firstn h k : StronglySorted Z.gt h -> StronglySorted Z.gt (firstn k h).
Proof.
  revert k. induction h as [|x h IH]; intros [|k] So; cbn; try constructor; apply StronglySorted_inv in So as (So & Fo); [now apply IH|now apply forall_firstn].
Qed.
Lemma sorted_prefix l k x y : StronglySorted Z.gt l -> In x (firstn k l) -> In y l -> x < y -> In y (firstn k l).
Proof.
  revert k. induction l as [|a l IH]; intros [|k] So Hx Hy L; try (destruct Hx; fail). apply StronglySorted_inv in So as (So & Fo). rewrite Forall_forall in Fo.
  cbn [firstn] in *. destruct Hy as [->|Hy]; [now left|]. right. destruct Hx as [->|Hx]; [specialize (Fo _ Hy); lia|]. exact (IH k So Hx Hy L).
Qed.

Lemma cinv_peak c s last log gC gR all dem C pend rest e p : 0 < sc_slots c -> 0 < sc_epoch c -> 0 <= sc_summary c ->
  cinv c s last log gC gR all dem C pend rest -> 0 <= e < 2 ^ 63 -> 0 <= p -> In p dem ->
  exists log' gC' gR' C' pend' rest', cinv c (cs_peak c s e p) e log' gC' gR' all dem C' pend' rest'.
Proof.
  intros HK Hep Hsum I He Hp Hd. pose proof I as [A1 A2 A3 A4 A5 A6 A7 A8 A9 A10 A11 A12 A13].
  set (u := CUpdate d_zero 0 p). assert (Hu : upd_ok u) by (unfold upd_ok, u; cbn; split; [lia|]; split; [lia|now right]).
  (* the state after the report, before the iteration *)
  assert (Pre : exists log1 gC1 gR1 C1, reach_ts (sc_slots c) centry_nil ce_report (snd (ts_report (sc_slots c) centry_nil ce_report (cs_t s) e u)) e log1 /\
     (forall e' u', In (e', u') log1 -> upd_ok u') /\ In (e, u) log1 /\ Permutation all (gC1 ++ gR1 ++ decs_of log1) /\
     cs_correct s = sum_dec (gC1 ++ flat_map (decs_at log1) C1) /\ NoDup C1 /\
     (forall x, In x C1 -> exists e' u', x < e' /\ In (e', u') log1 /\ ce_num (F log1 x) <= cu_peak u' /\ (e' = e -> last = e /\ cu_peak u' <= cs_last s)) /\
     (forall d, In d gC1 -> exists q, In q dem /\ snd d <= q) /\ (forall x, In x C1 -> exists q, In q dem /\ ce_num (F log1 x) <= q) /\
     (forall u', In (e, u') log1 -> u' = u \/ cu_peak u' <= cs_last s /\ last = e)).
  { destruct (Z_lt_le_dec e last) as [Hl|Hl].
    - destruct (cinv_regress c s last log gC gR all dem C pend rest e u I He Hl Hu) as (R & P & Ec & G).
      exists [(e, u)], (gC ++ flat_map (decs_at log) C), (pend ++ rest), []. split; [exact R|]. split; [intros e' u' [E|[]]; inversion E; subst; exact Hu|].
      split; [now left|]. split; [change (decs_of [(e, u)]) with (@nil (Z * Z)); now rewrite app_nil_r|]. split; [cbn [flat_map]; now rewrite app_nil_r|].
      split; [constructor|]. split; [intros x []|]. split; [exact G|]. split; [intros x []|]. intros u' [E|[]]. inversion E. now left.
    - assert (Nx : forall x, In x C -> x <> e). { intros x Hx. destruct (A9 x Hx) as (e' & u' & L & Hi & _). pose proof (log_le _ _ _ _ _ _ _ _ HK A1 Hi). lia. }
      assert (EF : forall x, In x C -> F (log ++ [(e, u)]) x = F log x) by (intros x Hx; unfold F; now rewrite at_snoc by auto).
      exists (log ++ [(e, u)]), gC, gR, C. split.
      { pose proof (R_report _ _ _ _ _ _ e u A1 He) as R. replace (e <? last) with false in R by lia. exact R. }
      split; [intros e' u' H; apply in_app_or in H as [H|[E|[]]]; [exact (A2 _ _ H)|inversion E; subst; exact Hu]|].
      split; [apply in_or_app; right; now left|]. split; [rewrite decs_of_snoc; change (decs [u]) with (@nil (Z * Z)); now rewrite app_nil_r|].
      split; [now rewrite flat_snoc by exact Nx|]. split; [exact A8|]. split.
      { intros x Hx. rewrite EF by exact Hx. destruct (A9 x Hx) as (e' & u' & L & Hi & Q). exists e', u'. split; [exact L|]. split; [apply in_or_app; now left|].
        split; [exact Q|]. intros ->. pose proof (log_le _ _ _ _ _ _ _ _ HK A1 Hi). assert (last = e) by lia. subst last. split; [reflexivity|now apply A13]. }
      split; [exact A10|]. split; [intros x Hx; rewrite EF by exact Hx; auto|].
      intros u' H. apply in_app_or in H as [H|[E|[]]]; [|inversion E; now left]. right. pose proof (log_le _ _ _ _ _ _ _ _ HK A1 H). assert (last = e) by lia. subst last. split; [now apply A13|reflexivity]. }
  pose proof (timeseries_moved _ _ _ _ _ _ _ _ e u HK A1 He) as Mv.
  destruct Pre as (log1 & gC1 & gR1 & C1 & R1 & U1 & Hin & P1 & Ec1 & ND1 & Cf1 & G1 & D1 & Pk1).
  unfold cs_peak. fold u. destruct (ts_report (sc_slots c) centry_nil ce_report (cs_t s) e u) as (moved & t1) eqn:Er. cbn [fst snd] in *.
  set (lastv := if moved then 0 else cs_last s) in *.
  assert (Lv : 0 <= lastv) by (unfold lastv; destruct moved; lia).
  assert (Lv2 : last = e -> lastv = cs_last s). { intros El. unfold lastv. destruct moved; [|reflexivity]. exfalso. assert (last < e) by (apply Mv; reflexivity). lia. }
  destruct (reach_inv _ _ _ _ _ _ HK R1) as (h & Iv). pose proof (i_chain _ _ _ _ _ _ _ Iv) as Ch. pose proof (chain_sorted _ _ Ch) as So.
  unfold back. replace (sc_summary c + sc_epoch c =? 0) with false by lia.
  assert (Hw : 1 <= (sc_summary c + sc_epoch c + sc_epoch c - 1) / sc_epoch c) by (apply Z.div_le_lower_bound; lia).
  destruct (visited _ _ _ _ _ _ _ _ HK R1 Iv Hw) as (k & Hk1 & Hk2 & Ek & Hen & _ & _). rewrite Ek.
  pose proof (visited_payloads _ _ _ _ _ _ _ Hen Hk2) as Ep. clear Ek Hw. destruct k as [|k]; [lia|]. destruct h as [|(x0 & d0) h]; [cbn in Hk2; lia|].
  assert (x0 = e) by (destruct Ch as (-> & _); reflexivity). subst x0.
  cbn [zseq map firstn fst] in Ep. inversion Ep as [[E0 Ep']]. clear Ep E0. cbn [zseq map confirm]. rewrite Z.eqb_refl.
  set (ents := map (fun i => (i, fst (entry (sc_slots c) t1 i), snd (entry (sc_slots c) t1 i))) (zseq (0 + 1) k)).
  set (l := map fst (firstn k h)) in *.
  cbn [map fst] in So. apply StronglySorted_inv in So as (So & Sa).
  assert (Sl : StronglySorted Z.gt l) by (unfold l; rewrite <- firstn_map; apply sorted_firstn, So).
  destruct (confirm_spec p (F log1) l ents lastv (cs_correct s) d_zero Sl) as (Cn & Pn & lg & Ecf & I1 & I2 & I3 & I4 & I5).
  { unfold ents. rewrite map_map. cbn [snd]. exact Ep'. }
  { intros o d en Ho. unfold ents in Ho. apply in_map_iff in Ho as (i & Ei & Hi). inversion Ei; subst. apply zseq_In in Hi. lia. }
  rewrite Ecf. clear Ecf.
  assert (Le : forall x, In x l -> x < e). { intros x Hx. rewrite Forall_forall in Sa. unfold l in Hx. rewrite <- firstn_map in Hx. specialize (Sa x ltac:(rewrite <- (firstn_skipn k (map fst h)); apply in_or_app; now left)). lia. }
  assert (Dis : forall x, In x C1 -> ~ In x (Cn ++ Pn)).
  { intros x Hx Hn. destruct (Cf1 x Hx) as (e' & u' & L & Hi & Q & Qe). destruct (I5 x Hn) as (B1 & B2).
    assert (Hxl : In x l) by (apply in_app_or in Hn as [Hn|Hn]; [now apply I1|now apply I2]).
    destruct (Z.eq_dec e' e) as [->|Ne].
    - destruct (Qe eq_refl) as (El & Q2). rewrite (Lv2 El) in B1. lia.
    - assert (Hl : In e' l).
      { pose proof (i_log _ _ _ _ _ _ _ Iv _ _ Hi) as Hh. cbn [map fst] in Hh. destruct Hh as [Hh|Hh]; [congruence|]. unfold l in *. rewrite <- firstn_map in *. exact (sorted_prefix _ _ _ _ So Hxl Hh L). }
      specialize (B2 e' Hl L).
      assert (Fo : Forall upd_ok (at_epoch log1 e')). { rewrite Forall_forall. intros w Hw. apply in_at_epoch in Hw. exact (U1 _ _ Hw). }
      destruct (ce_fold _ Fo) as (_ & _ & M). specialize (M u' ltac:(now apply in_at_epoch)). unfold F in *. lia. }
  assert (NDall : NoDup (C1 ++ Cn ++ Pn)).
  { clear - ND1 I3 Dis. induction ND1 as [|x C1 Nx ND IH]; [exact I3|]. cbn [app]. constructor.
    - intros H. apply in_app_or in H as [H|H]; [contradiction|]. apply (Dis x); [now left|exact H].
    - apply IH. intros y Hy. apply Dis. now right. }
  destruct (split_epochs _ NDall log1) as (r & Pr). rewrite !flat_map_app in Pr.
  exists log1, gC1, gR1, (C1 ++ Cn), (flat_map (decs_at log1) Pn), (gR1 ++ r). constructor; cbn [cs_t cs_total cs_correct cs_pending cs_last].
  - exact R1.
  - exact U1.
  - exact P1.
  - etransitivity; [exact P1|]. apply Permutation_app_head. rewrite flat_map_app. etransitivity; [apply Permutation_app_head, Pr|].
    etransitivity; [apply Permutation_app_swap_app|]. rewrite <- !app_assoc. apply Permutation_refl.
  - exact A5.
  - rewrite Ec1, add_all_sum by exact U1. now rewrite flat_map_app, <- app_assoc.
  - change d_zero with (sum_dec []). now rewrite add_all_sum by exact U1.
  - apply nodup_app_l with Pn. now rewrite <- app_assoc.
  - intros x Hx. apply in_app_or in Hx as [Hx|Hx].
    + destruct (Cf1 x Hx) as (e' & u' & L & Hi & Q & _). exists e', u'. auto.
    + exists e, u. split; [apply Le, I1, Hx|]. split; [exact Hin|]. cbn. apply I4, Hx.
  - exact G1.
  - intros x Hx. apply in_app_or in Hx as [Hx|Hx]; [now apply D1|]. exists p. split; [exact Hd|apply I4, Hx].
  - lia.
  - intros u' Hu'. destruct (Pk1 u' Hu') as [->|(Q & El)]; [cbn; lia|]. rewrite (Lv2 El). lia.
Qed.
