(** C09, C39: concrete histories of the page heap, and what does not hold of it. *)
From Coq Require Import Permutation.
From Verif Require Import Base Bitmap BitmapProofs RangeTrackerProofs RangeTrackerProofs2 RangeTrackerProps PageTracker PageTrackerProps HugeRegion HugeRegionProofs HugeRegionProofs2 HugeRegionProps HugeRegionSetProps HintedLists HintedListsProofs Filler FillerProofs FillerProofs2 FillerProofs3 FillerProofs4 FillerProofs6 FillerProps.
From Verif Require Import HugeAddressMap HugeAddressMapProps HugeAllocator HugeAllocatorProps HugeCache HugeCacheProps Hpaa HpaaProofs.
From Verif Require Import HpaaProps.

(** ** An example.  Hugepages of 256 pages, regions of 4 hugepages. *)
Definition ex_env (g : option hrange) : henv := HEnv g 1 2 0 0.
Definition st3 (d : hpaa) (o : option (hpaa * aout * list hrange)) : hpaa := match o with Some (a, _, _) => a | None => d end.
Definition st2 (d : hpaa) (o : option (hpaa * Z)) : hpaa := match o with Some (a, _) => a | None => d end.
Definition st1 (d : hpaa) (o : option hpaa) : hpaa := match o with Some a => a | None => d end.
Lemma st3_eq d o out g : match o with Some (_, out', g') => out' = out /\ g' = g | None => False end -> o = Some (st3 d o, out, g).
Proof. destruct o as [((a, out'), g')|]; [intros (-> & ->); reflexivity|contradiction]. Qed.
Lemma st2_eq d o p : match o with Some (_, p') => p' = p | None => False end -> o = Some (st2 d o, p).
Proof. destruct o as [(a, p')|]; [intros ->; reflexivity|contradiction]. Qed.
Lemma st1_eq d o : match o with Some _ => True | None => False end -> o = Some (st1 d o).
Proof. destruct o; [reflexivity|contradiction]. Qed.
Definition ex_t0 : Z -> ptracker := fun _ => pt_new 256 false.
Definition ex0 := hp_init ex_t0 true.
(* ten pages: a new hugepage is needed, the system grants eight *)
Definition ex1 := st3 ex0 (hp_new_aligned 256 4 true ex0 10 1 false 1 (ex_env None) (ex_env (Some (64, 8)))).
Definition ex2 := st2 ex1 (hp_refill_end 256 true ex1 64 10 false 1).
(* 300 pages, on two hugepages; the rest of the second goes to the filler *)
Definition ex3 := st3 ex2 (hp_new_aligned 256 4 true ex2 300 1 false 1 (ex_env None) (ex_env None)).
(* three pages, aligned to a hugepage *)
Definition ex4 := st3 ex3 (hp_new_aligned 256 4 true ex3 3 256 false 1 (ex_env None) (ex_env None)).
(* 240 pages: there is room on the first hugepage *)
Definition ex5 := st3 ex4 (hp_new_aligned 256 4 true ex4 240 1 false 1 (ex_env None) (ex_env None)).
(* the 300 pages are given back *)
Definition ex6 := st1 ex5 (hp_delete 256 4 true ex5 16640 300 true 1 true (fun _ _ => true) 3 4).

Lemma no_grant G n : os_ok G n None.
Proof. intros g E. discriminate. Qed.
Lemma some_alloc P K sub a L H FL G n align o out L' H' : hp_reach P K sub a L H FL G -> 0 < n ->
  let r := hp_new_aligned P K sub a n align false o (ex_env None) (ex_env None) in
  match r with Some (_, out', g') => out' = out /\ g' = [] | None => False end -> settle L H n false o out = (L', H') -> hp_reach P K sub (st3 a r) L' H' FL G.
Proof.
  intros Hr Hn r E El. apply (st3_eq a) in E. apply (hp_alloc P K sub a L H FL G n align false o (ex_env None) (ex_env None) _ out [] L' H' Hr Hn); [discriminate| |exact E|exact El].
  split; apply no_grant.
Qed.
Definition ex_live : list span := [Span 16394 240 1 false; Span 17152 3 1 true; Span 16384 10 1 false].
Lemma ex2_reach : hp_reach 256 4 true ex2 [Span 16384 10 1 false] [] [] [(64, 8)].
Proof.
  apply (hp_resume 256 4 true ex1 [] [] (Hold 64 10 false 1) [] [] [(64, 8)] ex2 16384); [|apply (st2_eq ex1); vm_compute; reflexivity].
  refine (hp_alloc 256 4 true ex0 [] [] [] [] 10 1 false 1 (ex_env None) (ex_env (Some (64, 8))) ex1 (AHold 64 true) [(64, 8)] [] [Hold 64 10 false 1] (hp_start 256 4 true ex_t0 true) ltac:(lia) ltac:(discriminate) _ _ eq_refl).
  - split; [apply no_grant|]. intros g E. injection E as <-. cbn [fst snd]. split; [lia|]. split; [vm_compute; discriminate|]. intros p _ [x [[] _]].
  - apply (st3_eq ex0). vm_compute. split; reflexivity.
Qed.
Lemma ex5_reach : hp_reach 256 4 true ex5 [Span 16394 240 1 false; Span 17152 3 1 true; Span 16640 300 1 true; Span 16384 10 1 false] [] [] [(64, 8)].
Proof.
  apply (some_alloc 256 4 true ex4 [Span 17152 3 1 true; Span 16640 300 1 true; Span 16384 10 1 false] [] [] [(64, 8)] 240 1 1 (ADone 16394 240 false false)); [|lia|vm_compute; split; reflexivity|reflexivity].
  apply (some_alloc 256 4 true ex3 [Span 16640 300 1 true; Span 16384 10 1 false] [] [] [(64, 8)] 3 256 1 (ADone 17152 3 true true)); [|lia|vm_compute; split; reflexivity|reflexivity].
  apply (some_alloc 256 4 true ex2 [Span 16384 10 1 false] [] [] [(64, 8)] 300 1 1 (ADone 16640 300 true true)); [|lia|vm_compute; split; reflexivity|reflexivity].
  exact ex2_reach.
Qed.
Lemma ex6_reach : hp_reach 256 4 true ex6 ex_live [] [] [(64, 8)].
Proof.
  apply (hp_free 256 4 true ex5 [Span 16394 240 1 false; Span 17152 3 1 true] (Span 16640 300 1 true) [Span 16384 10 1 false] [] [] [(64, 8)] true (fun _ _ => true) 3 4); [exact ex5_reach|].
  apply (st1_eq ex5). vm_compute. exact I.
Qed.
(** The numbers add up; three hugepages are in the filler, one of them shared. *)
Example ex6_stats : hp_stats 256 4 ex6 = (2048, 771, 1024) /\ live_total ex_live = 253 /\ (hp_small ex6, hp_slack ex6, hp_donated ex6, hp_ab_pages ex6) = (13, 16, 1, 0).
Proof. vm_compute. split; [|split]; reflexivity. Qed.
Example ex6_disjoint : ForallOrdPairs disj (map rng ex_live).
Proof. exact (proj1 (live_ranges_disjoint 256 4 true ex6 ex_live [] [] _ ltac:(lia) ltac:(lia) ex6_reach)). Qed.

(** Regions come into use when much has been lost to rounding: 33 ranges of 257 pages first, then one of 300. *)
Fixpoint many (k : nat) (a : hpaa) (n : Z) : hpaa := match k with O => a | S k => many k (st3 a (hp_new_aligned 256 4 true a n 1 false 1 (ex_env None) (ex_env None))) n end.
Fixpoint many_live (k : nat) (a : hpaa) (n : Z) (L : list span) : option (list span) :=
  match k with
  | O => Some L
  | S k => match hp_new_aligned 256 4 true a n 1 false 1 (ex_env None) (ex_env None) with
           | Some (a', ADone p n' don _, []) => many_live k a' n (Span p n' 1 don :: L)
           | _ => None
           end
  end.
Lemma many_reach n G k : 0 < n -> forall a L L', hp_reach 256 4 true a L [] [] G -> many_live k a n L = Some L' -> hp_reach 256 4 true (many k a n) L' [] [] G.
Proof.
  intros Hn. induction k as [|k IH]; intros a L L' Hr E; cbn [many many_live] in *; [injection E as <-; assumption|].
  destruct (hp_new_aligned 256 4 true a n 1 false 1 (ex_env None) (ex_env None)) as [((a', out), g)|] eqn:Ea; [|discriminate]. destruct out; try discriminate. destruct g; [|discriminate].
  refine (IH a' _ L' _ E). refine (hp_alloc 256 4 true a L [] [] G n 1 false 1 (ex_env None) (ex_env None) a' _ [] _ _ Hr Hn ltac:(discriminate) (conj (no_grant _ _) (no_grant _ _)) Ea eq_refl).
Qed.
Definition ex10 := st3 ex0 (hp_new_aligned 256 4 true ex0 257 1 false 1 (ex_env None) (ex_env (Some (64, 100)))).
Definition ex11 := many 32 ex10 257.
Definition ex12 := st3 ex11 (hp_new_aligned 256 4 true ex11 300 1 false 1 (ex_env None) (ex_env None)).
Definition ex11_live : list span := match many_live 32 ex10 257 [Span 16384 257 1 true] with Some l => l | None => [] end.
Lemma ex12_reach : hp_reach 256 4 true ex12 (Span 33280 300 1 false :: ex11_live) [] [] [(64, 100)].
Proof.
  refine (some_alloc 256 4 true ex11 ex11_live [] [] [(64, 100)] 300 1 1 (ADone 33280 300 false true) _ _ _ ltac:(lia) _ eq_refl); [|vm_compute; split; reflexivity].
  apply (many_reach 257 [(64, 100)] 32 ltac:(lia) ex10 [Span 16384 257 1 true]); [|vm_compute; reflexivity].
  refine (hp_alloc 256 4 true ex0 [] [] [] [] 257 1 false 1 (ex_env None) (ex_env (Some (64, 100))) ex10 (ADone 16384 257 true true) [(64, 100)] _ _ (hp_start 256 4 true ex_t0 true) ltac:(lia) ltac:(discriminate) _ _ eq_refl).
  - split; [apply no_grant|]. intros g E. injection E as <-. cbn [fst snd]. split; [lia|]. split; [vm_compute; discriminate|]. intros p _ [x [[] _]].
  - apply (st3_eq ex0). vm_compute. split; reflexivity.
Qed.
Example ex12_regions : length (locs (hp_regions ex12)) = 1%nat /\ length ex11_live = 33%nat /\ hp_tracker ex12 130 = false.
Proof. vm_compute. split; [|split]; reflexivity. Qed.

(** ** What does not hold *)
Definition freed_by (f : filler) (o : option (filler * Z)) : filler := match o with Some (f', _) => f' | None => f end.
Lemma release_free_reach P K sub a L H FL G x os : hp_reach P K sub a L H FL G -> in_filler a x ->
  match handle_release_free P sub (hp_filler a) x os with Some _ => True | None => False end ->
  hp_reach P K sub (hp_set_filler a (freed_by (hp_filler a) (handle_release_free P sub (hp_filler a) x os))) L H FL G.
Proof.
  intros Hr Hx E. destruct (handle_release_free P sub (hp_filler a) x os) as [(f, r)|] eqn:Er; [|contradiction]. cbn [freed_by]. exact (hp_release_free P K sub a L H FL G x os f r Hr Hx Er).
Qed.
Definition ex20 := hp_set_filler ex2 (freed_by (hp_filler ex2) (handle_release_free 256 true (hp_filler ex2) 64 (fun _ _ => true))).
Lemma ex20_reach : hp_reach 256 4 true ex20 [Span 16384 10 1 false] [] [] [(64, 8)].
Proof.
  unfold ex20. apply release_free_reach; [exact ex2_reach| |vm_compute; exact I]. split; vm_compute; [reflexivity|intros []].
Qed.

(** The literal claim, that a release reports exactly the pages it returned to the system, is false: pages that the
    background work released before are reported by the next release. *)
Theorem release_reports_exactly_refuted : exists P K sub a L H FL G n adaptive subrelease max_cold len_max v ans from_partial skip a' r s f u s' f' u',
  1 < P /\ 0 < K /\ hp_reach P K sub a L H FL G /\ 0 <= n /\ 0 <= v_size_min v /\ hp_release P K sub a n adaptive subrelease max_cold len_max v ans from_partial skip a' r /\
  hp_stats P K a = (s, f, u) /\ hp_stats P K a' = (s', f', u') /\ r <> u' - u.
Proof.
  set (v := REnv 0 (fun _ => true) (fun _ => true) (fun _ => 1) (fun _ => 2) (fun _ _ => true)). set (ans := fun _ : Z -> Z -> Z -> bool => True).
  assert (Ew : exists a1, release_whole 256 4 ex20 1 (rs_more_often (hp_regions ex20)) false false v = Some (a1, 0)).
  { assert (H : match release_whole 256 4 ex20 1 (rs_more_often (hp_regions ex20)) false false v with Some (_, r) => r = 0 | None => False end) by (vm_compute; reflexivity). destruct (release_whole 256 4 ex20 1 (rs_more_often (hp_regions ex20)) false false v) as [(a1, r)|]; [subst r; eauto|contradiction]. }
  destruct Ew as (a1 & Ew). assert (HP : 1 < 256) by lia. assert (HK : 0 < 4) by lia. assert (H1 : 0 <= 1) by lia. assert (H0 : 0 <= v_size_min v) by (cbn; lia). destruct (hp_reach_inv 256 4 true ex20 _ _ _ _ HP HK ex20_reach) as (Iv & _).
  destruct (release_whole_ok 256 4 true ex20 _ _ [] [(64, 8)] 1 (rs_more_often (hp_regions ex20)) false false v HP HK Iv H1 H0) as (a1' & r1' & Ew' & I1 & _ & Ef & _). rewrite Ew in Ew'. injection Ew' as <- <-.
  assert (Er : exists f2 r2, release_pages 256 true ans (hp_filler a1) 1 0 None f2 r2).
  { cdest I1. destruct C. exact (filler_release_total 256 true _ _ _ ans (fun _ _ _ => true) 1 0 None ltac:(lia) v_fl Logic.I). }
  destruct Er as (f2 & r2 & Er). assert (Hrel : hp_release 256 4 true ex20 1 false true false 0 v ans 0 None (hp_set_filler a1 f2) (0 + r2)) by (exact (hr_break 256 4 true ex20 1 false true false 0 v ans 0 None a1 0 f2 r2 Ew eq_refl Er)).
  destruct (hp_stats 256 4 ex20) as ((s, f), u) eqn:Es. destruct (hp_stats 256 4 (hp_set_filler a1 f2)) as ((s', f'), u') eqn:Es'.
  exists 256, 4, true, ex20, [Span 16384 10 1 false], [], [], [(64, 8)], 1, false, true, false, 0, v, ans, 0, None, (hp_set_filler a1 f2), (0 + r2), s, f, u, s', f', u'.
  split; [lia|]. split; [lia|]. split; [exact ex20_reach|]. split; [lia|]. split; [cbn; lia|]. split; [exact Hrel|]. split; [exact Es|]. split; [exact Es'|].
  destruct (page_release _ _ _ _ _ _ _ _ _ _ _ _ _ _ _ _ _ _ _ HP HK ex20_reach H1 H0 Hrel) as (Rp & _). destruct (Rp _ _ _ _ _ _ Es Es') as (_ & _ & _ & E & _).
  destruct (filler_part 256 4 true a1 _ _ _ _ ans 1 0 None f2 r2 ltac:(lia) I1 Er) as (_ & E2 & _).
  assert (E3 : unreported ex20 = 246) by (vm_compute; reflexivity). assert (E4 : unreported (hp_set_filler a1 f2) = 0) by exact E2. lia.
Qed.
Print Assumptions release_reports_exactly_refuted.

(** Nor is unmapped a lower bound of what was returned: when the last range of a partly released hugepage is given back
    and the system refuses to take the rest of the hugepage, the whole hugepage counts as unmapped all the same. *)
Theorem unmapped_although_refused_refuted : exists P K sub a s L H FL G a' sy f u sy' f' u',
  1 < P /\ 0 < K /\ hp_reach P K sub a (s :: L) H FL G /\
  hp_delete P K sub a (sp_page s) (sp_len s) (sp_don s) (sp_obj s) false (fun _ _ => false) 3 4 = Some a' /\
  hp_stats P K a = (sy, f, u) /\ hp_stats P K a' = (sy', f', u') /\ u < u'.
Proof.
  assert (E : hp_delete 256 4 true ex20 16384 10 false 1 false (fun _ _ => false) 3 4 = Some (st1 ex20 (hp_delete 256 4 true ex20 16384 10 false 1 false (fun _ _ => false) 3 4))) by (apply (st1_eq ex20); vm_compute; exact I).
  exists 256, 4, true, ex20, (Span 16384 10 1 false), [], [], [], [(64, 8)]. eexists. exists 2048, 0, 2038, 2048, 0, 2048.
  split; [lia|]. split; [lia|]. split; [exact ex20_reach|]. split; [exact E|]. split; [vm_compute; reflexivity|]. split; [vm_compute; reflexivity|lia].
Qed.
Print Assumptions unmapped_although_refused_refuted.
