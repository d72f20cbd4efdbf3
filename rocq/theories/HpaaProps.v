(** C09, C39: the page heap as a whole. *)
From Coq Require Import Permutation.
From Verif Require Import Base Bitmap BitmapProofs RangeTrackerProofs RangeTrackerProofs2 RangeTrackerProps PageTracker PageTrackerProps HugeRegion HugeRegionProofs HugeRegionProofs2 HugeRegionProps HugeRegionSetProps HintedLists HintedListsProofs Filler FillerProofs FillerProofs2 FillerProofs3 FillerProofs4 FillerProofs6 FillerProps.
From Verif Require Import HugeAddressMap HugeAddressMapProps HugeAllocator HugeAllocatorProps HugeCache HugeCacheProps Hpaa HpaaProofs.

(** ** Histories.  [L]: the live ranges, newest first, each with what its owner must remember to give it back.  [H]: the
    requests that wait for their new hugepage to get its memory (the lock is dropped meanwhile).  [FL]: the ranges being
    unbacked.  [G]: what the system has granted; it grants only what it has not granted before. *)
Record hold := Hold { h_x : Z; h_n : Z; h_d : bool; h_o : Z }.
Definition settle (L : list span) (H : list hold) (n : Z) (d : bool) (o : Z) (out : aout) : list span * list hold :=
  match out with
  | ADone p n' don _ => (Span p n' o don :: L, H)
  | AFail => (L, H)
  | AHold x _ => (L, Hold x n d o :: H)
  end.
(** The filler still has the hugepage. *)
Definition in_filler (a : hpaa) (x : Z) : Prop := hp_tracker a x = true /\ ~ In x (fl_freed (hp_filler a)).
(** What the system can answer to a request. *)
Definition sys_ok (P K : Z) (G : list hrange) (n : Z) (er e : henv) : Prop := os_ok G K (e_os er) /\ os_ok G (hl_from_pages P n) (e_os e).

Inductive hp_reach (P K : Z) (sub : bool) : hpaa -> list span -> list hold -> list hrange -> list hrange -> Prop :=
| hp_start t0 more_often : hp_reach P K sub (hp_init t0 more_often) [] [] [] []
| hp_alloc a L H FL G n align d o er e a' out g L' H' : hp_reach P K sub a L H FL G -> 0 < n -> (d = true -> n = 1 /\ align <= 1) -> sys_ok P K G n er e ->
    hp_new_aligned P K sub a n align d o er e = Some (a', out, g) -> settle L H n d o out = (L', H') -> hp_reach P K sub a' L' H' FL (g ++ G)
| hp_resume a L H1 h H2 FL G a' p : hp_reach P K sub a L (H1 ++ h :: H2) FL G ->
    hp_refill_end P sub a (h_x h) (h_n h) (h_d h) (h_o h) = Some (a', p) ->
    hp_reach P K sub a' (Span p (h_n h) (h_o h) false :: L) (H1 ++ H2) FL G
| hp_free a L1 s L2 H FL G os osr pr1 pr2 a' : hp_reach P K sub a (L1 ++ s :: L2) H FL G ->
    hp_delete P K sub a (sp_page s) (sp_len s) (sp_don s) (sp_obj s) os osr pr1 pr2 = Some a' -> hp_reach P K sub a' (L1 ++ L2) H FL G
(* the steps in which the cache shrinks; the lock is dropped while a range is unbacked *)
| hp_limit a L H FL G size_min : hp_reach P K sub a L H FL G -> 0 <= size_min ->
    hp_reach P K sub (hp_set_cache a (snd (hc_shrink_limit (hp_cache a) size_min))) L H FL G
| hp_take a L H FL G target p r c : hp_reach P K sub a L H FL G -> 0 <= target -> hc_shrink_take (hp_cache a) target p = Some (Some r, c) ->
    hp_reach P K sub (hp_set_cache a c) L H (r :: FL) G
| hp_done a L H FL1 r FL2 G ok p c : hp_reach P K sub a L H (FL1 ++ r :: FL2) G -> hc_shrink_done (hp_cache a) r ok p = Some c ->
    hp_reach P K sub (hp_set_cache a c) L H (FL1 ++ FL2) G
(* ReleaseAtLeastNPages, and the release that may break hugepages *)
| hp_rel a L H FL G n adaptive subrelease max_cold len_max v ans from_partial skip a' r : hp_reach P K sub a L H FL G -> 0 <= n -> 0 <= v_size_min v ->
    hp_release P K sub a n adaptive subrelease max_cold len_max v ans from_partial skip a' r -> hp_reach P K sub a' L H FL G
| hp_rel_breaking a L H FL G n adaptive v ans a' r : hp_reach P K sub a L H FL G -> 0 <= n -> 0 <= v_size_min v ->
    hp_release_breaking P K sub a n adaptive v ans a' r -> hp_reach P K sub a' L H FL G
(* what the treatment of hugepages in the background does *)
| hp_flags a L H FL G k c : hp_reach P K sub a L H FL G -> hp_reach P K sub (hp_set_filler a (set_collapsing (set_keep (hp_filler a) k) c)) L H FL G
| hp_release_free a L H FL G x os f r : hp_reach P K sub a L H FL G -> in_filler a x -> handle_release_free P sub (hp_filler a) x os = Some (f, r) ->
    hp_reach P K sub (hp_set_filler a f) L H FL G
| hp_unbacked a L H FL G x ub f r : hp_reach P K sub a L H FL G -> in_filler a x -> wf P ub -> handle_unbacked P sub (hp_filler a) x ub = (f, r) ->
    hp_reach P K sub (hp_set_filler a f) L H FL G
| hp_collapse a L H FL G x : hp_reach P K sub a L H FL G -> in_filler a x -> hp_reach P K sub (hp_set_filler a (on_collapse_success P sub (hp_filler a) x)) L H FL G
| hp_fetch a L H FL G pr a' : hp_reach P K sub a L H FL G -> fetch_release a pr = Some a' -> hp_reach P K sub a' L H FL G.

(** ** The steps keep the invariant *)
Lemma hinit_ok P K sub t0 mo : hinv P K sub (hp_init t0 mo) [] [] [] [] [] [].
Proof.
  exists [], (fun _ => []), [], [], [], (fun _ => true), 0, [], [], []. constructor; try reflexivity; try constructor; try (intros; contradiction).
  all: cbn; intros; (discriminate || contradiction).
Qed.

Lemma hcache_ok P K sub a L T X Q FL FL' G c : hinv P K sub a L T X Q FL G -> (forall U D, reach_hc (hp_cache a) U D FL G -> reach_hc c U D FL' G) ->
  hinv P K sub (hp_set_cache a c) L T X Q FL' G.
Proof. intros H Hc. cdest H. destruct C. cex own lv U D rl un lo F R W. constructor; hred; auto. Qed.
Lemma hregions_ok P K sub a L T X Q FL G s : hinv P K sub a L T X Q FL G -> locs s = locs (hp_regions a) ->
  (forall rl un lo, rs_reach P K (hp_regions a) rl un lo -> exists un' lo', rs_reach P K s rl un' lo') -> hinv P K sub (hp_set_regions a s) L T X Q FL G.
Proof.
  intros H El Hs. cdest H. destruct C. destruct (Hs rl un lo v_rs) as (un' & lo' & Hr). cex own lv U D rl un' lo' F R W. constructor; hred; auto. rewrite El. assumption.
Qed.
Lemma hfiller_ok P K sub a L X Q FL G f : hinv P K sub a L [] X Q FL G -> fl_freed f = fl_freed (hp_filler a) ->
  (forall own lv, fl_reach P sub (hp_filler a) own lv -> (forall x, in_filler a x -> In x own) -> fl_reach P sub f own lv) -> hinv P K sub (hp_set_filler a f) L [] X Q FL G.
Proof.
  intros H Ef Hf. cdest H. destruct C.
  assert (Hin : forall x, in_filler a x -> In x own). { intros x (A & B). apply v_tr in A. rewrite !in_app_iff in A. destruct A as [A|[A|[]]]; [assumption|contradiction]. }
  cex own lv U D rl un lo F R W. constructor; hred; rewrite ?Ef; auto.
Qed.
Lemma hfetch_ok P K sub a L X FL G pr : 1 < P -> hinv P K sub a L [] X [] FL G ->
  exists a', fetch_release a pr = Some a' /\ same_info a a' /\ hinv P K sub a' L [] X [] FL G.
Proof.
  intros HP H. unfold fetch_release. destruct (fl_fetch (hp_filler a)) as [[x|] f] eqn:E.
  - assert (M : hinv P K sub (hp_set_filler a f) L [x] X [] FL G).
    { cdest H. destruct C. pose proof (fr_fetch _ _ _ _ _ _ _ v_fl E) as Hr. unfold fl_fetch in E. destruct (fl_freed (hp_filler a)) as [|y l] eqn:Ef; [discriminate|]. injection E as -> <-.
      assert (Pm : Permutation (own ++ (x :: l) ++ []) (own ++ l ++ [x])) by (clear; pz).
      cex own lv U D rl un lo F R W. constructor; hred; cbn [fl_freed set_freed] in *; try assumption.
      - rewrite v_use. clear. pz.
      - intros y. rewrite v_tr. split; intros Hy; [rewrite <- Pm|rewrite Pm]; assumption.
      - rewrite v_don. apply count_if_perm. assumption.
      - rewrite v_abp. apply count_if_perm. assumption.
      - intros y Hy. apply v_ab. rewrite Pm. assumption. }
    destruct (hrelease_hugepage_ok P K sub _ L [] X [] FL G x pr HP M) as (a' & E2 & I & _ & M2). exists a'. split; [exact E2|]. split; [exact I|assumption].
  - eexists. split; [reflexivity|]. split; [split; reflexivity|]. unfold fl_fetch in E. destruct (fl_freed (hp_filler a)); [|discriminate]. injection E as <-. rewrite set_filler_same. assumption.
Qed.

Lemma hnew_ok P K sub a L X FL G n align d o er e : 1 < P -> 0 < K -> hinv P K sub a L [] X [] FL G -> 0 < n -> align <= P -> (d = true -> n = 1 /\ align <= 1) -> sys_ok P K G n er e ->
  exists a' out g, hp_new_aligned P K sub a n align d o er e = Some (a', out, g) /\
  match out with
  | ADone p n' don _ => n' = n /\ (1 < align -> p mod P = 0) /\ same_info (record P 1 a n) a' /\ hinv P K sub a' (Span p n o don :: L) [] X [] FL (g ++ G)
  | AFail => g = [] /\ refused (hl_from_pages P n) e /\ same_info a a' /\ hinv P K sub a' L [] X [] FL G
  | AHold x _ => n <= P / 2 /\ same_info a a' /\ hinv P K sub a' L [] (x :: X) [] FL (g ++ G)
  end.
Proof.
  intros HP HK H Hn Ha Hd (Ho1 & Ho2). unfold hp_new_aligned, hp_new. destruct (Z.leb_spec align 1) as [Hal|Hal].
  - destruct (Z.ltb_spec 0 n); [|lia]. destruct (Z.leb_spec n (P / 2)) as [Hs|Hs].
    + assert (Hlt : P / 2 < P) by (apply Z.div_lt; lia).
      assert (Hl : hl_from_pages P n = 1) by (unfold hl_from_pages; rewrite Z.div_small, Z.mod_small by lia; destruct (Z.eqb_spec n 0); lia). rewrite Hl in *.
      destruct (alloc_small_ok P K sub a L X FL G n d o e HP HK H ltac:(lia) ltac:(intros E; apply Hd; assumption) Ho2) as (a' & out & g & E & M). exists a', out, g. split; [assumption|].
      destruct out; [|assumption|split; [assumption|assumption]]. destruct M as (M1 & M2 & M3). split; [assumption|]. split; [lia|]. auto.
    + assert (Hp2 : 1 <= P / 2) by (apply Z.div_le_lower_bound; lia). assert (d = false) as -> by (destruct d; [destruct (Hd eq_refl); lia|reflexivity]).
      destruct (Z.leb_spec n (K * P)) as [Hk|Hk].
      * destruct (alloc_large_ok P K sub a L X FL G n o er e HP HK H ltac:(lia) Ho1 Ho2) as (a' & out & g & E & M). exists a', out, g. split; [assumption|].
        destruct out; [|assumption|contradiction]. destruct M as (M1 & M2 & M3). split; [assumption|]. split; [lia|]. auto.
      * destruct (alloc_raw_ok P K sub a L X FL G n o e HP HK H Hn Ho2) as (a' & out & g & E & M). exists a', out, g. split; [assumption|].
        destruct out; [|assumption|contradiction]. destruct M as (M1 & M2 & M3 & M4). auto.
  - destruct (Z.leb_spec align P); [|lia]. assert (d = false) as -> by (destruct d; [destruct (Hd eq_refl); lia|reflexivity]).
    destruct (alloc_raw_ok P K sub a L X FL G n o e HP HK H Hn Ho2) as (a' & out & g & E & M). exists a', out, g. split; [assumption|].
    destruct out; [|assumption|contradiction]. destruct M as (M1 & M2 & M3 & M4). auto.
Qed.

Lemma hl_nonneg P n : 0 < P -> 0 <= n -> 0 <= hl_from_pages P n.
Proof. intros HP Hn. unfold hl_from_pages. pose proof (Z.div_pos n P Hn HP). destruct (_ =? 0); lia. Qed.

Lemma release_whole_ok P K sub a L X FL G n regions adaptive hit_limit v : 1 < P -> 0 < K -> hinv P K sub a L [] X [] FL G -> 0 <= n -> 0 <= v_size_min v ->
  exists a' r, release_whole P K a n regions adaptive hit_limit v = Some (a', r) /\ hinv P K sub a' L [] X [] FL G /\ same_info a a' /\ hp_filler a' = hp_filler a /\
    hp_tracker a' = hp_tracker a.
Proof.
  intros HP HK H Hn Hs. unfold release_whole.
  assert (Hc : exists c h, hc_release_cached (hp_cache a) (hl_from_pages P n) (v_size_min v) (v_os1 v) (v_os2 v) (v_pr1 v) (v_pr2 v) = Some (c, h) /\ hinv P K sub (hp_set_cache a h) L [] X [] FL G).
  { pose proof H as H'. cdest H'. destruct (huge_cache_release_cached _ _ _ _ _ _ (v_size_min v) (v_os1 v) (v_os2 v) (v_pr1 v) (v_pr2 v) (v_hc _ _ _ _ _ _ _ _ _ _ _ _ _ _ _ _ _ _ _ _ C) (hl_nonneg P n ltac:(lia) Hn) Hs) as (c & h & mv & E & _).
    exists c, h. split; [assumption|]. apply (hcache_ok P K sub a L [] X [] FL FL G h H). intros U' D' Hr.
    destruct (huge_cache_release_cached _ _ _ _ _ _ (v_size_min v) (v_os1 v) (v_os2 v) (v_pr1 v) (v_pr2 v) Hr (hl_nonneg P n ltac:(lia) Hn) Hs) as (c' & h' & mv' & E' & Hr' & _). congruence. }
  destruct Hc as (c & h & E & M). rewrite E. cbn [obind]. destruct regions; [|exists (hp_set_cache a h), (c * P); split; [reflexivity|]; split; [assumption|]; split; [split; reflexivity|split; reflexivity]].
  set (des := if c * P <? n then n - c * P else 0). assert (Hdes : 0 <= des) by (unfold des; destruct (Z.ltb_spec (c * P) n); lia).
  assert (Hrs : exists s r calls, rs_release P K (v_osr v) (hp_regions a) des adaptive hit_limit = Some (s, r, calls) /\ hinv P K sub (hp_set_regions (hp_set_cache a h) s) L [] X [] FL G).
  { pose proof M as M'. cdest M'. pose proof (v_rs _ _ _ _ _ _ _ _ _ _ _ _ _ _ _ _ _ _ _ _ C) as Hr. hred. cbn [hp_regions hp_set_cache] in Hr.
    destruct (set_release P K _ _ _ _ (v_osr v) des adaptive hit_limit ltac:(lia) ltac:(lia) Hr Hdes) as (s & calls & E2 & M2). cbv zeta in E2, M2. eexists s, _, calls. split; [exact E2|].
    apply hregions_ok; [assumption|apply M2|]. intros rl' un' lo' Hr'. exists (fun z => un' z || unbacked_by (v_osr v) calls z), (set_idle P K (locs (hp_regions a)) rl' (fun z => un' z || unbacked_by (v_osr v) calls z)).
    exact (rsr_release P K _ rl' un' lo' _ des adaptive hit_limit s _ calls _ Hr' Hdes E2 eq_refl). }
  destruct Hrs as (s & r & calls & E2 & M2). hred. rewrite E2. cbn [obind]. eexists _, _. split; [reflexivity|]. split; [assumption|]. split; [split; reflexivity|split; reflexivity].
Qed.
Lemma hrelease_pages_ok P K sub a L X FL G ans n fp skip f r : 1 < P -> hinv P K sub a L [] X [] FL G -> release_pages P sub ans (hp_filler a) n fp skip f r ->
  hinv P K sub (hp_set_filler a f) L [] X [] FL G.
Proof.
  intros HP H E. pose proof H as H'. cdest H'. pose proof (release_pages_ok P sub ans _ _ _ _ _ _ _ _ HP (fl_reach_ok _ _ _ _ _ HP (v_fl _ _ _ _ _ _ _ _ _ _ _ _ _ _ _ _ _ _ _ _ C)) E) as (_ & S & _).
  apply hfiller_ok; [assumption|apply S|]. intros own' lv' Hr _. exact (fr_release P sub _ _ _ _ _ _ _ _ _ Hr E).
Qed.

(** The counters of what was handed out. *)
Definition small_pages (P : Z) (L : list span) : Z := zsum (map (fun s => if sp_len s <=? P / 2 then sp_len s else 0) L).
Definition slack_pages (P : Z) (L : list span) : Z := zsum (map (fun s => if sp_len s <=? P / 2 then 0 else hl_from_pages P (sp_len s) * P - sp_len s) L).
Definition info_ok (P : Z) (a : hpaa) (L : list span) : Prop := hp_small a = small_pages P L /\ hp_slack a = slack_pages P L.
Lemma info_same P a a' L : same_info a a' -> info_ok P a L -> info_ok P a' L.
Proof. intros (A & B) (C & D). split; congruence. Qed.
Lemma info_add P a a' L s n : same_info (record P 1 a n) a' -> sp_len s = n -> info_ok P a L -> info_ok P a' (s :: L).
Proof.
  intros I E (A & B). refine (info_same P _ _ _ I _). unfold record, info_ok, small_pages, slack_pages. cbn [map]. rewrite !zsum_cons, E. fold (small_pages P L) (slack_pages P L).
  destruct (n <=? P / 2); hred; rewrite A, B; split; lia.
Qed.
Lemma info_drop P a a' L1 s L2 : same_info (record P (-1) a (sp_len s)) a' -> info_ok P a (L1 ++ s :: L2) -> info_ok P a' (L1 ++ L2).
Proof.
  intros I H. refine (info_same P _ _ _ I _). revert H. unfold record, info_ok, small_pages, slack_pages. rewrite !map_app. cbn [map]. rewrite !zsum_app, !zsum_cons.
  destruct (sp_len s <=? P / 2); hred; intros (A & B); rewrite A, B; split; lia.
Qed.

Lemma hp_reach_inv P K sub a L H FL G : 1 < P -> 0 < K -> hp_reach P K sub a L H FL G ->
  hinv P K sub a L [] (map h_x H) [] FL G /\ (forall h, In h H -> 0 < h_n h <= P / 2 /\ (h_d h = true -> h_n h = 1)) /\ info_ok P a L.
Proof.
  intros HP HK. induction 1.
  - split; [apply hinit_ok|]. split; [intros h []|split; reflexivity].
  - destruct IHhp_reach as (I & Hh & Hi). assert (Hal : align <= P). { destruct (Z.le_gt_cases align P); [assumption|]. exfalso. unfold hp_new_aligned in H4. destruct (Z.leb_spec align 1), (Z.leb_spec align P); [lia|lia|lia|discriminate]. }
    destruct (hnew_ok P K sub a L _ FL G n align d o er e HP HK I H1 Hal H2 H3) as (a2 & out2 & g2 & E & M). rewrite H4 in E. injection E as <- <- <-.
    destruct out; cbn [settle] in H5; injection H5 as <- <-.
    + destruct M as (-> & _ & M2 & M3). split; [exact M3|]. split; [assumption|]. apply (info_add P a _ _ _ n); [exact M2|reflexivity|exact Hi].
    + destruct M as (-> & _ & M2 & M3). split; [exact M3|]. split; [assumption|]. exact (info_same P _ _ _ M2 Hi).
    + destruct M as (M1 & M2 & M3). split; [exact M3|]. split; [|exact (info_same P _ _ _ M2 Hi)]. intros h [<-|Hx]; [|auto]. cbn [h_n h_d]. split; [lia|]. intros Ed. apply H2. assumption.
  - destruct IHhp_reach as (I & Hh & Hi). destruct (Hh h ltac:(apply in_elt)) as (Hn & Hd). rewrite map_app in I. cbn [map] in I.
    assert (I2 : hinv P K sub a L [] (h_x h :: map h_x (H1 ++ H2)) [] FL G) by (revert I; apply hinv_perm; try reflexivity; rewrite map_app; symmetry; apply Permutation_middle).
    destruct (refill_end_ok P K sub a L (h_x h) _ FL G (h_n h) (h_d h) (h_o h) HP I2 Hn Hd) as (a2 & p2 & E & M1 & M2). rewrite H in E. injection E as <- <-.
    split; [assumption|]. split; [|apply (info_add P a _ _ _ (h_n h)); [exact M1|reflexivity|exact Hi]]. intros h' Hx. apply Hh. apply in_app_iff in Hx. apply in_or_app. cbn [In]. tauto.
  - destruct IHhp_reach as (I & Hh & Hi). assert (I2 : hinv P K sub a (s :: L1 ++ L2) [] (map h_x H) [] FL G) by (revert I; apply hinv_perm; try reflexivity; symmetry; apply Permutation_middle).
    destruct (hdelete_ok P K sub a _ _ FL G s os osr pr1 pr2 HP HK I2) as (a2 & E & M1 & M2). rewrite H1 in E. injection E as <-. split; [assumption|]. split; [assumption|]. exact (info_drop P _ _ _ _ _ M1 Hi).
  - destruct IHhp_reach as (I & Hh & Hi). split; [|split; assumption]. apply (hcache_ok P K sub a _ _ _ _ FL); [assumption|]. intros U D Hr. apply rc_limit; assumption.
  - destruct IHhp_reach as (I & Hh & Hi). split; [|split; assumption]. apply (hcache_ok P K sub a _ _ _ _ FL); [assumption|]. intros U D Hr. exact (rc_take _ _ _ _ _ _ _ _ _ Hr H1 H2).
  - destruct IHhp_reach as (I & Hh & Hi). split; [|split; assumption]. apply (hcache_ok P K sub a _ _ _ _ _ _ _ _ I). intros U D Hr. exact (rc_done _ _ _ _ _ _ _ _ _ _ Hr H1).
  - destruct IHhp_reach as (I & Hh & Hi). inversion H3; subst.
    + destruct (release_whole_ok P K sub a L _ FL G n (rs_more_often (hp_regions a)) adaptive false v HP HK I H1 H2) as (a2 & r2 & E & M1 & M2 & _). rewrite H4 in E. injection E as <- <-.
      split; [assumption|]. split; [assumption|]. exact (info_same P _ _ _ M2 Hi).
    + destruct (release_whole_ok P K sub a L _ FL G n (rs_more_often (hp_regions a)) adaptive false v HP HK I H1 H2) as (a2 & r2' & E & M1 & M2 & _). rewrite H4 in E. injection E as <- <-.
      split; [exact (hrelease_pages_ok P K sub _ _ _ _ _ _ _ _ _ _ _ HP M1 H6)|]. split; [assumption|]. refine (info_same P _ _ _ _ Hi). exact M2.
  - destruct IHhp_reach as (I & Hh & Hi). inversion H3; subst.
    + destruct (release_whole_ok P K sub a L _ FL G n true adaptive true v HP HK I H1 H2) as (a2 & r2 & E & M1 & M2 & _). rewrite H4 in E. injection E as <- <-.
      split; [assumption|]. split; [assumption|]. exact (info_same P _ _ _ M2 Hi).
    + destruct (release_whole_ok P K sub a L _ FL G n true adaptive true v HP HK I H1 H2) as (a2 & r2' & E & M1 & M2 & _). rewrite H4 in E. injection E as <- <-.
      split; [exact (hrelease_pages_ok P K sub _ _ _ _ _ _ _ _ _ _ _ HP M1 H6)|]. split; [assumption|]. refine (info_same P _ _ _ _ Hi). exact M2.
  - destruct IHhp_reach as (I & Hh & Hi). split; [|split; assumption]. apply hfiller_ok; [assumption|reflexivity|]. intros own lv Hr _. apply fr_flags. assumption.
  - destruct IHhp_reach as (I & Hh & Hi). split; [|split; assumption]. apply hfiller_ok; [assumption| |intros own lv Hr Hin; exact (fr_release_free _ _ _ _ _ _ _ _ _ Hr (Hin x H1) H2)].
    cdest I. assert (Hin : In x own). { destruct H1 as (A & B). apply (v_tr _ _ _ _ _ _ _ _ _ _ _ _ _ _ _ _ _ _ _ _ C) in A. rewrite !in_app_iff in A. destruct A as [A|[A|[]]]; [assumption|contradiction]. }
    destruct (handle_release_free_ok P sub _ _ _ x os ltac:(lia) (fl_reach_ok _ _ _ _ _ HP (v_fl _ _ _ _ _ _ _ _ _ _ _ _ _ _ _ _ _ _ _ _ C)) Hin) as (f' & r' & E & _ & S & _). rewrite H2 in E. injection E as <- <-. apply S.
  - destruct IHhp_reach as (I & Hh & Hi). split; [|split; assumption]. apply hfiller_ok; [assumption| |intros own lv Hr Hin; exact (fr_unbacked _ _ _ _ _ _ _ _ _ Hr (Hin x H1) H2 H3)].
    cdest I. assert (Hin : In x own). { destruct H1 as (A & B). apply (v_tr _ _ _ _ _ _ _ _ _ _ _ _ _ _ _ _ _ _ _ _ C) in A. rewrite !in_app_iff in A. destruct A as [A|[A|[]]]; [assumption|contradiction]. }
    destruct (handle_unbacked_ok P sub _ _ _ x ub ltac:(lia) (fl_reach_ok _ _ _ _ _ HP (v_fl _ _ _ _ _ _ _ _ _ _ _ _ _ _ _ _ _ _ _ _ C)) Hin H2) as (f' & r' & E & _ & S & _). rewrite H3 in E. injection E as <- <-. apply S.
  - destruct IHhp_reach as (I & Hh & Hi). split; [|split; assumption]. apply hfiller_ok; [assumption| |intros own lv Hr Hin; exact (fr_collapse _ _ _ _ _ _ Hr (Hin x H1))].
    cdest I. assert (Hin : In x own). { destruct H1 as (A & B). apply (v_tr _ _ _ _ _ _ _ _ _ _ _ _ _ _ _ _ _ _ _ _ C) in A. rewrite !in_app_iff in A. destruct A as [A|[A|[]]]; [assumption|contradiction]. }
    destruct (collapse_ok P sub _ _ _ x ltac:(lia) (fl_reach_ok _ _ _ _ _ HP (v_fl _ _ _ _ _ _ _ _ _ _ _ _ _ _ _ _ _ _ _ _ C)) Hin) as (_ & S & _). apply S.
  - destruct IHhp_reach as (I & Hh & Hi). destruct (hfetch_ok P K sub a L _ FL G pr HP I) as (a2 & E & M1 & M2). rewrite H1 in E. injection E as <-. split; [assumption|]. split; [assumption|]. exact (info_same P _ _ _ M1 Hi).
Qed.

(** ** Lists of disjoint ranges *)
Lemma fop_flat {A B} (f : A -> list B) (R : B -> B -> Prop) l : ForallOrdPairs R (flat_map f l) -> ForallOrdPairs (fun s t => forall x y, In x (f s) -> In y (f t) -> R x y) l.
Proof.
  induction l as [|s l IH]; cbn [flat_map]; intros H; [constructor|]. apply fop_app_iff in H. destruct H as (_ & H2 & H3). apply fop_cons; [|auto].
  intros t Ht x y Hx Hy. apply H3; [assumption|]. apply in_flat_map. eauto.
Qed.
Lemma nodup_flat {A B} (f : A -> list B) l : NoDup (flat_map f l) -> ForallOrdPairs (fun s t => forall x, In x (f s) -> In x (f t) -> False) l.
Proof.
  induction l as [|s l IH]; cbn [flat_map]; intros H; [constructor|]. apply NoDup_app_iff in H. destruct H as (_ & H2 & H3). apply fop_cons; [|auto].
  intros t Ht x Hx Hy. apply (H3 x Hx). apply in_flat_map. eauto.
Qed.
Lemma fop_and {A} (R S : A -> A -> Prop) l : ForallOrdPairs R l -> ForallOrdPairs S l -> ForallOrdPairs (fun s t => R s t /\ S s t) l.
Proof. induction 1 as [|s l H H1 IH]; intros H2; [constructor|]. apply fop_cons_inv in H2. destruct H2 as (H2 & H3). rewrite Forall_forall in H. apply fop_cons; auto. Qed.
Lemma fop_impl {A} (R S : A -> A -> Prop) l : (forall s t, In s l -> In t l -> R s t -> S s t) -> ForallOrdPairs R l -> ForallOrdPairs S l.
Proof.
  induction l as [|s l IH]; intros Hi H; [constructor|]. apply fop_cons_inv in H. destruct H as (H1 & H2).
  apply fop_cons; [intros t Ht; apply Hi; cbn [In]; auto|]. apply IH; [|assumption]. intros u t Hu Ht. apply Hi; cbn [In]; auto.
Qed.
Lemma disj_pt a b : 0 < snd a -> 0 < snd b -> (forall q, in_rng a q -> in_rng b q -> False) -> disj a b.
Proof.
  intros Ha Hb H. unfold disj, in_rng in *. destruct (Z.le_gt_cases (fst a + snd a) (fst b)); [auto|]. destruct (Z.le_gt_cases (fst b + snd b) (fst a)); [auto|]. exfalso.
  apply (H (Z.max (fst a) (fst b))); lia.
Qed.
Lemma pt_disj a b q : disj a b -> in_rng a q -> in_rng b q -> False.
Proof. unfold disj, in_rng. lia. Qed.
Lemma hps_NoDup l : (forall r, In r l -> 0 < snd r) -> ForallOrdPairs disj l -> NoDup (hps l).
Proof.
  induction l as [|r l IH]; intros Hp H; [constructor|]. apply fop_cons_inv in H. destruct H as (H1 & H2). rewrite hps_cons. apply NoDup_app_iff. split; [apply zseq_NoDup|]. split; [apply IH; [intros; apply Hp; cbn [In]; auto|assumption]|].
  intros x Hx Hy. apply pages_of_In in Hx. apply in_flat_map in Hy. destruct Hy as (r' & Hr & Hy). apply pages_of_In in Hy. apply (pt_disj r r' x (H1 r' Hr)); [exact Hx|exact Hy].
Qed.
Lemma hps_length l : (forall r, In r l -> 0 <= snd r) -> Z.of_nat (length (hps l)) = zsum (map snd l).
Proof.
  induction l as [|r l IH]; intros H; [reflexivity|]. rewrite hps_cons, app_length, Nat2Z.inj_add, pages_of_length by (apply H; left; reflexivity). cbn [map]. rewrite zsum_cons, IH; [reflexivity|]. intros; apply H; right; assumption.
Qed.

(** ** C09 *)
Definition absr (P : Z) (r : run) : Z * Z := (fst r * P + fst (fst (snd r)), snd (fst (snd r))).
Lemma abs_runs_map P own lv : abs_runs P own lv = map (absr P) (abs own lv).
Proof.
  unfold abs_runs, abs. induction own as [|x own IH]; [reflexivity|]. cbn [flat_map]. rewrite map_app, IH. f_equal. rewrite map_map. reflexivity.
Qed.
Lemma div_in P p n q : 0 < P -> in_rng (p, n) q -> p mod P + n <= P -> q / P = p / P.
Proof.
  intros HP Hq Hn. unfold in_rng in Hq. cbn [fst snd] in Hq. pose proof (Z.div_mod p P ltac:(lia)). pose proof (Z.mod_pos_bound p P HP).
  symmetry. apply (Z.div_unique q P (p / P) (q - p / P * P)); lia.
Qed.
(** Where a page of a live range on hugepages of its own is. *)
Lemma raw_page P s q : 1 < P -> sp_page s mod P = 0 -> P <= sp_len s -> in_rng (rng s) q ->
  In (q / P) (whole P s) \/ (sp_len s mod P <> 0 /\ q / P = sp_page s / P + sp_len s / P /\ exists r, In r (tail P s) /\ in_rng (absr P r) q).
Proof.
  intros HP Hp Hl Hq. unfold in_rng, rng in Hq. cbn [fst snd] in Hq. pose proof (Z.div_mod (sp_page s) P ltac:(lia)) as E1. pose proof (Z.div_mod (sp_len s) P ltac:(lia)) as E2.
  pose proof (Z.mod_pos_bound (sp_len s) P ltac:(lia)) as B2. pose proof (Z.div_mod q P ltac:(lia)) as E3. pose proof (Z.mod_pos_bound q P ltac:(lia)) as B3.
  assert (A1 : sp_page s / P <= q / P) by (apply Z.div_le_mono; lia). assert (A2 : q / P <= sp_page s / P + sp_len s / P) by nia.
  destruct (Z.eq_dec (q / P) (sp_page s / P + sp_len s / P)) as [E|E].
  - right. assert (sp_len s mod P <> 0) by nia. split; [assumption|]. split; [assumption|]. exists (sp_page s / P + sp_len s / P, ((0, sp_len s mod P), sp_obj s)).
    unfold tail. destruct (Z.eqb_spec (sp_len s mod P) 0); [contradiction|]. split; [left; reflexivity|]. unfold absr, in_rng. cbn [fst snd]. nia.
  - left. unfold whole. apply pages_of_In. unfold in_range. cbn [fst snd]. lia.
Qed.

Lemma core_live P K sub a L X FL G own lv U D rl un lo F R W : 1 < P -> 0 < K -> hcore P K sub a L [] X [] FL G own lv U D rl un lo F R W ->
  ForallOrdPairs disj (map rng L) /\ forall s, In s L -> 0 < sp_len s /\ forall q, in_rng (rng s) q -> In (q / P) (own ++ flat_map (whole P) W ++ D) /\ In (q / P) (hps G).
Proof.
  intros HP HK C. destruct (core_nodup _ _ _ _ _ _ _ _ _ _ _ _ _ _ _ _ _ _ _ _ C) as (ND & HG).
  assert (HF : forall s, In s F -> In (sp_page s / P) own /\ 0 < sp_len s /\ sp_page s mod P + sp_len s <= P) by (intros s Hs; exact (core_F _ _ _ _ _ _ _ _ _ _ _ _ _ _ _ _ _ _ _ _ s HP C Hs)).
  assert (HT : forall s, In s W -> sp_len s mod P <> 0 -> In (sp_page s / P + sp_len s / P) own) by (intros s; exact (core_tail _ _ _ _ _ _ _ _ _ _ _ _ _ _ _ _ _ _ _ _ s C)).
  destruct C. destruct (set_runs P K _ _ _ _ ltac:(lia) ltac:(lia) v_rs) as (S1 & S2 & S3). destruct (filler_runs_disjoint P sub _ _ _ HP v_fl) as (D1 & _).
  rewrite abs_runs_map, app_nil_r in *. apply (fop_perm disj disj_sym _ _ (Permutation_map _ v_runs)) in D1. rewrite map_app in D1. apply fop_app_iff in D1. destruct D1 as (D1 & D2 & D3).
  apply (proj2 (fop_map (absr P) disj _)) in D1. apply (proj2 (fop_map (key P) _ _)) in D1. apply (proj2 (fop_map (absr P) disj _)) in D2. apply fop_flat in D2.
  (* where the pages of each kind of range are *)
  assert (PF : forall s q, In s F -> in_rng (rng s) q -> In (q / P) own /\ in_rng (absr P (key P s)) q).
  { intros s q Hs Hq. destruct (HF s Hs) as (A & B & E). split; [rewrite (div_in P _ _ q ltac:(lia) Hq E); assumption|]. unfold absr, key, in_rng, rng in *. cbn [fst snd] in *.
    pose proof (Z.div_mod (sp_page s) P ltac:(lia)). lia. }
  assert (PR : forall s, In s R -> 0 < sp_len s /\ forall q, in_rng (rng s) q -> In (q / P) D).
  { intros s Hs. destruct (S2 (rng s)) as (A & l & Hl & B1 & B2); [rewrite v_reg; apply in_map; assumption|]. cbn [rng fst snd] in *. split; [assumption|]. intros q Hq. rewrite v_dir. apply region_pages_In. exists l. split; [assumption|].
    unfold in_rng, rng in Hq. cbn [fst snd] in Hq. split; [apply Z.div_le_lower_bound; lia|apply Z.div_lt_upper_bound; lia]. }
  assert (PW : forall s q, In s W -> in_rng (rng s) q -> In (q / P) (whole P s) \/ (In (q / P) own /\ exists r, In r (tail P s) /\ in_rng (absr P r) q)).
  { intros s q Hs Hq. destruct (v_raw s Hs) as (A1 & A2 & _). destruct (raw_page P s q HP A1 A2 Hq) as [A|(A & B & E)]; [auto|]. right. split; [|assumption]. rewrite B. auto. }
  assert (LW : forall s, In s W -> 0 < sp_len s) by (intros s Hs; destruct (v_raw s Hs) as (_ & A & _); lia).
  apply NoDup_app_iff in ND. destruct ND as (_ & ND & N1). apply NoDup_app_iff in ND. destruct ND as (_ & ND & _). cbn [app] in ND. apply NoDup_app_iff in ND. destruct ND as (_ & ND & _).
  apply NoDup_app_iff in ND. destruct ND as (NW & _ & N2). apply nodup_flat in NW.
  assert (In_W : forall s x, In s W -> In x (whole P s) -> In x (flat_map (whole P) W)) by (intros s x Hs Hx; apply in_flat_map; eauto).
  assert (OD : forall x, In x own -> In x D -> False) by (intros x A B; apply (N1 x A); rewrite !in_app_iff; auto 8).
  assert (OW : forall x s, In s W -> In x own -> In x (whole P s) -> False) by (intros x s Hs A B; apply (N1 x A); rewrite !in_app_iff; eauto 8).
  assert (WD : forall x s, In s W -> In x (whole P s) -> In x D -> False) by (intros x s Hs A B; apply (N2 x (In_W s x Hs A) B)).
  split.
  - apply (fop_perm disj disj_sym _ _ (Permutation_map _ (Permutation_sym v_live))). apply (proj1 (fop_map rng disj _)). apply fop_app_iff. split; [|split; [apply fop_app_iff; split; [|split]|]].
    + revert D1. apply fop_impl. intros s t Hs Ht Hd. destruct (HF s Hs) as (_ & A & _), (HF t Ht) as (_ & B & _). apply disj_pt; [assumption|assumption|]. intros q Q1 Q2.
      exact (pt_disj _ _ q Hd (proj2 (PF s q Hs Q1)) (proj2 (PF t q Ht Q2))).
    + apply (proj2 (fop_map rng disj _)). exact (fop_perm disj disj_sym _ _ v_reg S1).
    + assert (NW2 := fop_and _ _ _ NW D2). revert NW2. apply fop_impl. intros s t Hs Ht (E1 & E2). apply disj_pt; [exact (LW s Hs)|exact (LW t Ht)|]. intros q Q1 Q2.
      destruct (PW s q Hs Q1) as [A|(A & r & A1 & A2)], (PW t q Ht Q2) as [B|(B & r' & B1 & B2)].
      * exact (E1 _ A B).
      * exact (OW _ s Hs B A).
      * exact (OW _ t Ht A B).
      * exact (pt_disj _ _ q (E2 r r' A1 B1) A2 B2).
    + intros s t Hs Ht. apply disj_pt; [apply PR; assumption|exact (LW t Ht)|]. intros q Q1 Q2. apply (PR s Hs) in Q1. destruct (PW t q Ht Q2) as [A|(A & _)]; [exact (WD _ t Ht A Q1)|exact (OD _ A Q1)].
    + intros s t Hs Ht. apply in_app_iff in Ht. destruct (HF s Hs) as (_ & A & _). destruct Ht as [Ht|Ht].
      * apply disj_pt; [assumption|apply PR; assumption|]. intros q Q1 Q2. exact (OD _ (proj1 (PF s q Hs Q1)) (proj2 (PR t Ht) q Q2)).
      * apply disj_pt; [assumption|exact (LW t Ht)|]. intros q Q1 Q2. destruct (PF s q Hs Q1) as (B1 & B2). destruct (PW t q Ht Q2) as [E|(E & r & E1 & E2)]; [exact (OW _ t Ht B1 E)|].
        refine (pt_disj _ _ q (D3 _ _ _ _) B2 E2); apply in_map; [apply in_map; assumption|apply in_flat_map; eauto].
  - intros s Hs. rewrite v_live in Hs. rewrite !in_app_iff in Hs.
    assert (A : 0 < sp_len s /\ forall q, in_rng (rng s) q -> In (q / P) (own ++ flat_map (whole P) W ++ D)).
    { destruct Hs as [Hs|[Hs|Hs]].
      - split; [apply HF; assumption|]. intros q Hq. rewrite in_app_iff. left. exact (proj1 (PF s q Hs Hq)).
      - destruct (PR s Hs) as (A & B). split; [assumption|]. intros q Hq. rewrite !in_app_iff. auto 8.
      - split; [exact (LW s Hs)|]. intros q Hq. rewrite !in_app_iff. destruct (PW s q Hs Hq) as [A|(A & _)]; eauto 8. }
    destruct A as (A & B). split; [assumption|]. intros q Hq. split; [auto|]. apply HG. specialize (B q Hq). rewrite !in_app_iff in *. tauto.
Qed.

Lemma live_pages P K sub a L X FL G : 1 < P -> 0 < K -> hinv P K sub a L [] X [] FL G ->
  ForallOrdPairs disj (map rng L) /\ forall s, In s L -> 0 < sp_len s /\ forall q, sp_page s <= q < sp_page s + sp_len s -> In (q / P) (hps G) /\ ~ In (q / P) X.
Proof.
  intros HP HK I. cdest I. destruct (core_live _ _ _ _ _ _ _ _ _ _ _ _ _ _ _ _ _ _ HP HK C) as (A & B). split; [assumption|]. intros s Hs. destruct (B s Hs) as (B1 & B2). split; [assumption|].
  intros q Hq. destruct (B2 q Hq) as (B3 & B4). split; [assumption|]. intros Hx. destruct (core_nodup _ _ _ _ _ _ _ _ _ _ _ _ _ _ _ _ _ _ _ _ C) as (ND & _).
  assert (Pm : Permutation (own ++ fl_freed (hp_filler a) ++ [] ++ X ++ flat_map (whole P) W ++ D) (X ++ (own ++ flat_map (whole P) W ++ D) ++ fl_freed (hp_filler a))) by (clear; pz).
  rewrite Pm in ND. apply NoDup_app_iff in ND. destruct ND as (_ & _ & ND). apply (ND _ Hx). rewrite in_app_iff. auto.
Qed.

(** Two live ranges never overlap, and every page of a live range is on a hugepage that the system granted. *)
Theorem live_ranges_disjoint : forall P K sub a L H FL G, 1 < P -> 0 < K -> hp_reach P K sub a L H FL G ->
  ForallOrdPairs disj (map rng L) /\ forall s, In s L -> 0 < sp_len s /\ forall q, sp_page s <= q < sp_page s + sp_len s -> In (q / P) (hps G).
Proof.
  intros P K sub a L H FL G HP HK Hr. destruct (hp_reach_inv P K sub a L H FL G HP HK Hr) as (I & _).
  destruct (live_pages P K sub a L _ FL G HP HK I) as (A & B). split; [assumption|]. intros s Hs. split; [apply B; assumption|]. intros q Hq. apply (B s Hs). assumption.
Qed.
Print Assumptions live_ranges_disjoint.

(** A request, for any length and any alignment up to a hugepage, never fails a check.  Either a range of the length asked
    for is handed out, aligned as asked for, apart from every live range, on granted hugepages; or the request waits for
    the memory of a new hugepage; or the system refused (or was not asked, for more than 2^43 hugepages), and then the
    live ranges are as before.  A request that waited always gets its range. *)
Theorem page_allocation : forall P K sub a L H FL G n align d o er e, 1 < P -> 0 < K -> hp_reach P K sub a L H FL G ->
  0 < n -> align <= P -> (d = true -> n = 1 /\ align <= 1) -> sys_ok P K G n er e ->
  exists a' out g, hp_new_aligned P K sub a n align d o er e = Some (a', out, g) /\
  match out with
  | ADone p n' don _ => n' = n /\ (1 < align -> (align | P) -> (align | p)) /\
      (forall s, In s L -> disj (p, n) (rng s)) /\ (forall q, p <= q < p + n -> In (q / P) (hps (g ++ G)))
  | AFail => g = [] /\ (e_os e = None \/ 2 ^ 43 <= hl_from_pages P n)
  | AHold x _ => align <= 1 /\ In x (hps (g ++ G)) /\ (forall s q, In s L -> sp_page s <= q < sp_page s + sp_len s -> q / P <> x) /\
      (forall h, In h H -> h_x h <> x)
  end.
Proof.
  intros P K sub a L H FL G n align d o er e HP HK Hr Hn Ha Hd Ho. destruct (hp_reach_inv P K sub a L H FL G HP HK Hr) as (I & _).
  destruct (hnew_ok P K sub a L _ FL G n align d o er e HP HK I Hn Ha Hd Ho) as (a' & out & g & E & M). exists a', out, g. split; [assumption|]. destruct out.
  - destruct M as (-> & M1 & _ & M2). destruct (live_pages _ _ _ _ _ _ _ _ HP HK M2) as (A & B). split; [reflexivity|].
    split. { intros Hl Hdv. apply (Z.divide_trans _ P); [assumption|]. apply Z.mod_divide; [lia|]. apply M1. lia. }
    cbn [map] in A. apply fop_cons_inv in A. destruct A as (A & _). split.
    + intros s Hs. apply (A (rng s)). apply in_map. assumption.
    + intros q Hq. apply (B _ (or_introl eq_refl)). assumption.
  - destruct M as (M1 & M2 & _). auto.
  - destruct M as (M1 & _ & M2). assert (Hal : align <= 1).
    { unfold hp_new_aligned in E. destruct (Z.leb_spec align 1); [assumption|]. exfalso. destruct (Z.leb_spec align P); [|lia]. assert (d = false) as -> by (destruct d; [destruct (Hd eq_refl); lia|reflexivity]).
      destruct (alloc_raw_ok P K sub a L _ FL G n o e HP HK I Hn (proj2 Ho)) as (a2 & out2 & g2 & E2 & M3). rewrite E in E2. injection E2 as <- <- <-. exact M3. }
    split; [assumption|]. pose proof M2 as M2'. cdest M2'. destruct (core_nodup _ _ _ _ _ _ _ _ _ _ _ _ _ _ _ _ _ _ _ _ C) as (ND & HG).
    split; [apply HG; rewrite !in_app_iff; cbn [In]; tauto|]. split.
    + intros s q Hs Hq Ex. apply (proj2 (live_pages _ _ _ _ _ _ _ _ HP HK M2) s Hs) in Hq. apply Hq. left. symmetry. assumption.
    + intros h Hh Ex. rewrite !app_assoc in ND. rewrite <- !app_assoc in ND. apply NoDup_app_iff in ND. destruct ND as (_ & ND & _). apply NoDup_app_iff in ND. destruct ND as (_ & ND & _).
      cbn [app] in ND. inversion ND as [|? ? Hx _]; subst. apply Hx. rewrite in_app_iff. left. apply in_map. assumption.
Qed.
Print Assumptions page_allocation.

(** A request that waited for its hugepage always gets its range, as the first pages of that hugepage. *)
Theorem page_refill : forall P K sub a L H1 h H2 FL G, 1 < P -> 0 < K -> hp_reach P K sub a L (H1 ++ h :: H2) FL G ->
  exists a', hp_refill_end P sub a (h_x h) (h_n h) (h_d h) (h_o h) = Some (a', h_x h * P) /\ In (h_x h) (hps G) /\ 0 < h_n h <= P / 2 /\ forall s, In s L -> disj (h_x h * P, h_n h) (rng s).
Proof.
  intros P K sub a L H1 h H2 FL G HP HK Hr. destruct (hp_reach_inv P K sub a L _ FL G HP HK Hr) as (I & Hh & _). destruct (Hh h ltac:(apply in_elt)) as (Hn & Hd). rewrite map_app in I. cbn [map] in I.
  assert (I2 : hinv P K sub a L [] (h_x h :: map h_x (H1 ++ H2)) [] FL G) by (revert I; apply hinv_perm; try reflexivity; rewrite map_app; symmetry; apply Permutation_middle).
  destruct (refill_end_ok P K sub a L (h_x h) _ FL G (h_n h) (h_d h) (h_o h) HP I2 Hn Hd) as (a2 & p & E & _ & M). exists a2.
  assert (p = h_x h * P) as ->. { unfold hp_refill_end, alloc_and_contribute in E. destruct (fresh_get P (h_n h) (h_o h) false HP ltac:(pose proof (Z.div_lt P 2 ltac:(lia) ltac:(lia)); lia)) as (t & u & Ef). rewrite Ef in E. cbn [obind] in E. destruct (h_x h =? 0); cbn [obind] in E; [discriminate|]. injection E as _ <-. lia. }
  split; [assumption|]. split; [|split; [assumption|]].
  - cdest I2. apply (core_nodup _ _ _ _ _ _ _ _ _ _ _ _ _ _ _ _ _ _ _ _ C). rewrite !in_app_iff. cbn [In]. tauto.
  - destruct (live_pages _ _ _ _ _ _ _ _ HP HK M) as (A & _). cbn [map] in A. apply fop_cons_inv in A. intros s Hs. apply (proj1 A (rng s)). apply in_map. assumption.
Qed.
Print Assumptions page_refill.

(** Giving back any live range, with what its owner was told to remember, never fails a check, whatever the system answers. *)
Theorem page_free : forall P K sub a L1 s L2 H FL G os osr pr1 pr2, 1 < P -> 0 < K -> hp_reach P K sub a (L1 ++ s :: L2) H FL G ->
  exists a', hp_delete P K sub a (sp_page s) (sp_len s) (sp_don s) (sp_obj s) os osr pr1 pr2 = Some a' /\ hp_reach P K sub a' (L1 ++ L2) H FL G.
Proof.
  intros P K sub a L1 s L2 H FL G os osr pr1 pr2 HP HK Hr. destruct (hp_reach_inv P K sub a _ _ FL G HP HK Hr) as (I & _).
  assert (I2 : hinv P K sub a (s :: L1 ++ L2) [] (map h_x H) [] FL G) by (revert I; apply hinv_perm; try reflexivity; symmetry; apply Permutation_middle).
  destruct (hdelete_ok P K sub a _ _ FL G s os osr pr1 pr2 HP HK I2) as (a2 & E & _). exists a2. split; [assumption|]. exact (hp_free P K sub _ _ _ _ _ _ _ _ _ _ _ _ Hr E).
Qed.
Print Assumptions page_free.

(** ** Counting hugepages of regions *)
Lemma region_hps K ls : region_pages K ls = hps (map (fun l => (l, K)) ls).
Proof. unfold region_pages, hps. induction ls as [|l ls IH]; [reflexivity|]. cbn [flat_map map]. rewrite IH. reflexivity. Qed.
Lemma region_nodup K ls : 0 <= K -> ForallOrdPairs (fun a b => disj (a, K) (b, K)) ls -> NoDup (region_pages K ls).
Proof.
  intros HK H. rewrite region_hps. destruct (Z.eq_dec K 0) as [->|].
  - induction ls as [|l ls IH]; [constructor|]. cbn [map]. rewrite hps_cons. change (pages_of (l, 0)) with (@nil Z). apply IH. apply fop_cons_inv in H. apply H.
  - apply hps_NoDup; [intros r Hr; apply in_map_iff in Hr; destruct Hr as (l & <- & _); cbn [snd]; lia|]. apply (proj1 (fop_map (fun l => (l, K)) disj _)). assumption.
Qed.
Lemma region_count f K ls : zsum (map (fun l => hugepages_with f l K) ls) = Z.of_nat (length (filter f (region_pages K ls))).
Proof.
  assert (Hc : forall l, zsum (map (fun h => if f h then 1 else 0) l) = Z.of_nat (length (filter f l))).
  { induction l as [|x l IH]; [reflexivity|]. cbn [map filter]. rewrite zsum_cons, IH. destruct (f x); cbn [length]; lia. }
  unfold region_pages. induction ls as [|l ls IH]; [reflexivity|]. cbn [map flat_map]. rewrite zsum_cons, IH, filter_app, app_length, Nat2Z.inj_add. f_equal. apply Hc.
Qed.
Lemma region_bounds P K s live un lo : 0 < P -> 0 <= K -> rs_reach P K s live un lo ->
  0 <= P * zsum (map (fun l => hugepages_with un l K) (locs s)) /\ zsum (map snd live) + P * zsum (map (fun l => hugepages_with un l K) (locs s)) <= Z.of_nat (length (locs s)) * (K * P).
Proof.
  intros HP HK H. destruct (set_runs P K s live un lo HP HK H) as (S1 & S2 & S3). destruct (set_stats P K s live un lo HP HK H) as (Ht & _). rewrite region_count. split; [lia|].
  set (RP := region_pages K (locs s)). set (UB := map (fun h => (h * P, P)) (filter un RP)).
  assert (ND : NoDup (hps live ++ hps UB)).
  { apply NoDup_app_iff. split; [apply hps_NoDup; [intros r Hr; apply S2; assumption|assumption]|]. split.
    - apply hps_NoDup; [intros r Hr; apply in_map_iff in Hr; destruct Hr as (h & <- & _); cbn [snd]; lia|]. unfold UB. apply (proj1 (fop_map (fun h => (h * P, P)) disj _)).
      assert (N : NoDup (filter un RP)) by (apply NoDup_filter; apply region_nodup; assumption). clear - N HP. induction (filter un RP) as [|x l IH]; [constructor|]. inversion N; subst. apply fop_cons; [|auto].
      intros y Hy. unfold disj. cbn [fst snd]. assert (x <> y) by congruence. nia.
    - intros q Hq Hu. apply in_flat_map in Hq. destruct Hq as (r & Hr & Hq). apply pages_of_In in Hq. apply in_flat_map in Hu. destruct Hu as (r' & Hr' & Hu). apply in_map_iff in Hr'. destruct Hr' as (h & <- & Hh).
      apply pages_of_In in Hu. apply filter_In in Hh. destruct Hh as (Hh & Hun). apply region_pages_In in Hh. destruct Hh as (l & Hl & Hh). unfold in_range in *. cbn [fst snd] in *.
      specialize (Ht l h Hl Hh Hun). assert (touched P live h = true); [|congruence]. unfold touched. apply existsb_exists. exists r. split; [assumption|]. unfold HugeRegionProps.touches.
      apply andb_true_iff. rewrite !Z.leb_le. split; [assert (fst r / P < h + 1) by (apply Z.div_lt_upper_bound; lia); lia|apply Z.div_le_lower_bound; lia]. }
  assert (Inc : incl (hps live ++ hps UB) (hps (map (fun l => (l * P, K * P)) (locs s)))).
  { intros q Hq. apply in_app_iff in Hq. destruct Hq as [Hq|Hq].
    - apply in_flat_map in Hq. destruct Hq as (r & Hr & Hq). apply pages_of_In in Hq. destruct (S2 r Hr) as (_ & l & Hl & A & B). apply in_flat_map. exists (l * P, K * P). split; [apply in_map_iff; eauto|]. apply pages_of_In. unfold in_range in *. cbn [fst snd]. lia.
    - apply in_flat_map in Hq. destruct Hq as (r & Hr & Hq). apply in_map_iff in Hr. destruct Hr as (h & <- & Hh). apply filter_In in Hh. destruct Hh as (Hh & _). apply region_pages_In in Hh. destruct Hh as (l & Hl & Hh).
      apply pages_of_In in Hq. apply in_flat_map. exists (l * P, K * P). split; [apply in_map_iff; eauto|]. apply pages_of_In. unfold in_range in *. cbn [fst snd] in *. nia. }
  pose proof (NoDup_incl_length ND Inc) as Hlen. rewrite app_length in Hlen. apply Nat2Z.inj_le in Hlen. rewrite Nat2Z.inj_add, !hps_length in Hlen.
  - unfold UB in Hlen. rewrite !map_map in Hlen. cbn [snd] in Hlen. assert (Hz : forall A (l : list A) c, zsum (map (fun _ => c) l) = Z.of_nat (length l) * c) by (intros A l c; induction l as [|x l IH]; [reflexivity|]; cbn [map length]; rewrite zsum_cons, IH; lia).
    rewrite !Hz in Hlen. lia.
  - intros r Hr. apply in_map_iff in Hr. destruct Hr as (l & <- & _). cbn [snd]. nia.
  - intros r Hr. apply in_map_iff in Hr. destruct Hr as (l & <- & _). cbn [snd]. lia.
  - intros r Hr. destruct (S2 r Hr). lia.
Qed.
(** The hugepages a release unbacks are counted as unmapped from then on, each once. *)
Lemma region_release_count K ls un os calls : 0 <= K -> ForallOrdPairs (fun a b => disj (a, K) (b, K)) ls -> ForallOrdPairs disj calls -> (forall x, In x calls -> 0 < snd x) ->
  (forall h, (exists x, In x calls /\ in_rng x h) -> (exists l, In l ls /\ l <= h < l + K) /\ un h = false) ->
  zsum (map (fun l => hugepages_with (fun h => un h || unbacked_by os calls h) l K) ls) = zsum (map (fun l => hugepages_with un l K) ls) + unbacked_total os calls.
Proof.
  intros HK Hl Hd Hp Hin. rewrite !region_count. set (RP := region_pages K ls). set (C := filter (fun c => os (fst c) (snd c)) calls).
  assert (Et : unbacked_total os calls = Z.of_nat (length (hps C))).
  { rewrite hps_length by (intros r Hr; apply filter_In in Hr; destruct Hr as (Hr & _); specialize (Hp r Hr); lia). unfold unbacked_total, C. clear. induction calls as [|c l IH]; [reflexivity|]. cbn [map filter]. rewrite zsum_cons, IH.
    destruct (os (fst c) (snd c)); cbn [map]; rewrite ?zsum_cons; lia. }
  assert (Hby : forall h, unbacked_by os calls h = true <-> In h (hps C)).
  { intros h. unfold unbacked_by. rewrite existsb_exists. unfold hps. rewrite in_flat_map. split.
    - intros (c & A & B). apply andb_true_iff in B. destruct B as (B1 & B2). exists c. split; [apply filter_In; auto|]. apply pages_of_In. unfold in_range. unfold in_run in B2. apply andb_true_iff in B2. lia.
    - intros (c & A & B). apply filter_In in A. destruct A as (A1 & A2). exists c. split; [assumption|]. apply andb_true_iff. split; [assumption|]. apply pages_of_In in B. unfold in_range in B. unfold in_run. apply andb_true_iff. lia. }
  assert (NC : NoDup (hps C)).
  { apply hps_NoDup; [intros r Hr; apply Hp; apply filter_In in Hr; apply Hr|]. unfold C. clear - Hd. induction Hd as [|c l H Hd IH]; cbn [filter]; [constructor|]. destruct (os (fst c) (snd c)); [|assumption]. apply fop_cons; [|assumption].
    intros y Hy. apply filter_In in Hy. rewrite Forall_forall in H. apply H. apply Hy. }
  assert (Pm : Permutation (filter (fun h => un h || unbacked_by os calls h) RP) (filter un RP ++ hps C)).
  { assert (NR : NoDup RP) by (apply region_nodup; assumption). assert (Hc : forall h, In h (hps C) -> (exists l, In l ls /\ l <= h < l + K) /\ un h = false).
    { intros h Hh. apply Hin. apply in_flat_map in Hh. destruct Hh as (c & A & B). apply filter_In in A. apply pages_of_In in B. exists c. split; [apply A|exact B]. }
    apply NoDup_Permutation; [apply NoDup_filter; assumption| |].
    - apply NoDup_app_iff. split; [apply NoDup_filter; assumption|]. split; [assumption|]. intros h A B. apply filter_In in A. apply Hc in B. destruct A, B. congruence.
    - intros h. rewrite in_app_iff, !filter_In, orb_true_iff, Hby. split; [tauto|]. intros [A|A]; [tauto|]. split; [|auto]. apply region_pages_In. apply Hc. assumption. }
  rewrite (Permutation_length Pm), app_length, Nat2Z.inj_add, Et. reflexivity.
Qed.

(** ** C39 *)
Definition live_total (L : list span) : Z := zsum (map sp_len L).
(** Hugepages between two owners while the lock is dropped: those waiting for memory, those being unbacked, and those
    the background work has yet to collect. *)
Definition in_transit (a : hpaa) (H : list hold) (FL : list hrange) : Z := Z.of_nat (length H + length (hps FL) + length (fl_freed (hp_filler a))).

Lemma zsum_flat {A} (f : A -> list Z) l : zsum (flat_map f l) = zsum (map (fun x => zsum (f x)) l).
Proof. induction l as [|x l IH]; [reflexivity|]. cbn [flat_map map]. rewrite zsum_app, zsum_cons, IH. reflexivity. Qed.
Lemma held_abs own lv : sum_over own (held lv) = zsum (map (fun r : run => snd (fst (snd r))) (abs own lv)).
Proof.
  unfold sum_over, abs. induction own as [|x own IH]; [reflexivity|]. cbn [map flat_map]. rewrite map_app, zsum_app, zsum_cons, IH. f_equal. rewrite map_map. reflexivity.
Qed.
Lemma region_pages_length K ls : 0 <= K -> Z.of_nat (length (region_pages K ls)) = Z.of_nat (length ls) * K.
Proof.
  intros HK. unfold region_pages. induction ls as [|l ls IH]; [reflexivity|]. cbn [flat_map length]. rewrite app_length, Nat2Z.inj_add, IH, pages_of_length by (cbn [snd]; lia). cbn [snd]. lia.
Qed.
Lemma whole_length P W : 0 < P -> (forall s, In s W -> P <= sp_len s) -> Z.of_nat (length (flat_map (whole P) W)) = zsum (map (fun s => sp_len s / P) W).
Proof.
  intros HP. induction W as [|s W IH]; intros H; [reflexivity|]. cbn [flat_map map]. rewrite app_length, Nat2Z.inj_add, zsum_cons, IH by (intros; apply H; right; assumption). f_equal. unfold whole. rewrite pages_of_length; [reflexivity|].
  cbn [snd]. apply Z.div_pos; [|lia]. pose proof (H s ltac:(left; reflexivity)). lia.
Qed.
Lemma raw_total P W : 0 < P -> zsum (map sp_len W) = P * zsum (map (fun s => sp_len s / P) W) + zsum (map (fun r : run => snd (fst (snd r))) (flat_map (tail P) W)).
Proof.
  intros HP. induction W as [|s W IH]; [cbn; lia|]. cbn [map flat_map]. rewrite map_app, zsum_app, !zsum_cons, IH. unfold tail at 2. pose proof (Z.div_mod (sp_len s) P ltac:(lia)).
  destruct (Z.eqb_spec (sp_len s mod P) 0); cbn [map]; rewrite ?zsum_cons; cbn [fst snd]; change (zsum []) with 0; lia.
Qed.

Lemma core_stats P K sub a L X FL G own lv U D rl un lo F R W : 1 < P -> 0 < K -> hcore P K sub a L [] X [] FL G own lv U D rl un lo F R W ->
  let unm := Z.of_nat (length (unbacked (hp_cache a))) * P + sum_over own (released P (hp_filler a)) + P * zsum (map (fun l => hugepages_with un l K) (locs (hp_regions a))) in
  hp_stats P K a = (Z.of_nat (length (hps G)) * P,
    Z.of_nat (length (hps G)) * P - unm - live_total L - P * Z.of_nat (length X + length (hps FL) + length (fl_freed (hp_filler a))), unm) /\
  0 <= Z.of_nat (length (hps G)) * P - unm - live_total L - P * Z.of_nat (length X + length (hps FL) + length (fl_freed (hp_filler a))) /\ 0 <= unm.
Proof.
  intros HP HK C unm. destruct C. destruct (huge_cache_conserves _ _ _ _ _ v_hc) as (_ & Pm & Es & _ & _ & Ey & Ez & _).
  destruct (filler_totals P sub _ _ _ HP v_fl) as (_ & _ & _ & Eu & Ef & _ & _ & _ & _ & Hb). destruct (set_stats P K _ _ _ _ ltac:(lia) ltac:(lia) v_rs) as (_ & Er & _). cbv zeta in Er.
  assert (Hlen : Z.of_nat (length (hps G)) = Z.of_nat (length own) + Z.of_nat (length (fl_freed (hp_filler a))) + Z.of_nat (length X) + zsum (map (fun s => sp_len s / P) W) +
     Z.of_nat (length (locs (hp_regions a))) * K + Z.of_nat (length (cached (hp_cache a))) + Z.of_nat (length (unbacked (hp_cache a))) + Z.of_nat (length (hps FL))).
  { rewrite (Permutation_length Pm), !app_length, (Permutation_length v_use), (Permutation_length v_dir), !app_length. cbn [length]. rewrite !Nat2Z.inj_add, region_pages_length, (whole_length P W) by (try lia; intros s Hs; apply v_raw; assumption). lia. }
  assert (Hheld : sum_over own (held lv) + zsum (map snd rl) = live_total L - P * zsum (map (fun s => sp_len s / P) W)).
  { rewrite held_abs, (zsum_perm _ _ (Permutation_map _ v_runs)), (zsum_perm _ _ (Permutation_map _ v_reg)). unfold live_total. rewrite (zsum_perm _ _ (Permutation_map _ v_live)). rewrite !map_app, !zsum_app, !map_map, (raw_total P W) by lia.
    cbn [map]. change (zsum []) with 0. assert (E1 : map (fun x => snd (fst (snd (key P x)))) F = map sp_len F) by (apply map_ext; reflexivity). assert (E2 : map (fun x => snd (rng x)) R = map sp_len R) by (apply map_ext; reflexivity). rewrite E1, E2. lia. }
  assert (Hfree : sum_over own (fun x => P - held lv x - released P (hp_filler a) x) = P * Z.of_nat (length own) - sum_over own (held lv) - sum_over own (released P (hp_filler a))).
  { rewrite !sum_sub, sum_const. reflexivity. }
  assert (Pos : 0 <= sum_over own (fun x => P - held lv x - released P (hp_filler a) x) /\ 0 <= sum_over own (released P (hp_filler a))).
  { clear - Hb. unfold sum_over. induction own as [|x own IH]; [cbn; lia|]. cbn [map]. rewrite !zsum_cons. pose proof (Hb x ltac:(left; reflexivity)) as (A & B & E). destruct (IH ltac:(intros y Hy; apply Hb; right; assumption)). lia. }
  assert (Preg : 0 <= P * zsum (map (fun l => hugepages_with un l K) (locs (hp_regions a))) /\ zsum (map snd rl) + P * zsum (map (fun l => hugepages_with un l K) (locs (hp_regions a))) <= Z.of_nat (length (locs (hp_regions a))) * (K * P)).
  { exact (region_bounds P K _ _ _ _ ltac:(lia) ltac:(lia) v_rs). }
  assert (Est : hp_stats P K a = (Z.of_nat (length (hps G)) * P,
    Z.of_nat (length (hps G)) * P - unm - live_total L - P * Z.of_nat (length X + length (hps FL) + length (fl_freed (hp_filler a))), unm)).
  { unfold hp_stats. rewrite Er, Ey, Es, Ez, Eu, Ef, Hfree. unfold unm. f_equal; [f_equal|]; [|lia]. rewrite !Nat2Z.inj_add. rewrite Hlen. nia. }
  split; [exact Est|]. split; [|unfold unm; lia]. rewrite !Nat2Z.inj_add. unfold unm. rewrite Hlen. nia.
Qed.

(** The reported numbers: everything the system granted is free, unmapped (returned to the system), in a live range, or
    in transit.  With nothing in transit, system = free + unmapped + live.  No number is negative. *)
Theorem page_heap_stats : forall P K sub a L H FL G system free unmapped, 1 < P -> 0 < K -> hp_reach P K sub a L H FL G -> hp_stats P K a = (system, free, unmapped) ->
  system = P * Z.of_nat (length (hps G)) /\ system = free + unmapped + live_total L + P * in_transit a H FL /\
  (H = [] -> FL = [] -> fl_freed (hp_filler a) = [] -> system = free + unmapped + live_total L) /\ 0 <= free /\ 0 <= unmapped.
Proof.
  intros P K sub a L H FL G system free unmapped HP HK Hr Es. destruct (hp_reach_inv P K sub a L H FL G HP HK Hr) as (I & _). cdest I.
  destruct (core_stats _ _ _ _ _ _ _ _ _ _ _ _ _ _ _ _ _ _ HP HK C) as (A & B1 & B2). cbv zeta in A, B1, B2. rewrite Es in A. injection A as -> -> ->. unfold in_transit. rewrite map_length in *.
  split; [lia|]. split; [lia|]. split; [|split; assumption]. intros -> -> ->. cbn [length hps flat_map] in *. lia.
Qed.
Print Assumptions page_heap_stats.

(** ** Releasing *)
Lemma region_release_idle P K ls live un os calls : 0 <= K -> ForallOrdPairs (fun a b => disj (a, K) (b, K)) ls -> ForallOrdPairs disj calls -> (forall x, In x calls -> 0 < snd x) ->
  (forall h, (exists x, In x calls /\ in_rng x h) -> (exists l, In l ls /\ l <= h < l + K) /\ un h = false /\ touched P live h = false) ->
  set_idle P K ls live un = set_idle P K ls live (fun h => un h || unbacked_by os calls h) + unbacked_total os calls.
Proof.
  intros HK Hl Hd Hp Hin. unfold set_idle.
  pose proof (region_release_count K ls (fun h => un h || touched P live h) os calls HK Hl Hd Hp) as E1. 
  assert (Hneg : forall f g, (forall h, g h = negb (f h)) -> zsum (map (fun l => hugepages_with g l K) ls) = Z.of_nat (length ls) * K - zsum (map (fun l => hugepages_with f l K) ls)).
  { intros f g Hg. rewrite !region_count, <- region_pages_length by assumption. induction (region_pages K ls) as [|x l IH]; [reflexivity|]. cbn [filter length]. rewrite Hg. destruct (f x); cbn [negb length]; lia. }
  rewrite (Hneg (fun h => un h || touched P live h) (fun h => negb (un h) && negb (touched P live h))) by (intros h; destruct (un h), (touched P live h); reflexivity).
  rewrite (Hneg (fun h => (un h || touched P live h) || unbacked_by os calls h) (fun h => negb (un h || unbacked_by os calls h) && negb (touched P live h))) by (intros h; destruct (un h), (touched P live h), (unbacked_by os calls h); reflexivity).
  rewrite E1; [lia|]. intros h Hh. destruct (Hin h Hh) as (A & B & C). split; [assumption|]. rewrite B, C. reflexivity.
Qed.

(** Pages that the filler returned to the system outside of a release, and that no release has reported yet. *)
Definition unreported (a : hpaa) : Z := fl_unaccounted (hp_filler a).

Lemma release_whole_stats P K sub a L X FL G n regions adaptive hit_limit v a' r s f u : 1 < P -> 0 < K -> hinv P K sub a L [] X [] FL G -> 0 <= n -> 0 <= v_size_min v ->
  release_whole P K a n regions adaptive hit_limit v = Some (a', r) -> hp_stats P K a = (s, f, u) ->
  (exists f', hp_stats P K a' = (s, f', u + r)) /\ 0 <= r /\
  ((forall j, 0 <= j -> v_os2 v j = true) -> Z.min n (P * Z.of_nat (length (cached (hp_cache a)))) <= r) /\
  ((forall j, 0 <= j -> v_os2 v j = true) -> r < n -> cached (hp_cache a') = []) /\
  (regions = true -> hit_limit = true -> (forall i m, v_osr v i m = true) -> r < n -> rs_free_backed (hp_regions a') = 0).
Proof.
  intros HP HK H Hn Hs E Es. cdest H. destruct C.
  destruct (huge_cache_release_cached _ _ _ _ _ _ (v_size_min v) (v_os1 v) (v_os2 v) (v_pr1 v) (v_pr2 v) v_hc (hl_nonneg P n ltac:(lia) Hn) Hs) as (c & h & mv & Ec & Hr & Pc & Pu & Ecl & Hmin).
  unfold release_whole in E. rewrite Ec in E. cbn [obind] in E.
  destruct (huge_cache_conserves _ _ _ _ _ v_hc) as (_ & _ & Z1 & _ & _ & Z2 & Z3 & _). destruct (huge_cache_conserves _ _ _ _ _ Hr) as (_ & _ & Y1 & _ & _ & Y2 & Y3 & _).
  assert (Esz : ha_size (hc_alloc h) = ha_size (hc_alloc (hp_cache a)) + c) by (rewrite Y3, Z3, (Permutation_length Pu), app_length; lia).
  assert (Esy : ha_system (hc_alloc h) = ha_system (hc_alloc (hp_cache a))) by congruence.
  assert (Hc0 : 0 <= c) by lia.
  assert (Hhl : n <= hl_from_pages P n * P). { unfold hl_from_pages. pose proof (Z.div_mod n P ltac:(lia)). pose proof (Z.mod_pos_bound n P ltac:(lia)). destruct (Z.eqb_spec (n mod P) 0); nia. }
  assert (Hmin2 : (forall j, 0 <= j -> v_os2 v j = true) -> Z.min n (P * Z.of_nat (length (cached (hp_cache a)))) <= c * P) by (intros Hos; specialize (Hmin Hos); nia).
  assert (Hall : (forall j, 0 <= j -> v_os2 v j = true) -> c * P < n -> cached h = []).
  { intros Hos Hlt. specialize (Hmin Hos). assert (Z.of_nat (length (cached (hp_cache a))) <= c) by nia. assert (Hl := Permutation_length Pc). rewrite app_length in Hl. destruct (cached h); [reflexivity|]. cbn [length] in Hl. lia. }
  destruct (set_stats P K _ _ _ _ ltac:(lia) ltac:(lia) v_rs) as (_ & Er & _ & Ei & _). cbv zeta in Er.
  destruct regions.
  - set (des := if c * P <? n then n - c * P else 0) in *. assert (Hdes : 0 <= des) by (unfold des; destruct (Z.ltb_spec (c * P) n); lia).
    destruct (set_release P K _ _ _ _ (v_osr v) des adaptive hit_limit ltac:(lia) ltac:(lia) v_rs Hdes) as (rs & calls & E2 & C1 & C2 & C3 & _ & C5 & C6). cbv zeta in *.
    change (hp_regions (hp_set_cache a h)) with (hp_regions a) in E. rewrite E2 in E. cbn [obind] in E. injection E as <- <-.
    change (zsum (map (fun x => if v_osr v (fst x) (snd x) then snd x else 0) calls)) with (unbacked_total (v_osr v) calls) in *.
    pose proof (rsr_release P K _ _ _ _ _ des adaptive hit_limit rs _ calls _ v_rs Hdes E2 eq_refl) as Hrs. destruct (set_stats P K _ _ _ _ ltac:(lia) ltac:(lia) Hrs) as (_ & Er' & _ & Ei' & _). cbv zeta in Er'.
    destruct (set_runs P K _ _ _ _ ltac:(lia) ltac:(lia) v_rs) as (_ & _ & S3).
    pose proof (region_release_count K (locs (hp_regions a)) un (v_osr v) calls ltac:(lia) S3 C2 C1 ltac:(intros z Hz; destruct (C3 z Hz) as (A & B & _); auto)) as Hcount.
    pose proof (region_release_idle P K (locs (hp_regions a)) rl un (v_osr v) calls ltac:(lia) S3 C2 C1 C3) as Hidle. rewrite <- C6 in Hcount at 1. rewrite <- C6 in Hidle at 2.
    assert (Ht0 : 0 <= unbacked_total (v_osr v) calls) by (apply (unbacked_total_le (v_osr v) calls C1)).
    split; [|split; [lia|split; [|split]]].
    + unfold hp_stats in Es |- *. hred. rewrite Er in Es. rewrite Er'. injection Es as <- <- <-. eexists. f_equal; [|]. { f_equal. rewrite Esy. reflexivity. }
      rewrite Esz, Hcount. lia.
    + intros Hos. specialize (Hmin2 Hos). nia.
    + intros Hos Hlt. hred. apply Hall; [assumption|nia].
    + intros _ -> Hos Hlt. hred. rewrite Ei'. specialize (C5 ltac:(intros; apply Hos)).
      unfold des in C5. destruct (Z.ltb_spec (c * P) n); [|nia]. assert (unbacked_total (v_osr v) calls * P < n - c * P) by lia.
      assert (Hce : n - c * P <= (n - c * P + P - 1) / P * P). { pose proof (Z.div_mod (n - c * P + P - 1) P ltac:(lia)). pose proof (Z.mod_pos_bound (n - c * P + P - 1) P ltac:(lia)). lia. }
      assert (unbacked_total (v_osr v) calls = set_idle P K (locs (hp_regions a)) rl un) by nia. lia.
  - injection E as <- <-. split; [|split; [lia|split; [|split]]].
    + unfold hp_stats in Es |- *. hred. rewrite Er in *. injection Es as <- <- <-. eexists. f_equal; [|]. { f_equal. rewrite Esy. reflexivity. } rewrite Esz. lia.
    + assumption.
    + assumption.
    + discriminate.
Qed.

(** What a release reports. *)
Definition reports (P K : Z) (a : hpaa) (r : Z) (a' : hpaa) : Prop :=
  forall s f u s' f' u', hp_stats P K a = (s, f, u) -> hp_stats P K a' = (s', f', u') ->
  s' = s /\ f' + u' = f + u /\ u <= u' /\ r = (u' - u) + (unreported a - unreported a') /\ (unreported a' = unreported a \/ unreported a' = 0).

Lemma filler_part P K sub a L X FL G ans n fp skip f r : 1 < P -> hinv P K sub a L [] X [] FL G -> release_pages P sub ans (hp_filler a) n fp skip f r ->
  fl_unmapped f = fl_unmapped (hp_filler a) + (r - fl_unaccounted (hp_filler a)) /\ fl_unaccounted f = 0 /\ fl_freed f = fl_freed (hp_filler a) /\ fl_unmapped (hp_filler a) <= fl_unmapped f.
Proof.
  intros HP H E. cdest H. destruct C. destruct (filler_release P sub _ _ _ ans n fp skip f r HP v_fl E) as (A & B & M & _ & _ & Ef & _).
  pose proof (fr_release P sub _ _ _ _ _ _ _ _ _ v_fl E) as Hf. destruct (filler_totals P sub _ _ _ HP v_fl) as (_ & _ & _ & U1 & _). destruct (filler_totals P sub _ _ _ HP Hf) as (_ & _ & _ & U2 & _).
  split; [lia|]. split; [assumption|]. split; [assumption|]. rewrite U1, U2. clear - M. unfold sum_over. induction own as [|x own IH]; [cbn; lia|]. cbn [map]. rewrite !zsum_cons.
  pose proof (M x ltac:(left; reflexivity)). specialize (IH ltac:(intros y Hy; apply M; right; assumption)). lia.
Qed.

Lemma unreported_nonneg P K sub a L X FL G : 1 < P -> hinv P K sub a L [] X [] FL G -> 0 <= unreported a.
Proof. intros HP H. cdest H. destruct C. apply (fo_unacc _ _ _ _ _ (fl_reach_ok _ _ _ _ _ HP v_fl)). Qed.

Lemma stats_sum P K sub a L X FL G s f u : 1 < P -> 0 < K -> hinv P K sub a L [] X [] FL G -> hp_stats P K a = (s, f, u) ->
  f + u = Z.of_nat (length (hps G)) * P - live_total L - P * Z.of_nat (length X + length (hps FL) + length (fl_freed (hp_filler a))).
Proof.
  intros HP HK I Es. cdest I. destruct (core_stats _ _ _ _ _ _ _ _ _ _ _ _ _ _ _ _ _ _ HP HK C) as (A & _). cbv zeta in A. rewrite Es in A. injection A as _ -> ->. lia.
Qed.
Lemma whole_reports P K sub a L H FL G n regions adaptive hit_limit v a' r : 1 < P -> 0 < K -> hinv P K sub a L [] (map h_x H) [] FL G -> hinv P K sub a' L [] (map h_x H) [] FL G -> 0 <= n -> 0 <= v_size_min v ->
  release_whole P K a n regions adaptive hit_limit v = Some (a', r) -> hp_filler a' = hp_filler a -> reports P K a r a'.
Proof.
  intros HP HK I I' Hn Hs E Ef s f u s' f' u' Es Es'. destruct (release_whole_stats P K sub a L _ FL G n regions adaptive hit_limit v a' r s f u HP HK I Hn Hs E Es) as ((f2 & Es2) & Hr & _). rewrite Es' in Es2. injection Es2 as -> -> ->.
  split; [reflexivity|]. pose proof (stats_sum P K sub a L _ FL G _ _ _ HP HK I Es) as A. pose proof (stats_sum P K sub a' L _ FL G _ _ _ HP HK I' Es') as A'.
  unfold unreported. rewrite Ef in *. split; [|lia]. lia.
Qed.
Lemma break_reports P K sub a a1 L H FL G r1 ans m fp skip f2 r2 : 1 < P -> 0 < K -> hinv P K sub a1 L [] (map h_x H) [] FL G ->
  reports P K a r1 a1 -> hp_filler a1 = hp_filler a -> release_pages P sub ans (hp_filler a1) m fp skip f2 r2 -> reports P K a (r1 + r2) (hp_set_filler a1 f2).
Proof.
  intros HP HK I1 Hw Ef E s f u s' f' u' Es Es'. destruct (hp_stats P K a1) as ((s1, f1), u1) eqn:Es1. destruct (Hw s f u s1 f1 u1 Es Es1) as (W1 & W2 & W3 & W4 & _). assert (W4' : r1 = u1 - u) by (unfold unreported in W4; rewrite Ef in W4; lia).
  pose proof (hrelease_pages_ok P K sub _ _ _ _ _ _ _ _ _ _ _ HP I1 E) as I2. destruct (filler_part P K sub a1 L _ FL G ans m fp skip f2 r2 HP I1 E) as (F1 & F2 & F3 & F4).
  assert (Hu : u' = u1 + (r2 - fl_unaccounted (hp_filler a1)) /\ s' = s1). { unfold hp_stats in Es1, Es'. hred. cbn [hp_regions hp_set_filler hp_cache hp_filler] in Es'. destruct (rs_stats P K (hp_regions a1)) as ((x1, x2), x3). injection Es1 as <- <- <-. injection Es' as <- <- <-. split; [lia|reflexivity]. }
  destruct Hu as (-> & ->). split; [assumption|].
  pose proof (stats_sum P K sub a1 L _ FL G _ _ _ HP HK I1 Es1) as A. pose proof (stats_sum P K sub _ L _ FL G _ _ _ HP HK I2 Es') as A'. cbn [hp_filler hp_set_filler] in A'. rewrite F3 in A'.
  split; [lia|]. split; [lia|]. unfold unreported. hred. rewrite F2, <- Ef. split; [lia|auto].
Qed.

(** A release reports what it returned to the system, which is what the reported unmapped pages grow by, and, if the
    filler takes part, also what the filler had returned before without reporting it.  System stays, and free shrinks by
    what unmapped grows.  If the system takes back whole hugepages, at least as much as asked for is released as long
    as there are cached hugepages. *)
Theorem page_release : forall P K sub a L H FL G n adaptive subrelease max_cold len_max v ans from_partial skip a' r, 1 < P -> 0 < K -> hp_reach P K sub a L H FL G ->
  0 <= n -> 0 <= v_size_min v -> hp_release P K sub a n adaptive subrelease max_cold len_max v ans from_partial skip a' r ->
  reports P K a r a' /\ ((forall j, 0 <= j -> v_os2 v j = true) -> Z.min n (P * Z.of_nat (length (cached (hp_cache a)))) <= r).
Proof.
  intros P K sub a L H FL G n adaptive subrelease max_cold len_max v ans fp skip a' r HP HK Hr Hn Hs E. destruct (hp_reach_inv P K sub a L H FL G HP HK Hr) as (I & _).
  destruct (release_whole_ok P K sub a L _ FL G n (rs_more_often (hp_regions a)) adaptive false v HP HK I Hn Hs) as (a1 & r1 & E1 & I1 & _ & Ef & _).
  destruct (hp_stats P K a) as ((s, f), u) eqn:Es. destruct (release_whole_stats P K sub a L _ FL G n _ adaptive false v a1 r1 s f u HP HK I Hn Hs E1 Es) as (_ & _ & Hm & _).
  pose proof (whole_reports P K sub a L H FL G n _ adaptive false v a1 r1 HP HK I I1 Hn Hs E1 Ef) as Rw. inversion E as [b1 q1 E2 _|b1 q1 f2 r2 E2 _ E3]; subst; rewrite E1 in E2; injection E2 as <- <-; [auto|].
  pose proof (break_reports P K sub a a1 L H FL G r1 ans _ fp skip f2 r2 HP HK I1 Rw Ef E3) as Rb. split; [assumption|]. intros Hos. specialize (Hm Hos).
  destruct (filler_part P K sub a1 L _ FL G _ _ _ _ _ _ HP I1 E3) as (F1 & _ & _ & F2). pose proof (unreported_nonneg P K sub a1 L _ FL G HP I1) as F3. unfold unreported in F3. lia.
Qed.
Print Assumptions page_release.

(** The release that may break hugepages, likewise.  Moreover, if the system takes back everything it is offered, it
    releases as much as asked for unless nothing is left: no hugepage in the cache, no backed hugepage of a region
    without a live range, and, if the filler's hugepages are not being collapsed, no free backed page in the filler. *)
Theorem page_release_breaking : forall P K sub a L H FL G n adaptive v ans a' r, 1 < P -> 0 < K -> hp_reach P K sub a L H FL G ->
  0 <= n -> 0 <= v_size_min v -> hp_release_breaking P K sub a n adaptive v ans a' r ->
  reports P K a r a' /\
  ((forall j, 0 <= j -> v_os2 v j = true) -> (forall i m, v_osr v i m = true) -> (forall os, ans os -> forall y i m, os y i m = true) -> r < n ->
   cached (hp_cache a') = [] /\ rs_free_backed (hp_regions a') = 0 /\
   ((forall x, in_filler a x -> fl_collapsing (hp_filler a) x = false) -> fl_free_pages P (hp_filler a') = 0)).
Proof.
  intros P K sub a L H FL G n adaptive v ans a' r HP HK Hr Hn Hs E. destruct (hp_reach_inv P K sub a L H FL G HP HK Hr) as (I & _).
  destruct (release_whole_ok P K sub a L _ FL G n true adaptive true v HP HK I Hn Hs) as (a1 & r1 & E1 & I1 & _ & Ef & Et).
  destruct (hp_stats P K a) as ((s, f), u) eqn:Es. destruct (release_whole_stats P K sub a L _ FL G n _ adaptive true v a1 r1 s f u HP HK I Hn Hs E1 Es) as (_ & _ & _ & Hm1 & Hm2).
  pose proof (whole_reports P K sub a L H FL G n _ adaptive true v a1 r1 HP HK I I1 Hn Hs E1 Ef) as Rw. inversion E as [b1 q1 E2 Hq|b1 q1 f2 r2 E2 Hq E3]; subst; rewrite E1 in E2; injection E2 as <- <-.
  - split; [assumption|]. intros _ _ _ Hlt. lia.
  - split; [exact (break_reports P K sub a a1 L H FL G r1 ans _ 0 None f2 r2 HP HK I1 Rw Ef E3)|]. intros O1 O2 O3 Hlt.
    destruct (filler_part P K sub a1 L _ FL G _ _ _ _ _ _ HP I1 E3) as (F1 & _ & _ & F2). pose proof (unreported_nonneg P K sub a1 L _ FL G HP I1) as F3. unfold unreported in F3.
    hred. split; [apply Hm1; [assumption|lia]|]. split; [apply Hm2; [reflexivity|reflexivity|assumption|lia]|]. intros Hcol.
    cdest I1. destruct C. destruct (filler_release P sub _ _ _ ans _ _ _ _ _ HP v_fl E3) as (_ & _ & _ & _ & _ & _ & _ & _ & Hx). pose proof (fr_release P sub _ _ _ _ _ _ _ _ _ v_fl E3) as Hf.
    destruct (filler_totals P sub _ _ _ HP Hf) as (_ & _ & _ & _ & Efr & _ & _ & _ & _ & Hb). rewrite Efr. specialize (Hx O3 ltac:(unfold release_target; lia)).
    assert (Hc : forall x, In x own -> fl_collapsing (hp_filler a1) x = false).
    { intros x Hi. rewrite Ef. apply Hcol. split; [rewrite <- Et; apply v_tr; apply in_or_app; auto|]. rewrite <- Ef. intros Hfr. destruct (filler_freed P sub _ _ _ HP v_fl) as (_ & A). destruct (A x Hfr). contradiction. }
    clear - Hx Hb Hc. unfold sum_over. induction own as [|x own IH]; [reflexivity|]. cbn [map]. rewrite zsum_cons, IH.
    + pose proof (Hx x ltac:(left; reflexivity) (Hc x ltac:(left; reflexivity))) as A. unfold can_release in A. pose proof (Hb x ltac:(left; reflexivity)) as (_ & _ & B). lia.
    + intros y Hy. apply Hx. right. assumption.
    + intros y Hy. apply Hb. right. assumption.
    + intros y Hy. apply Hc. right. assumption.
Qed.
Print Assumptions page_release_breaking.

(** Both releases always end normally: for any answers of the system there is a result. *)
Theorem page_release_total : forall P K sub a L H FL G n adaptive subrelease max_cold len_max v (ans : (Z -> Z -> Z -> bool) -> Prop) os from_partial skip, 1 < P -> 0 < K -> hp_reach P K sub a L H FL G ->
  0 <= n -> 0 <= v_size_min v -> ans os ->
  (exists a' r, hp_release P K sub a n adaptive subrelease max_cold len_max v ans from_partial skip a' r) /\ (exists a' r, hp_release_breaking P K sub a n adaptive v ans a' r).
Proof.
  intros P K sub a L H FL G n adaptive subrelease max_cold len_max v ans os fp skip HP HK Hr Hn Hs Ha. destruct (hp_reach_inv P K sub a L H FL G HP HK Hr) as (I & _). split.
  - destruct (release_whole_ok P K sub a L _ FL G n (rs_more_often (hp_regions a)) adaptive false v HP HK I Hn Hs) as (a1 & r1 & E1 & I1 & _). destruct (subrelease && ((r1 <? n) || max_cold)) eqn:Eb; [|exists a1, r1; apply hr_whole; assumption].
    cdest I1. destruct C. destruct (filler_release_total P sub _ _ _ ans os (if max_cold then len_max else n - r1) fp skip HP v_fl Ha) as (f2 & r2 & E2). eexists _, _. eapply hr_break; eassumption.
  - destruct (release_whole_ok P K sub a L _ FL G n true adaptive true v HP HK I Hn Hs) as (a1 & r1 & E1 & I1 & _). destruct (Z.le_gt_cases n r1); [exists a1, r1; apply hb_whole; assumption|].
    cdest I1. destruct C. destruct (filler_release_total P sub _ _ _ ans os (n - r1) 0 None HP v_fl Ha) as (f2 & r2 & E2). eexists _, _. eapply hb_break; eassumption.
Qed.
Print Assumptions page_release_total.

(** The counters for telemetry: pages in small live ranges (up to half a hugepage); pages lost to rounding larger ones up
    to hugepages; hugepages that a larger range shares with the filler; and pages of such a range that were given back
    while the filler still used the rest.  Ranges that share a hugepage like this end on different hugepages. *)
Theorem page_heap_counters : forall P K sub a L H FL G, 1 < P -> 0 < K -> hp_reach P K sub a L H FL G ->
  hp_small a = zsum (map sp_len (filter (fun s => sp_len s <=? P / 2) L)) /\
  hp_slack a = zsum (map (fun s => hl_from_pages P (sp_len s) * P - sp_len s) (filter (fun s => negb (sp_len s <=? P / 2)) L)) /\
  (exists tracked, NoDup tracked /\ (forall x, In x tracked <-> hp_tracker a x = true) /\
     hp_donated a = Z.of_nat (length (filter (hp_was_donated a) tracked)) /\
     hp_ab_pages a = zsum (map (hp_ab_count a) (filter (hp_abandoned a) tracked)) /\
     (forall x, In x tracked -> hp_abandoned a x = true -> hp_was_donated a x = true)) /\
  (forall s, In s L -> sp_don s = true -> let last := (sp_page s + sp_len s - 1) / P in hp_tracker a last = true /\ hp_was_donated a last = true /\ hp_abandoned a last = false) /\
  NoDup (map (fun s => (sp_page s + sp_len s - 1) / P) (filter sp_don L)).
Proof.
  intros P K sub a L H FL G HP HK Hr. destruct (hp_reach_inv P K sub a L H FL G HP HK Hr) as (I & _ & (Ia & Ib)).
  assert (Hz : forall (b : span -> bool) g l, zsum (map (fun s => if b s then g s else 0) l) = zsum (map g (filter b l))).
  { intros b g. induction l as [|x l IH]; [reflexivity|]. cbn [map filter]. rewrite zsum_cons, IH. destruct (b x); cbn [map]; rewrite ?zsum_cons; lia. }
  assert (Hz2 : forall (b : Z -> bool) g l, count_if b g l = zsum (map g (filter b l))).
  { intros b g. unfold count_if. induction l as [|x l IH]; [reflexivity|]. cbn [map filter]. rewrite zsum_cons, IH. destruct (b x); cbn [map]; rewrite ?zsum_cons; lia. }
  split; [rewrite Ia; apply Hz|]. split. { rewrite Ib. unfold slack_pages. rewrite <- (Hz (fun s => negb (sp_len s <=? P / 2))). f_equal. apply map_ext. intros s. destruct (sp_len s <=? P / 2); reflexivity. }
  cdest I. pose proof (fun s => don_own P K sub a L [] (map h_x H) [] FL G own lv U D rl un lo F R W s HP C) as Hdo. destruct (core_nodup _ _ _ _ _ _ _ _ _ _ _ _ _ _ _ _ _ _ _ _ C) as (ND & _).
  destruct C. split; [|split].
  - exists (own ++ fl_freed (hp_filler a)). rewrite app_nil_r in *. split; [rewrite app_assoc in ND; apply NoDup_app_iff in ND; apply ND|]. split; [intros x; symmetry; apply v_tr|].
    split; [rewrite v_don, Hz2; clear; induction (filter _ _) as [|x l IH]; [reflexivity|]; cbn [map length]; rewrite zsum_cons, IH; lia|]. split; [rewrite v_abp; apply Hz2|assumption].
  - intros s Hs Hd last. destruct (v_last s Hs Hd) as (A & B). split; [|split; assumption]. apply v_tr. apply in_or_app. left. apply Hdo; assumption.
  - exact v_nd.
Qed.
Print Assumptions page_heap_counters.
