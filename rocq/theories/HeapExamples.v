(** C38: a concrete history of the whole allocator. *)
From Coq Require Import Permutation.
From Verif Require HeapCaches Hpaa HpaaProofs HpaaProps HpaaExamples SysAlloc SysAllocProps HeapPages SlabRseq SlabProps Slab.
From Verif Require Import Base SizeMap Tables SizeMapProofs SizeMapProofs2 SizeMapProps FrontApi FrontApiProofs Bitmap Span SpanProofs SpanProofs2 CentralFreeList CFLProps HeapClass Heap HeapProofs HeapProps.
Import SysAlloc SysAllocProps HeapPages HpaaExamples.

(** The shipped table for 8 KiB pages; 256 pages to a hugepage. *)
Definition xc : cfg := cfg13 1 1.
Definition xm : sizemap := match init xc false false t_def_8_13 with Some m => m | None => SizeMap (fun _ => 0) (fun _ => 0) (fun _ => 0) (fun _ => 0) end.
Definition xq : bpar := BPar 256 4 true 8192 true 4096 (2 ^ 30).
Definition xp : hpar := HPar xc t_def_8_13 false false 1 xm xq 2 4.
Lemma xp_ok : hpar_ok xp.
Proof.
  assert (Hc : cfg_ok xc) by (exists 1, 1; split; [lia|auto]).
  assert (Hin : In t_def_8_13 (tables (page_shift xc))) by (cbn; tauto).
  destruct (shipped_tables_accepted xc _ Hc Hin) as (Hv & Hf).
  destruct (accepted_table_initialises xc false false _ Hc Hf Hv) as (m & Em).
  split; [exact Hc|]. split; [exact Hf|]. split; [exact Hv|]. split; [cbn [xp p_c p_active p_full p_t p_m]; unfold xm; rewrite Em; reflexivity|]. split; [|reflexivity].
  split; [cbn; lia|]. split; [cbn; lia|]. split; [cbn; lia|]. split; [reflexivity|apply ex_sizes].
Qed.

(** The per-CPU caches at the start. *)
Definition xs_cfg : Slab.scfg := Slab.SCfg (num_classes xc) (fun cl => if cl =? 7 then 3 else 0) 12 8192.
Definition xs_beg : Z -> Z := match Slab.init_slabs xs_cfg with Some b => b | None => fun _ => 0 end.
Definition xs0 : SlabRseq.rst :=
  SlabRseq.Rst (fun _ => None) (fun _ => SlabRseq.TNone) (fun _ => SlabRseq.Idle) (fun _ => -1) (fun _ => false) (fun _ => SlabRseq.Free) (fun _ => false)
      1 (fun _ => xs_cfg) (fun _ => xs_beg) (fun _ _ => Slab.Region (fun _ => 7) (fun _ => 7) (fun _ => 7)) SlabRseq.GNone (fun _ => false) (fun _ _ => false).
Lemma xs0_reach : SlabRseq.reach 2 (num_classes xc) xs0 [].
Proof.
  apply (SlabRseq.rn_init _ _ xs0 xs_cfg xs_beg); auto.
  split; [reflexivity|]. split; [split; [discriminate|split; [discriminate|]]; intros cl; cbn [xs_cfg Slab.s_max]; destruct (cl =? 7); lia|].
  split; [vm_compute; reflexivity|]. split; [vm_compute; reflexivity|]. intros r. unfold Slab.init_cpu. vm_compute. discriminate.
Qed.

(** Memory and descriptors have anything in them. *)
Definition xspan (page : Z) : span := MkSpan page 9 4 11 5 (fun _ => 77) (fun _ => 99).
Definition xh0 : heap := heap_init xp (fun _ => 3) (fun _ => xspan 5) (fun _ => 44) (fun _ => None) (fun _ => [(TransferCache.tc_new 4 8, [])]) xs0 (fun _ => (0, HpaaProofs.Span 0 0 0 false)) ex_t0 true.

(** A hugepage from the system; a page of it for the class of objects of 112 bytes; 37 pages of it. *)
Definition xt : Z := tag_normal_p0.
Definition xa0 : Z := ex_h0 + 2 ^ 30 - kHuge.
Definition xX : Z := xa0 / kHuge.
Definition xb1 : back := set_sys (back_init ex_t0 true) exs1 [(ex_h0, 2 ^ 30)] [(xt, (xa0, kHuge))] (upd (fun _ => []) xt [(1, (xX, 1))]).
Definition xhp2 : Hpaa.hpaa := st3 (Hpaa.hp_init ex_t0 true) (Hpaa.hp_new_aligned 256 4 true (b_hp xb1 xt) 1 1 false 73 (ex_env None) (ex_env (Some (xX, 1)))).
Definition xb2 : back := set_hp xb1 xt xhp2 [] [HpaaProps.Hold xX 1 false 73] [] [(xX, 1)] [].
Definition xhp3 : Hpaa.hpaa := st2 (Hpaa.hp_init ex_t0 true) (Hpaa.hp_refill_end 256 true xhp2 xX 1 false 73).
Definition xr1 : hspan := HpaaProofs.Span (xX * 256) 1 73 false.
Definition xb3 : back := set_hp xb2 xt xhp3 [xr1] [] [] [(xX, 1)] [].
Definition xhp4 : Hpaa.hpaa := st3 (Hpaa.hp_init ex_t0 true) (Hpaa.hp_new_aligned 256 4 true xhp3 37 1 false 1 (ex_env None) (ex_env None)).
Definition xr2 : hspan := HpaaProofs.Span (xX * 256 + 1) 37 1 false.
Definition xb4 : back := set_hp xb3 xt xhp4 [xr2; xr1] [] [] [(xX, 1)] [].

Definition xh1 : heap := set_pages xh0 (g_span xh0) (g_pm xh0) [] [] (h_desc xh0) xb1.
Definition xh2 : heap := set_pages xh1 (g_span xh1) (g_pm xh1) [] [] (h_desc xh1) xb2.
Definition xh3 : heap := set_pages xh2 (upd (g_span xh2) 1 (xspan (xX * 256))) (upd (g_pm xh2) (xX * 256) (Some 1)) [(1, 1, 1)] [] (upd (h_desc xh2) 1 (xt, xr1)) xb3.
Definition xh4 : heap := set_pages xh3 (upd (g_span xh3) 2 (xspan (xX * 256 + 1))) (upd (g_pm xh3) (xX * 256 + 1) (Some 2))
  [(2, 37, 1); (1, 1, 1)] [] (upd (h_desc xh3) 2 (xt, xr2)) xb4.

Lemma xask : sys_allocate true 4096 (2 ^ 30) sa_init (1 * kHuge) kHuge xt (ex_kernel ex_r ex_h0 (2 ^ 30)) = Some (Some (xa0, kHuge), exs1, [(ex_h0, 2 ^ 30)]).
Proof.
  unfold exs1. change (1 * kHuge) with kHuge. fold xt.
  assert (H : match sys_allocate true 4096 (2 ^ 30) sa_init kHuge kHuge xt (ex_kernel ex_r ex_h0 (2 ^ 30)) with
    Some (r, _, m) => r = Some (xa0, kHuge) /\ m = [(ex_h0, 2 ^ 30)] | None => False end) by (vm_compute; split; reflexivity).
  destruct (sys_allocate true 4096 (2 ^ 30) sa_init kHuge kHuge xt (ex_kernel ex_r ex_h0 (2 ^ 30))) as [((r, s), m)|]; [|contradiction].
  destruct H as (-> & ->). reflexivity.
Qed.
Lemma xt_tag : is_tag xt.
Proof. cbn; tauto. Qed.

Lemma xh1_step : hstep xp xh0 xh1.
Proof.
  apply (S_page_quiet xp xh0 xb1).
  refine (b_ask xq (back_init ex_t0 true) xt 1 (ex_kernel ex_r ex_h0 (2 ^ 30)) xa0 kHuge exs1 [(ex_h0, 2 ^ 30)] xt_tag ltac:(lia) ltac:(unfold kHuge, two64; lia) _ xask).
  apply ex_kernel_ok; [exact xt_tag|intros; apply hint_tag_nonzero; unfold xt, tag_normal_p0; lia|vm_compute; split; [reflexivity|discriminate]|intros m []].
Qed.
Lemma xh2_step : hstep xp xh1 xh2.
Proof.
  apply (S_page_quiet xp xh1 xb2).
  refine (b_alloc xq xb1 xt 1 1 false 73 (ex_env None) (ex_env (Some (xX, 1))) xhp2 (Hpaa.AHold xX true) [(xX, 1)] [] [HpaaProps.Hold xX 1 false 73] [(1, (xX, 1))] [] xt_tag ltac:(lia) ltac:(discriminate) _ _ _ eq_refl _ eq_refl).
  - intros g E. discriminate.
  - intros g E. injection E as <-. vm_compute. left. reflexivity.
  - apply st3_eq. vm_compute. split; reflexivity.
  - vm_compute. reflexivity.
Qed.
Lemma xh3_step : hstep xp xh2 xh3.
Proof.
  apply (S_page_got xp xh2 xt xr1 1 1 xb3 1 (xspan (xX * 256))); [|vm_compute; tauto|reflexivity].
  refine (b_resume xq xb2 xt [] (HpaaProps.Hold xX 1 false 73) [] xhp3 (xX * 256) xt_tag eq_refl _).
  apply (st2_eq (Hpaa.hp_init ex_t0 true)). vm_compute. reflexivity.
Qed.
Lemma xh4_step : hstep xp xh3 xh4.
Proof.
  apply (S_page_got xp xh3 xt xr2 37 1 xb4 2 (xspan (xX * 256 + 1))); [|vm_compute; intros [H|H]; [discriminate|exact H]|reflexivity].
  refine (b_alloc xq xb3 xt 37 1 false 1 (ex_env None) (ex_env None) xhp4 (Hpaa.ADone (xX * 256 + 1) 37 false false) [] [xr2; xr1] [] [] [] xt_tag ltac:(lia) ltac:(discriminate) _ _ _ eq_refl (Permutation_refl _) eq_refl).
  - intros g E. discriminate.
  - intros g E. discriminate.
  - apply st3_eq. vm_compute. split; reflexivity.
Qed.

(** The class is asked for two objects: it is empty, gets the page, and returns them. *)
Definition xk : Z := 7.
Lemma xk_in : In xk (classes xp).
Proof.
  assert (H : class_used xp xk = true) by (vm_compute; reflexivity).
  assert (E : num_classes (p_c xp) = 172) by (vm_compute; reflexivity). unfold classes. rewrite E.
  apply (proj2 (filter_In (class_used xp) xk (zseq 1 (Z.to_nat (172 - 1))))). split; [|exact H]. apply zseq_In. unfold xk. lia.
Qed.
Definition xf5 : cfl := match remove_locked xc 112 73 (y_f (view xh4 xk)) 2 with Some (_, _, f) => f | None => y_f (view xh4 xk) end.
Definition xh5 : heap := set_class xh4 xk (MkSys xf5 [] [] [PRemove [] 2]) (g_sc xh4) [] [(2, 37, 1); (1, 1, 1)] [].
Definition xbuilt := build_freelist xc (f_mem xf5) (xspan (xX * 256)) 112 73 2.
Definition xobjs : list Z := fst (fst xbuilt).
Definition xf6 : cfl := set_mem_span (register (y_f (view xh5 xk)) 1 1 (xspan (xX * 256))) (snd (fst xbuilt)) 1 (snd xbuilt).
Definition xh6 : heap := set_class xh5 xk (MkSys xf6 [1] [] [PPublish [] xobjs 1]) (marks xh5 1 xk [1] (g_sc xh5)) [] [(2, 37, 1)] [].
Definition xf7 : cfl := update_object_counts (populate_locked 73 (y_f (view xh6 xk)) 1 2) (- 2).
Definition xh7 : heap := set_class xh6 xk (MkSys xf7 [1] xobjs []) (g_sc xh6) xobjs [(2, 37, 1)] [].
Lemma xobjs_eq : xobjs = [xX * 256 * 8192; xX * 256 * 8192 + 112].
Proof. vm_compute. reflexivity. Qed.
Lemma pick3 {A B C} (o : option (A * B * C)) d a b : match o with Some (a', b', _) => a' = a /\ b' = b | None => False end ->
  o = Some (a, b, match o with Some (_, _, c) => c | None => d end).
Proof. destruct o as [((a', b'), c)|]; [intros (-> & ->); reflexivity|contradiction]. Qed.

Lemma xh5_step : hstep xp xh4 xh5.
Proof.
  refine (S_class xp xh4 xk ev_none (MkSys xf5 [] [] [PRemove [] 2]) [] [] [(2, 37, 1); (1, 1, 1)] xt xk_in _ (Permutation_refl _) eq_refl (Permutation_refl _) eq_refl (Forall_nil _) (Forall_nil _)).
  change (csize xp xk) with (csize xp 7). change (cpages xp xk) with (cpages xp 7).
  assert (Es : csize xp 7 = 112) by (vm_compute; reflexivity). assert (Ep : cpages xp 7 = 1) by (vm_compute; reflexivity). rewrite Es, Ep.
  refine (k_remove_short xc 112 1 (view xh4 xk) 2 [] xf5 _ ltac:(lia) _); [vm_compute; reflexivity|].
  change (1 * page_size xc / 112) with 73. apply pick3. vm_compute. split; reflexivity.
Qed.
Lemma xh6_step : hstep xp xh5 xh6.
Proof.
  assert (Es : csize xp xk = 112) by (vm_compute; reflexivity). assert (Ep : cpages xp xk = 1) by (vm_compute; reflexivity).
  pose proof (S_class xp xh5 xk (Ev [] [] [(1, xspan (xX * 256))] []) (MkSys xf6 [1] [] [PPublish [] xobjs 1]) [] [(1, 1, 1)] [(2, 37, 1)] xt xk_in) as S.
  rewrite Es, Ep in S. apply S; clear S.
  - refine (k_span xc 112 1 (view xh5 xk) [] 2 [] [] 1 (xspan (xX * 256)) xobjs (snd (fst xbuilt)) (snd xbuilt) _ eq_refl _); [vm_compute; reflexivity|].
    change (1 * page_size xc / 112) with 73. unfold xobjs. destruct xbuilt as ((l, m), s) eqn:E. exact E.
  - constructor.
  - reflexivity.
  - apply perm_swap.
  - reflexivity.
  - constructor; [split; reflexivity|constructor].
  - constructor; [reflexivity|constructor].
Qed.
Lemma xh7_step : hstep xp xh6 xh7.
Proof.
  assert (Es : csize xp xk = 112) by (vm_compute; reflexivity). assert (Ep : cpages xp xk = 1) by (vm_compute; reflexivity).
  pose proof (S_class xp xh6 xk (Ev xobjs [] [] []) (MkSys xf7 [1] xobjs []) xobjs [] [(2, 37, 1)] xt xk_in) as S.
  rewrite Es, Ep in S. apply S; clear S.
  - assert (El : xobjs = [xX * 256 * 8192; xX * 256 * 8192 + 112]) by exact xobjs_eq.
    assert (Hn : 1 < 1 * page_size xc / 112) by (vm_compute; reflexivity).
    pose proof (k_publish xc 112 1 (view xh6 xk) [] xobjs 1 [] [] Hn eq_refl) as K. change (1 * page_size xc / 112) with 73 in K. cbn [app] in K.
    replace (Z.of_nat (length xobjs)) with 2 in K by (rewrite El; reflexivity).
    replace (xobjs ++ y_held (view xh6 xk)) with xobjs in K by (change (y_held (view xh6 xk)) with (@nil Z); rewrite app_nil_r; reflexivity). exact K.
  - reflexivity.
  - reflexivity.
  - reflexivity.
  - reflexivity.
  - constructor.
  - constructor.
Qed.

(** Two objects of 100 bytes and 300000 bytes are allocated; the program writes to the pages; the first object is freed. *)
Definition xpol : policy := malloc_policy xc 0.
Lemma xpol_ok : policy_ok xc xpol.
Proof. apply malloc_policy_ok; [exists 1, 1; split; [lia|auto]|cbn; lia]. Qed.
Definition xa1 : Z := xX * 256 * 8192.
Definition xa2 : Z := xX * 256 * 8192 + 112.
Definition xa3 : Z := (xX * 256 + 1) * 8192.
Definition xo1 : alloc := Alloc xa1 100 (align xpol) xk 0 0.
Definition xo2 : alloc := Alloc xa2 100 (align xpol) xk 0 0.
Definition xo3 : alloc := Alloc xa3 300000 (align xpol) 0 2 xt.
Definition xh8 : heap := set_objs xh7 (upd (h_hands xh7) xk [xa2]) [xo1] [(2, 37, 1)] [].
Definition xh9 : heap := set_objs xh8 (upd (h_hands xh8) xk []) [xo2; xo1] [(2, 37, 1)] [].
Definition xh10 : heap := set_objs xh9 (h_hands xh9) [xo3; xo2; xo1] [] [].
Definition xh11 : heap := set_env xh10 (upd (g_mem xh10) (xa3 + 299999) 8) (g_span xh10) (g_nidx xh10).
Definition xh12 : heap := set_objs xh11 (upd (h_hands xh11) xk [xa1]) [xo3; xo2] [] [].

Lemma xh12_reach : hreach xp xh12.
Proof.
  assert (R0 : hreach xp xh0).
  { apply hr_init; [|exact xs0_reach|reflexivity]. intros k. constructor; [|constructor]. split; [reflexivity|]. exists 4, 8. split; [lia|reflexivity]. }
  pose proof (hr_step _ _ _ (hr_step _ _ _ (hr_step _ _ _ (hr_step _ _ _ (hr_step _ _ _ (hr_step _ _ _ (hr_step _ _ _ R0 xh1_step) xh2_step) xh3_step) xh4_step) xh5_step) xh6_step) xh7_step) as R7.
  assert (R8 : hreach xp xh8).
  { apply (hr_step _ _ _ R7). apply (S_malloc xp xh7 xpol 100 xk [] xa1 [xa2] xpol_ok); [lia|vm_compute; reflexivity|].
    cbn [xh7 set_class h_hands]. rewrite upd_same. exact xobjs_eq. }
  assert (R9 : hreach xp xh9).
  { apply (hr_step _ _ _ R8). apply (S_malloc xp xh8 xpol 100 xk [] xa2 [] xpol_ok); [lia|vm_compute; reflexivity|reflexivity]. }
  assert (R10 : hreach xp xh10).
  { apply (hr_step _ _ _ R9). refine (S_malloc_pages xp xh9 xpol 300000 [] 2 37 [] xt xpol_ok _ _ _ _ _); [lia|vm_compute; discriminate|left; reflexivity|reflexivity|vm_compute; reflexivity]. }
  assert (R11 : hreach xp xh11).
  { apply (hr_step _ _ _ R10). apply (S_write xp xh10 xo3); [left; reflexivity|]. vm_compute. split; [discriminate|reflexivity]. }
  apply (hr_step _ _ _ R11). apply (S_free xp xh11 [xo3; xo2] xo1 [] xk eq_refl); [vm_compute; reflexivity|discriminate].
Qed.

(** The theorems' hypotheses hold, and this is what they are about: two live objects, one byte written by the program, and the
    freed object in a thread's hands. *)
Example heap_history : hpar_ok xp /\ hreach xp xh12 /\
  map (fun a => (a_ptr a, a_req a, usable xp xh12 a)) (h_live xh12) = [((xX * 256 + 1) * 8192, 300000, 37 * 8192); (xX * 256 * 8192 + 112, 100, 112)] /\
  h_hands xh12 xk = [xX * 256 * 8192] /\ g_mem xh12 (xa3 + 299999) = 8 /\ get_memory_tag xa3 = tag_normal_p0 /\
  (exists h', hstep xp xh12 h' /\ h_live h' = [xo2] /\ h_ret h' = [2]).
Proof.
  split; [exact xp_ok|]. split; [exact xh12_reach|]. split; [vm_compute; reflexivity|]. split; [reflexivity|]. split; [vm_compute; reflexivity|]. split; [vm_compute; reflexivity|].
  destruct (free_finds_owner xp xh12 [] xo3 [xo2] xp_ok xh12_reach eq_refl) as (_ & h' & S & A & _ & B). exists h'. split; [exact S|]. split; [exact A|]. apply B. reflexivity.
Qed.
Example heap_objects_disjoint : ForallOrdPairs disj [((xX * 256 + 1) * 8192, 37 * 8192); (xX * 256 * 8192 + 112, 112)].
Proof. pose proof (live_objects_disjoint xp xh12 xp_ok xh12_reach) as H. vm_compute in H. vm_compute. exact H. Qed.
