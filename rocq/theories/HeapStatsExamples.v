(** C46: the shipped size classes, and a concrete history. *)
From Coq Require Import Permutation.
From Verif Require HeapCaches Hpaa HpaaProofs HpaaProps HpaaExamples SysAlloc SysAllocProps HeapPages SlabRseq SlabProps Slab Filler.
From Verif Require Import Base SizeMap Tables SizeMapProofs SizeMapProofs2 SizeMapProps FrontApi FrontApiProofs Bitmap Span SpanProofs SpanProofs2 CentralFreeList CFLProps HeapClass Heap HeapProofs HeapProps HeapExamples HeapStats HeapStatsProofs HeapStatsProps.

(** With every shipped table of size classes the reported number is exact: a class with one object per span fills the span. *)
Theorem shipped_tables_no_tail : forall p, hpar_ok p -> In (p_t p) (tables (page_shift (p_c p))) -> no_tail p.
Proof.
  intros p (Hc & Hf & Hv & Hm & _) Hin k Hk H1. set (c := p_c p) in *. set (t := p_t p) in *.
  assert (HB : forallb (fun t => forallb (fun e => negb (bytes_to_length_floor c (bytes e) * page_size c / sz e =? 1) || (sz e =? bytes_to_length_floor c (bytes e) * page_size c)) t)
     (tables (page_shift c)) = true).
  { revert Hc. apply cfg_cases with (P := fun c => forallb (fun t => forallb (fun e => negb (bytes_to_length_floor c (bytes e) * page_size c / sz e =? 1) || (sz e =? bytes_to_length_floor c (bytes e) * page_size c)) t)
     (tables (page_shift c)) = true); intros a b; vm_compute; reflexivity. }
  pose proof (forallb_In _ _ HB t Hin) as Ht. cbv beta in Ht. clear HB.
  unfold classes in Hk. apply filter_In in Hk. destruct Hk as (Hk & Hu). apply zseq_In in Hk. fold c in Hk.
  destruct (cfg_ok_facts c Hc) as (_ & Hnb & Hparts & _). pose proof (num_regs c Hc) as Hn.
  set (r := k / num_base c). set (j := k mod num_base c).
  assert (Ek : k = num_base c * r + j) by (apply Z.div_mod; lia). assert (Hj : 0 <= j < num_base c) by (apply Z.mod_pos_bound; lia).
  assert (Hregs : num_classes c / num_base c = normal_parts c + if expanded c then 1 else 0) by (rewrite Hn, Z.mul_comm, Z.div_mul by lia; reflexivity).
  assert (Hr : 0 <= r < num_classes c / num_base c).
  { split; [apply Z.div_pos; lia|]. rewrite Hregs. apply Z.div_lt_upper_bound; [lia|]. rewrite <- Hn. lia. }
  unfold init, set_size_classes in Hm. rewrite Hv in Hm. cbn [negb] in Hm. destruct (num_classes c <? tlen t); [discriminate|].
  destruct (init_array _ _ _ _) as [a|]; [|discriminate]. cbn [obind] in Hm. injection Hm as Hm.
  assert (Hmk : forall g, copy_registers (num_base c) (Z.to_nat (num_classes c / num_base c - 1)) 1 (base_array t g) k = base_array t g j).
  { intros g. rewrite Ek. apply copy_registers_spec; lia. }
  assert (E1 : csize p k = base_array t sz j) by (unfold csize; rewrite <- Hm; cbn [class_to_size]; apply Hmk).
  assert (E2 : cpages p k = base_array t (fun e => bytes_to_length_floor c (bytes e)) j) by (unfold cpages; rewrite <- Hm; cbn [class_to_pages]; apply Hmk).
  unfold class_used in Hu. apply andb_true_iff in Hu. destruct Hu as (Hu & _). apply andb_true_iff in Hu. destruct Hu as (Hs & _).
  unfold pg in *. fold c in H1 |- *. rewrite E1 in Hs, H1 |- *. rewrite E2 in H1 |- *. unfold base_array in *. destruct ((1 <=? j) && (j <? tlen t)) eqn:Ej; [|discriminate].
  rewrite forallb_forall in Ht. assert (Hx : In (tnth t j) t) by (apply nth_In; unfold tlen in Ej; lia). specialize (Ht _ Hx). cbv beta in Ht.
  destruct (Z.eqb_spec (bytes_to_length_floor c (bytes (tnth t j)) * page_size c / sz (tnth t j)) 1); cbn [negb orb] in Ht; lia.
Qed.
Print Assumptions shipped_tables_no_tail.

(** ** The history of HeapExamples.v: two objects of 100 bytes and one of 300000 are live, no call is in progress. *)
Lemma xh10_reach : hreach xp xh10.
Proof.
  assert (R0 : hreach xp xh0).
  { apply hr_init; [|exact xs0_reach|reflexivity]. intros k. constructor; [|constructor]. split; [reflexivity|]. exists 4, 8. split; [lia|reflexivity]. }
  pose proof (hr_step _ _ _ (hr_step _ _ _ (hr_step _ _ _ (hr_step _ _ _ (hr_step _ _ _ (hr_step _ _ _ (hr_step _ _ _ R0 xh1_step) xh2_step) xh3_step) xh4_step) xh5_step) xh6_step) xh7_step) as R7.
  assert (R8 : hreach xp xh8).
  { apply (hr_step _ _ _ R7). apply (S_malloc xp xh7 xpol 100 xk [] xa1 [xa2] xpol_ok); [lia|vm_compute; reflexivity|].
    cbn [xh7 set_class h_hands]. rewrite upd_same. exact xobjs_eq. }
  assert (R9 : hreach xp xh9).
  { apply (hr_step _ _ _ R8). apply (S_malloc xp xh8 xpol 100 xk [] xa2 [] xpol_ok); [lia|vm_compute; reflexivity|reflexivity]. }
  apply (hr_step _ _ _ R9). refine (S_malloc_pages xp xh9 xpol 300000 [] 2 37 [] xt xpol_ok _ _ _ _ _); [lia|vm_compute; discriminate|left; reflexivity|reflexivity|vm_compute; reflexivity].
Qed.

Lemma xh10_idle : idle xp xh10.
Proof.
  constructor.
  - intros k _. destruct (Z.eq_dec k xk) as [->|Hne].
    + split; [reflexivity|]. split; [reflexivity|]. split; [reflexivity|]. constructor; [reflexivity|constructor].
    + cbn [xh10 xh9 xh8 set_objs h_hands h_cl h_slab h_tc]. rewrite !upd_other by assumption. cbn [xh7 set_class h_hands h_cl h_slab h_tc]. rewrite !upd_other by assumption.
      cbn [xh6 set_class h_hands h_cl h_slab h_tc]. rewrite !upd_other by assumption. cbn [xh5 set_class h_hands h_cl h_slab h_tc]. rewrite !upd_other by assumption.
      split; [reflexivity|]. split; [reflexivity|]. split; [reflexivity|]. constructor; [reflexivity|constructor].
  - reflexivity.
  - split; reflexivity.
  - intros t Ht. cbn in Ht. destruct Ht as [<-|[<-|[<-|[<-|[<-|[<-|[]]]]]]]; (split; [vm_compute; reflexivity|split; vm_compute; reflexivity]).
Qed.

(** The numbers: a hugepage from the system; 218 of its pages are free; 71 of the 73 objects of a page are in the central free
    list and 16 bytes are left over; in use are 112 + 112 + 37 * 8192 bytes. *)
Example stats_history :
  let s := extract xp xh10 0 0 0 0 in
  hpar_ok xp /\ hreach xp xh10 /\ idle xp xh10 /\ no_tail xp /\
  (st_system s, st_free s, st_unmapped s, st_central s) = (2097152, 218 * 8192, 0, 71 * 112 + 16) /\
  in_use_by_app s = 112 + 112 + 37 * 8192 /\ class_count xp xh10 xk = 71.
Proof.
  intros s. split; [exact xp_ok|]. split; [exact xh10_reach|]. split; [exact xh10_idle|].
  assert (Nt : no_tail xp) by (apply shipped_tables_no_tail; [exact xp_ok|cbn; tauto]). split; [exact Nt|]. split; [vm_compute; reflexivity|]. split.
  - unfold s. rewrite (in_use_exact xp xh10 0 0 0 0 xp_ok xh10_reach xh10_idle Nt). vm_compute. reflexivity.
  - vm_compute. reflexivity.
Qed.
(** Before the object's address has been returned to the program (it is in the hands of the call), it is counted as in use. *)
Example stats_in_calls : in_use_by_app (extract xp xh9 0 0 0 0) = 112 + 112 + 37 * 8192 /\ live_bytes xp xh9 = 112 + 112 /\ in_calls xp xh9 = 37 * 8192.
Proof. vm_compute. auto. Qed.
