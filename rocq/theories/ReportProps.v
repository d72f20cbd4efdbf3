(** C65: what is reported of a memory error is what happened, and signals still reach the program. *)
From Verif Require Import Base Bitmap BitmapProofs Guarded GuardedProps Report.

(** ** The state a crash handler reads *)

Lemma copy_frames_outside l : forall a i j, j < i -> copy_frames a i l j = a j.
Proof.
  induction l as [|x l IH]; intros a i j L; cbn; [reflexivity|].
  rewrite IH by lia. apply upd_other. lia.
Qed.
Lemma copy_frames_read l : forall a i, map (copy_frames a i l) (zseq i (length l)) = l.
Proof.
  induction l as [|x l IH]; intros a i; cbn [copy_frames length zseq map]; [reflexivity|].
  f_equal; [|apply IH]. rewrite copy_frames_outside by lia. apply upd_same.
Qed.

(** Storing a stack and reading it gives its innermost 64 frames. *)
Lemma store_read a s : read_stack (fst (store_stack a s)) (snd (store_stack a s)) = option_map (firstn 64) s.
Proof.
  destruct s as [s|]; [|reflexivity]. cbn [store_stack fst snd read_stack option_map]. f_equal.
  change max_stack_depth with 64%nat.
  assert (L : length (firstn (Nat.min 64 (length s)) s) = Nat.min 64 (length s)).
  { rewrite firstn_length. apply Nat.min_l. apply Nat.le_min_r. }
  rewrite <- L at 2. rewrite copy_frames_read.
  destruct (Nat.min_spec 64 (length s)) as [(H & ->)|(H & ->)]; [reflexivity|].
  rewrite !firstn_all2; [reflexivity|lia|lia].
Qed.

(** After any reports, the last one is read back as it was made. *)
Definition reads_back (w : gwp) (c : rcall) : Prop :=
  match c with
  | CMismatch ptr pmin pmax mn mx a d =>
    w_type w = TMismatchedDelete /\ w_ptr w = ptr /\
    w_provided_min w = pmin /\ w_provided_max w = pmax /\ w_min w = mn /\ w_max w = mx /\
    allocation_stack w = option_map (firstn 64) a /\ deallocation_stack w = option_map (firstn 64) d
  | CDoubleFree ptr d => w_type w = TDoubleFree /\ w_ptr w = ptr /\ deallocation_stack w = Some (firstn 64 d)
  | CInvalidFree ptr d => w_type w = TInvalidFree /\ w_ptr w = ptr /\ deallocation_stack w = Some (firstn 64 d)
  | CInvalidFreeAlign ptr actual expected a d =>
    w_type w = TInvalidFree /\ w_ptr w = ptr /\ w_actual w = actual /\ w_expected w = expected /\
    allocation_stack w = option_map (firstn 64) a /\ deallocation_stack w = Some (firstn 64 d)
  | CMismatchedFree ptr at_ dt a d =>
    w_type w = TMismatchedFree /\ w_ptr w = ptr /\ w_alloc_type w = Some at_ /\ w_dealloc_type w = Some dt /\
    allocation_stack w = Some (firstn 64 a) /\ deallocation_stack w = Some (firstn 64 d)
  end.
(** What a report does not know: no allocation stack, no alignments. *)
Definition says_unknown (w : gwp) (c : rcall) : Prop :=
  match c with
  | CDoubleFree _ _ => allocation_stack w = None
  | CInvalidFree _ _ => allocation_stack w = None /\ w_actual w = None /\ w_expected w = None
  | _ => True
  end.

Theorem report_read_back cs c : reads_back (record (fold_left record cs gwp0) c) c.
Proof.
  set (w := fold_left record cs gwp0).
  destruct c as [ptr pmin pmax mn mx a d|ptr d|ptr d|ptr x y a d|ptr x y a d]; cbn [reads_back record].
  - pose proof (store_read (w_astack w) a) as A. pose proof (store_read (w_dstack w) d) as D.
    destruct (store_stack (w_astack w) a) as [sa da]. destruct (store_stack (w_dstack w) d) as [sd dd].
    unfold allocation_stack, deallocation_stack. cbn in *. repeat split; assumption.
  - pose proof (store_read (w_dstack w) (Some d)) as D.
    destruct (store_stack (w_dstack w) (Some d)) as [sd dd].
    unfold allocation_stack, deallocation_stack. cbn in *. repeat split; assumption.
  - pose proof (store_read (w_dstack w) (Some d)) as D.
    destruct (store_stack (w_dstack w) (Some d)) as [sd dd].
    unfold allocation_stack, deallocation_stack. cbn in *. repeat split; assumption.
  - pose proof (store_read (w_astack w) a) as A. pose proof (store_read (w_dstack w) (Some d)) as D.
    destruct (store_stack (w_astack w) a) as [sa da]. destruct (store_stack (w_dstack w) (Some d)) as [sd dd].
    unfold allocation_stack, deallocation_stack. cbn in *. repeat split; assumption.
  - pose proof (store_read (w_astack w) (Some a)) as A. pose proof (store_read (w_dstack w) (Some d)) as D.
    destruct (store_stack (w_astack w) (Some a)) as [sa da]. destruct (store_stack (w_dstack w) (Some d)) as [sd dd].
    unfold allocation_stack, deallocation_stack. cbn in *. repeat split; assumption.
Qed.
Print Assumptions report_read_back.

(** The first report of a process says that it does not know what it was not given. *)
Theorem report_first_unknown c : says_unknown (record gwp0 c) c.
Proof. destruct c; cbn; try exact I; repeat split. Qed.
Print Assumptions report_first_unknown.

(** A later one does not: the allocation stack and the alignments of an earlier report stay. *)
Theorem report_stale_refuted : ~ (forall cs c, says_unknown (record (fold_left record cs gwp0) c) c).
Proof.
  intros H. specialize (H [CMismatchedFree 4096 0 1 [10; 11] [12]] (CDoubleFree 8192 [20])). cbn in H. discriminate.
Qed.
Print Assumptions report_stale_refuted.

(** ** The alignment that is reported *)

Lemma low_bits_divide k ptr : 0 <= k -> (forall i, 0 <= i < k -> Z.testbit ptr i = false) -> (2 ^ k | ptr).
Proof.
  intros Hk H. apply Z.mod_divide; [pose proof (Z.pow_pos_nonneg 2 k); lia|].
  apply Z.bits_inj'. intros i Hi. rewrite Z.bits_0.
  destruct (Z_lt_dec i k).
  - rewrite Z.mod_pow2_bits_low by lia. apply H. lia.
  - apply Z.mod_pow2_bits_high. lia.
Qed.
Lemma divide_low_bits k ptr i : (2 ^ k | ptr) -> 0 <= i < k -> Z.testbit ptr i = false.
Proof. intros (q & ->) Hi. rewrite Z.mul_pow2_bits by lia. apply Z.testbit_neg_r. lia. Qed.

(** Of an address that 2^32 does not divide: the largest power of two that divides it. *)
Theorem report_alignment ptr : 0 < ptr < 2 ^ 64 -> ~ (2 ^ 32 | ptr) ->
  exists k, 0 <= k < 32 /\ pointer_alignment ptr = Some (2 ^ k) /\ (2 ^ k | ptr) /\ ~ (2 ^ (k + 1) | ptr).
Proof.
  intros Hp Nd. destruct (countr_zero_spec ptr) as (R & B & Z0); [lia|lia|].
  assert (D : (2 ^ countr_zero ptr | ptr)) by (apply low_bits_divide; [lia|exact Z0]).
  assert (L : countr_zero ptr < 32).
  { destruct (Z_lt_dec (countr_zero ptr) 32); [assumption|]. exfalso. apply Nd.
    apply Z.divide_trans with (2 ^ countr_zero ptr); [|exact D].
    exists (2 ^ (countr_zero ptr - 32)). rewrite <- Z.pow_add_r by lia. f_equal. lia. }
  exists (countr_zero ptr). split; [lia|]. unfold pointer_alignment.
  destruct (Z.ltb_spec (countr_zero ptr) 32); [|lia].
  rewrite Z.shiftl_1_l. split; [reflexivity|]. split; [exact D|].
  intros D1. rewrite (divide_low_bits _ _ (countr_zero ptr) D1) in B; [discriminate|lia].
Qed.
Print Assumptions report_alignment.

(** Of an address that 2^32 divides the code computes nothing (a shift by 32 or more). *)
Theorem report_alignment_undefined_refuted ptr : 0 < ptr < 2 ^ 64 -> (2 ^ 32 | ptr) -> pointer_alignment ptr = None.
Proof.
  intros Hp D. destruct (countr_zero_spec ptr) as (R & B & Z0); [lia|lia|].
  unfold pointer_alignment. destruct (Z.ltb_spec (countr_zero ptr) 32); [|reflexivity].
  rewrite (divide_low_bits _ _ (countr_zero ptr) D) in B; [discriminate|lia].
Qed.
Print Assumptions report_alignment_undefined_refuted.

(** A pointer that is not aligned as was expected is reported with a smaller alignment, that it has. *)
Theorem report_misaligned_free j ptr a d : 0 <= j <= 32 -> 0 < ptr < 2 ^ 64 -> ~ (2 ^ j | ptr) ->
  exists actual, corrupted_free (2 ^ j) ptr a d = Some (CInvalidFreeAlign ptr (Some actual) (Some (2 ^ j)) a d) /\
    0 < actual < 2 ^ j /\ (actual | ptr) /\ ~ (2 * actual | ptr).
Proof.
  intros Hj Hp Nd. destruct (report_alignment ptr Hp) as (k & Hk & E & D & N).
  { intros D. apply Nd. apply Z.divide_trans with (2 ^ 32); [|exact D].
    exists (2 ^ (32 - j)). rewrite <- Z.pow_add_r by lia. f_equal. lia. }
  exists (2 ^ k). unfold corrupted_free. rewrite E. cbn [obind]. split; [reflexivity|].
  assert (L : k < j).
  { destruct (Z_lt_dec k j); [assumption|]. exfalso. apply Nd. apply Z.divide_trans with (2 ^ k); [|exact D].
    exists (2 ^ (k - j)). rewrite <- Z.pow_add_r by lia. f_equal. lia. }
  split.
  - pose proof (Z.pow_pos_nonneg 2 k). pose proof (Z.pow_lt_mono_r 2 k j). lia.
  - split; [exact D|]. rewrite <- Z.pow_succ_r by lia. exact N.
Qed.
Print Assumptions report_misaligned_free.

(** In a guarded slot an object may end at the end of its page.  A free of the start of the page is then
    reported as misaligned, though the address has more alignment than was expected; and where 2^32 divides that address,
    the report itself is undefined. *)
Theorem report_guarded_alignment_refuted :
  ~ (forall cf left al ptr a d actual expected,
       guarded_corrupted_free cf left al ptr a d = Some (CInvalidFreeAlign ptr (Some actual) (Some expected) (Some a) d) ->
       actual < expected) /\
  ~ (forall cf left al ptr a d, 0 < ptr < 2 ^ 64 -> guarded_corrupted_free cf left al ptr a d <> None).
Proof.
  split; intros H.
  - specialize (H (mkGcfg 8192 4 3 81920) false 64 106496 [1] [2] 8192 64 eq_refl). lia.
  - apply (H (mkGcfg 8192 4 3 (2 ^ 32 - 8192)) false 64 (2 ^ 32) [1] [2]); [lia|reflexivity].
Qed.
Print Assumptions report_guarded_alignment_refuted.

(** ** The sizes reported of a wrong sized delete *)

(** The program gave [size]; what it may give is from the size it asked for to the size it was told it has. *)
Theorem report_mismatched_sizes ptr size requested allocated a d cs :
  match allocated with Some n => requested <= n | None => True end ->
  let w := record (fold_left record cs gwp0) (mismatched_delete ptr size requested allocated a d) in
  w_provided_min w = size /\ w_provided_max w = size /\ w_min w = requested /\
  w_max w = match allocated with Some n => n | None => requested end /\
  w_min w <= w_max w /\
  w_ptr w = ptr /\ allocation_stack w = Some (firstn 64 a) /\ deallocation_stack w = Some (firstn 64 d).
Proof.
  intros L w. pose proof (report_read_back cs (mismatched_delete ptr size requested allocated a d)) as R.
  fold w in R. unfold mismatched_delete in R. cbn [reads_back option_map] in R.
  destruct R as (_ & R1 & R2 & R3 & R4 & R5 & R6 & R7).
  split; [exact R2|]. split; [exact R3|]. split; [exact R4|]. rewrite R4.
  assert (E : w_max w = match allocated with Some n => n | None => requested end).
  { rewrite R5. destruct allocated as [n|]; [|reflexivity]. destruct (Z.eqb_spec n requested); cbn; lia. }
  split; [exact E|]. rewrite E. split; [destruct allocated; lia|]. split; [exact R1|]. split; assumption.
Qed.
Print Assumptions report_mismatched_sizes.

(** ** What is reported of a fault *)

(** Bit 1 of a page fault's error code tells a write (Intel SDM vol. 3, 4.7). *)
Definition by_access (code : Z) (if_read if_write : etype) : etype := if Z.testbit code 1 then if_write else if_read.

Lemma write_flag_bit code : write_flag (Some code) = if Z.testbit code 1 then WWrite else WRead.
Proof.
  unfold write_flag. change (Z.shiftl 1 1) with (2 ^ 1).
  destruct (Z.testbit code 1) eqn:B.
  - destruct (Z.eqb_spec (Z.land code (2 ^ 1)) 0) as [E|]; [|reflexivity]. exfalso.
    assert (T : Z.testbit (Z.land code (2 ^ 1)) 1 = true) by (rewrite Z.land_spec, B; reflexivity).
    rewrite E, Z.bits_0 in T. discriminate.
  - replace (Z.land code (2 ^ 1)) with 0; [reflexivity|]. symmetry. apply Z.bits_inj'. intros i Hi.
    rewrite Z.land_spec, Z.bits_0, Z.pow2_bits_eqb by lia.
    destruct (Z.eqb_spec 1 i) as [<-|]; [rewrite B; reflexivity|apply andb_false_r].
Qed.

(** In every state of every history: an access before or behind an object in use is reported as such, read or
    write, with the offset from the object and its size; none inside it is; an access to an object that was freed, as
    use after free. *)
Theorem fault_report cf st h addr code : gcfg_ok cf -> greach cf st h -> gc_base cf <= addr < gc_end cf ->
  (forall o, In o (h_live h) -> nearest_slot cf addr = o_slot o ->
     segv_handler cf (gs_ga st) sigsegv addr (Some code) =
       if addr <? o_ptr o then Some (by_access code BufferUnderflowRead BufferUnderflowWrite, addr - o_ptr o, o_size o)
       else if o_ptr o + o_size o <=? addr
       then Some (by_access code BufferOverflowRead BufferOverflowWrite, addr - o_ptr o, o_size o)
       else None) /\
  (forall ptr s, In ptr (h_returned h) -> in_page cf s ptr -> nearest_slot cf addr = s ->
     ~ In s (map act_slot (gs_pool st)) -> ~ In s (map o_slot (h_live h)) ->
     exists offset size, segv_handler cf (gs_ga st) sigsegv addr (Some code) =
       Some (by_access code UseAfterFreeRead UseAfterFreeWrite, offset, size)).
Proof.
  intros OK R IN. destruct (guarded_report cf st h addr OK R) as (G1 & G2 & _).
  assert (B : negb ((gc_base cf <=? addr) && (addr <? gc_end cf)) = false).
  { destruct (Z.leb_spec (gc_base cf) addr); [|lia]. destruct (Z.ltb_spec addr (gc_end cf)); [reflexivity|lia]. }
  split.
  - intros o Ho N. destruct (G1 o Ho N) as (O & E).
    unfold segv_handler. rewrite B, E, O, write_flag_bit. cbn [negb Z.eqb sigsegv]. unfold by_access.
    change (11 =? 11) with true. cbn [negb].
    destruct (addr <? o_ptr o); [|destruct (o_ptr o + o_size o <=? addr)]; try reflexivity;
      destruct (Z.testbit code 1); reflexivity.
  - intros ptr s Hp P N A L. pose proof (G2 ptr s Hp P N A L) as E.
    unfold segv_handler. rewrite B, E, write_flag_bit. change (sigsegv =? sigsegv) with true. cbn [negb].
    destruct (offset_and_size cf (gs_ga st) addr) as [offset size]. exists offset, size.
    unfold by_access. destruct (Z.testbit code 1); reflexivity.
Qed.
Print Assumptions fault_report.

(** No other signal and no address outside the pool is reported as an error of a guarded object. *)
Theorem fault_report_only cf g signo addr ctx :
  signo <> sigsegv \/ ~ (gc_base cf <= addr < gc_end cf) -> segv_handler cf g signo addr ctx = None.
Proof.
  intros H. unfold segv_handler. destruct (Z.eqb_spec signo sigsegv); cbn [negb]; [|reflexivity].
  destruct (Z.leb_spec (gc_base cf) addr); [|reflexivity].
  destruct (Z.ltb_spec addr (gc_end cf)); [|reflexivity]. exfalso. destruct H; lia.
Qed.
Print Assumptions fault_report_only.

(** ** Signals still reach the program *)

(** The program does not install the allocator's handler itself. *)
Definition programs (o : sigop) : Prop := match o with OSigaction _ a => is_ours a = false | OActivate => True end.
Definition is_sigaction (o : sigop) : bool := match o with OSigaction _ _ => true | OActivate => false end.

Definition sig_inv (s t : sigs) : Prop :=
  s_done t = false /\ (forall n, is_ours (s_disp t n) = false) /\
  (forall n, s_disp s n = s_disp t n \/
     (s_done s = true /\ (n = sigsegv \/ n = sigtrap) /\ s_disp s n = mk_sigact true ours /\
      s_disp t n = if n =? sigsegv then s_old_segv s else s_old_trap s)).

Lemma sig_inv_step s t o : sig_inv s t -> programs o ->
  sig_inv (sig_step s o) (if is_sigaction o then sig_step t o else t).
Proof.
  intros (I1 & I2 & I3) P. destruct o as [|n a]; cbn [is_sigaction sig_step].
  - unfold activate. destruct (s_done s) eqn:D; [split; [exact I1|split; [exact I2|rewrite D; exact I3]]|].
    split; [exact I1|]. split; [exact I2|]. cbn [s_disp s_done s_old_segv s_old_trap]. intros n.
    destruct (Z.eq_dec n sigtrap) as [->|Nt].
    { right. split; [reflexivity|]. split; [right; reflexivity|]. rewrite upd_same. split; [reflexivity|].
      change (sigtrap =? sigsegv) with false. cbv iota. rewrite upd_other by (unfold sigtrap, sigsegv; lia).
      destruct (I3 sigtrap) as [E|(X & _)]; [symmetry; exact E|discriminate]. }
    rewrite upd_other by congruence.
    destruct (Z.eq_dec n sigsegv) as [->|Ns].
    { right. split; [reflexivity|]. split; [left; reflexivity|]. rewrite upd_same. split; [reflexivity|].
      rewrite Z.eqb_refl. destruct (I3 sigsegv) as [E|(X & _)]; [symmetry; exact E|discriminate]. }
    rewrite upd_other by congruence. left.
    destruct (I3 n) as [E|(X & _)]; [exact E|discriminate].
  - cbn [programs] in P. split; [exact I1|]. unfold set_action. cbn [s_disp s_done s_old_segv s_old_trap]. split; intros m.
    + destruct (Z.eq_dec m n) as [->|N]; [rewrite upd_same; exact P|rewrite upd_other by congruence; apply I2].
    + destruct (Z.eq_dec m n) as [->|N]; [left; rewrite !upd_same; reflexivity|].
      rewrite !upd_other by congruence. apply I3.
Qed.

Lemma sig_inv_run ops : forall s t, sig_inv s t -> Forall programs ops ->
  sig_inv (fold_left sig_step ops s) (fold_left sig_step (filter is_sigaction ops) t).
Proof.
  induction ops as [|o ops IH]; intros s t I F; [exact I|].
  pose proof (sig_inv_step s t o I (Forall_inv F)) as I'. pose proof (Forall_inv_tail F) as F'.
  cbn [fold_left filter]. destruct (is_sigaction o); cbn [fold_left]; apply IH; assumption.
Qed.

Lemma sig_inv0 : sig_inv sigs0 sigs0.
Proof. split; [reflexivity|]. split; [reflexivity|]. intros n. left. reflexivity. Qed.

(** However often guarded sampling is activated, before, between and after the program's calls of sigaction:
    a signal that is sent is seen by the program exactly as if it were never activated.  In particular the handler never
    forwards to itself.  A signal a faulting instruction raises is as well, unless the program ignores it. *)
Theorem signals_forwarded ops forced signo fault ctx : Forall programs ops ->
  let with_ := fold_left sig_step ops sigs0 in
  let without := fold_left sig_step (filter is_sigaction ops) sigs0 in
  forced = false \/ s_disp without signo <> mk_sigact false 1 ->
  deliver with_ forced signo fault ctx = deliver without forced signo fault ctx.
Proof.
  intros F with_ without NI. destruct (sig_inv_run ops _ _ sig_inv0 F) as (_ & I2 & I3).
  fold with_ without in I2, I3. unfold deliver. rewrite (I2 signo).
  destruct (I3 signo) as [E|(D & S & O & E)].
  - rewrite E, (I2 signo). reflexivity.
  - rewrite O. change (is_ours (mk_sigact true ours)) with true. cbv iota.
    unfold forward_signal. rewrite <- E. unfold deliver_to. pose proof (I2 signo) as NO.
    destruct (s_disp without signo) as [si f]. cbn [sa_siginfo sa_handler] in *.
    destruct si; [reflexivity|]. destruct (Z.eqb_spec f 0) as [->|N0].
    + cbn [run_actions]. rewrite upd_same. reflexivity.
    + destruct (Z.eqb_spec f 1) as [->|N1]; [|reflexivity].
      destruct NI as [->|NI]; [reflexivity|]. exfalso. apply NI. reflexivity.
Qed.
Print Assumptions signals_forwarded.

(** A program that ignores SIGSEGV is killed by the kernel when it faults; with guarded sampling the
    handler returns and the instruction faults again, for ever. *)
Theorem signals_forwarded_ignored_refuted :
  ~ (forall ops forced signo fault ctx, Forall programs ops ->
     deliver (fold_left sig_step ops sigs0) forced signo fault ctx =
     deliver (fold_left sig_step (filter is_sigaction ops) sigs0) forced signo fault ctx).
Proof.
  intros H. specialize (H [OSigaction 11 (mk_sigact false 1); OActivate] true 11 0 None).
  assert (F : Forall programs [OSigaction 11 (mk_sigact false 1); OActivate]) by (repeat constructor).
  specialize (H F). vm_compute in H. discriminate.
Qed.
Print Assumptions signals_forwarded_ignored_refuted.

(** ** Concrete cases *)

(** A stack of 70 frames is cut to 64; an earlier longer one leaves nothing behind. *)
Example report_example :
  let long := zseq 1 70 in
  let w := record (record gwp0 (CMismatchedFree 4096 0 1 long long)) (CMismatch 8192 32 32 24 32 (Some [5; 6]) None) in
  allocation_stack (record gwp0 (CMismatchedFree 4096 0 1 long long)) = Some (zseq 1 64) /\
  allocation_stack w = Some [5; 6] /\ deallocation_stack w = None /\ w_type w = TMismatchedDelete.
Proof. vm_compute. repeat split. Qed.
Example report_alignment_example : pointer_alignment 1048592 = Some 16 /\ pointer_alignment 4097 = Some 1.
Proof. vm_compute. split; reflexivity. Qed.

(** The object of 20 bytes of [guarded_example], in use in slot 2: a write 5 bytes behind the end of its page, a read 4 before it. *)
Example fault_report_example :
  segv_handler ex_cf ex_g9 sigsegv (page ex_cf 2 + 8192 + 5) (Some 7) = Some (BufferOverflowWrite, 37, 20) /\
  segv_handler ex_cf ex_g9 sigsegv (page ex_cf 2 - 4) (Some 5) = Some (BufferUnderflowRead, 32 - 8192 - 4, 20) /\
  segv_handler ex_cf ex_g6 sigsegv (page ex_cf 1 + 5) (Some 6) = Some (UseAfterFreeWrite, 5, 100).
Proof. vm_compute. repeat split. Qed.

(** A handler from before activation, and one from after it, each get the signals. *)
Example signals_example :
  let s := fold_left sig_step [OSigaction 11 (mk_sigact true 900); OActivate; OSigaction 5 (mk_sigact false 901); OActivate] sigs0 in
  is_ours (s_disp s 11) = true /\
  deliver s true 11 4096 (Some 6) = [SeenInfo 900 11 4096 (Some 6)] /\ deliver s false 5 0 None = [SeenCall 901 5].
Proof. vm_compute. repeat split. Qed.
