(** Model of the reports of memory errors: tcmalloc/internal/gwp_asan_state.h,
    tcmalloc/error_reporting.cc and tcmalloc/segv_handler.cc (for x86).  The text that is logged is not modelled,
    nor that the program ends after a report of error_reporting.cc. *)
From Verif Require Import Base Bitmap Guarded.

(** internal/logging.h:55 kMaxStackDepth. *)
Definition max_stack_depth : nat := 64.

(** internal/gwp_asan_state.h:37-43 Type. *)
Inductive rtype := TNone | TMismatchedDelete | TDoubleFree | TInvalidFree | TMismatchedFree.

(** internal/gwp_asan_state.h:239-251: the fields. *)
Record gwp := mk_gwp {
  w_type : rtype; w_ptr : Z;
  w_provided_min : Z; w_provided_max : Z; w_min : Z; w_max : Z;
  w_actual : option Z; w_expected : option Z;
  w_alloc_type : option Z; w_dealloc_type : option Z;
  w_astack : Z -> Z; w_adepth : option nat; w_dstack : Z -> Z; w_ddepth : option nat }.
Definition gwp0 : gwp := mk_gwp TNone 0 0 0 0 0 None None None None (fun _ => 0) None (fun _ => 0) None.

(** memcpy of the first frames, internal/gwp_asan_state.h:121-124 and the like. *)
Fixpoint copy_frames (a : Z -> Z) (i : Z) (l : list Z) : Z -> Z :=
  match l with [] => a | x :: l => copy_frames (upd a i x) (i + 1) l end.
Definition store_stack (a : Z -> Z) (s : option (list Z)) : (Z -> Z) * option nat :=
  match s with
  | Some s => let depth := Nat.min max_stack_depth (length s) in (copy_frames a 0 (firstn depth s), Some depth)
  | None => (a, None)
  end.

(** The calls of the Record functions. *)
Inductive rcall :=
| CMismatch (ptr pmin pmax mn mx : Z) (astack dstack : option (list Z))
| CDoubleFree (ptr : Z) (dstack : list Z)
| CInvalidFree (ptr : Z) (dstack : list Z)
| CInvalidFreeAlign (ptr : Z) (actual expected : option Z) (astack : option (list Z)) (dstack : list Z)
| CMismatchedFree (ptr alloc_type dealloc_type : Z) (astack dstack : list Z).

(** internal/gwp_asan_state.h:106-138 RecordMismatch, :140-150 RecordDoubleFree, :152-162 and :164-213
    RecordInvalidFree (the two with alignments differ in types only), :215-236 RecordMismatchedFree. *)
Definition record (w : gwp) (c : rcall) : gwp :=
  match c with
  | CMismatch ptr pmin pmax mn mx a d =>
    let (astack, adepth) := store_stack (w_astack w) a in
    let (dstack, ddepth) := store_stack (w_dstack w) d in
    mk_gwp TMismatchedDelete ptr pmin pmax mn mx (w_actual w) (w_expected w) (w_alloc_type w) (w_dealloc_type w) astack adepth dstack ddepth
  | CDoubleFree ptr d =>
    let (dstack, ddepth) := store_stack (w_dstack w) (Some d) in
    mk_gwp TDoubleFree ptr (w_provided_min w) (w_provided_max w) (w_min w) (w_max w) (w_actual w) (w_expected w) (w_alloc_type w) (w_dealloc_type w)
      (w_astack w) (w_adepth w) dstack ddepth
  | CInvalidFree ptr d =>
    let (dstack, ddepth) := store_stack (w_dstack w) (Some d) in
    mk_gwp TInvalidFree ptr (w_provided_min w) (w_provided_max w) (w_min w) (w_max w) (w_actual w) (w_expected w) (w_alloc_type w) (w_dealloc_type w)
      (w_astack w) (w_adepth w) dstack ddepth
  | CInvalidFreeAlign ptr actual expected a d =>
    let (astack, adepth) := store_stack (w_astack w) a in
    let (dstack, ddepth) := store_stack (w_dstack w) (Some d) in
    mk_gwp TInvalidFree ptr (w_provided_min w) (w_provided_max w) (w_min w) (w_max w) actual expected (w_alloc_type w) (w_dealloc_type w) astack adepth dstack ddepth
  | CMismatchedFree ptr at_ dt a d =>
    let (astack, adepth) := store_stack (w_astack w) (Some a) in
    let (dstack, ddepth) := store_stack (w_dstack w) (Some d) in
    mk_gwp TMismatchedFree ptr (w_provided_min w) (w_provided_max w) (w_min w) (w_max w) (w_actual w) (w_expected w) (Some at_) (Some dt) astack adepth dstack ddepth
  end.

(** internal/gwp_asan_state.h:51-68 AllocationStack, DeallocationStack. *)
Definition read_stack (a : Z -> Z) (depth : option nat) : option (list Z) :=
  match depth with None => None | Some n => Some (map a (zseq 0 n)) end.
Definition allocation_stack (w : gwp) : option (list Z) := read_stack (w_astack w) (w_adepth w).
Definition deallocation_stack (w : gwp) : option (list Z) := read_stack (w_dstack w) (w_ddepth w).

(** error_reporting.cc:167-168, :186-187: 1u << countr_zero(ptr); the shift of a 32-bit one by 32 or more
    is undefined. *)
Definition pointer_alignment (ptr : Z) : option Z :=
  let k := countr_zero ptr in if k <? 32 then Some (Z.shiftl 1 k) else None.

(** error_reporting.cc:36-76 ReportMismatchedDelete of a sampled object: the sizes it records. *)
Definition mismatched_delete (ptr size requested : Z) (allocated : option Z) (astack dstack : list Z) : rcall :=
  let maximum := match allocated with
                 | Some a => if negb (a =? requested) then a else requested
                 | None => requested end in
  CMismatch ptr size size requested maximum (Some astack) (Some dstack).

(** error_reporting.cc:155-195 ReportCorruptedFree with an expected alignment. *)
Definition corrupted_free (expected ptr : Z) (astack : option (list Z)) (dstack : list Z) : option rcall :=
  let? a := pointer_alignment ptr in Some (CInvalidFreeAlign ptr (Some a) (Some expected) astack dstack).

(** guarded_page_allocator.cc:273-283: what Deallocate reports for a pointer that is not the start of the object. *)
Definition guarded_corrupted_free (cf : gcfg) (left_aligned : bool) (requested_alignment ptr : Z) (astack dstack : list Z) : option rcall :=
  corrupted_free (if left_aligned then gc_page cf else requested_alignment) ptr (Some astack) dstack.

(** ---- segv_handler.cc ---- *)
(** guarded_allocations.h:34, :36-49. *)
Inductive wflag := WUnknown | WRead | WWrite.
Inductive etype :=
| UseAfterFree | UseAfterFreeRead | UseAfterFreeWrite
| BufferUnderflow | BufferUnderflowRead | BufferUnderflowWrite
| BufferOverflow | BufferOverflowRead | BufferOverflowWrite
| DoubleFree | BufferOverflowOnDealloc | UnknownError.

(** What GetStackTraces answers (guarded_page_allocator.cc:301-312). *)
Definition base_error (e : gerror) : etype :=
  match e with
  | GUnknown => UnknownError | GDoubleFree => DoubleFree | GBufferOverflowOnDealloc => BufferOverflowOnDealloc
  | GUseAfterFree => UseAfterFree | GBufferUnderflow => BufferUnderflow | GBufferOverflow => BufferOverflow
  end.

(** segv_handler.cc:77-97 ExtractWriteFlagFromContext; the context is the page fault's error code. *)
Definition write_flag (context : option Z) : wflag :=
  match context with
  | None => WUnknown
  | Some code => if negb (Z.land code (Z.shiftl 1 1) =? 0) then WWrite else WRead
  end.

(** segv_handler.cc:99-136 RefineErrorTypeBasedOnWriteFlag. *)
Definition refine (e : etype) (w : wflag) : etype :=
  match e with
  | UseAfterFree => match w with WWrite => UseAfterFreeWrite | WRead => UseAfterFreeRead | WUnknown => e end
  | BufferUnderflow => match w with WWrite => BufferUnderflowWrite | WRead => BufferUnderflowRead | WUnknown => e end
  | BufferOverflow => match w with WWrite => BufferOverflowWrite | WRead => BufferOverflowRead | WUnknown => e end
  | _ => e
  end.

(** segv_handler.cc:146-216 SegvHandler: the error, offset and size it reports, if any. *)
Definition sigsegv : Z := 11.
Definition sigtrap : Z := 5.
Definition segv_handler (cf : gcfg) (g : ga) (signo fault : Z) (context : option Z) : option (etype * Z * Z) :=
  if negb (signo =? sigsegv) then None
  else if negb ((gc_base cf <=? fault) && (fault <? gc_end cf)) then None
  else
    match error_type cf g fault with
    | GUnknown => None
    | e => let '(offset, size) := offset_and_size cf g fault in Some (refine (base_error e) (write_flag context), offset, size)
    end.

(** The disposition a signal had before; [f] is the handler's address, 0 SIG_DFL and 1 SIG_IGN. *)
Record sigact := mk_sigact { sa_siginfo : bool; sa_handler : Z }.
Inductive sigdo :=
| DoSigaction (f signo fault : Z) (context : option Z)   (* a handler with three arguments *)
| DoHandler (f signo : Z)
| DoRestore (signo : Z) (old : sigact)                   (* sigaction(signo, &old_sa, nullptr) *)
| DoRaise (signo : Z).
(** segv_handler.cc:218-239 ForwardSignal. *)
Definition forward_signal (old_segv old_trap : sigact) (signo fault : Z) (context : option Z) : list sigdo :=
  let old := if signo =? sigsegv then old_segv else old_trap in
  if sa_siginfo old then [DoSigaction (sa_handler old) signo fault context]
  else if sa_handler old =? 0 then [DoRestore signo old; DoRaise signo]
  else if sa_handler old =? 1 then []
  else [DoHandler (sa_handler old) signo].
(** segv_handler.cc:241-244 HandleSegvAndForward. *)
Definition handle_and_forward (cf : gcfg) (g : ga) (old_segv old_trap : sigact) (signo fault : Z) (context : option Z)
  : option (etype * Z * Z) * list sigdo :=
  (segv_handler cf g signo fault context, forward_signal old_segv old_trap signo fault context).

(** ---- The signals of the process ----
    Its dispositions, and the statics of segv_handler.cc:218-219 and :247.  [ours] is the address of
    HandleSegvAndForward. *)
Definition ours : Z := 2.
Record sigs := mk_sigs { s_disp : Z -> sigact; s_done : bool; s_old_segv : sigact; s_old_trap : sigact }.
Definition sig_default : sigact := mk_sigact false 0.
Definition sigs0 : sigs := mk_sigs (fun _ => sig_default) false sig_default sig_default.
(** segv_handler.cc:246-258 MallocExtension_Internal_ActivateGuardedSampling. *)
Definition activate (s : sigs) : sigs :=
  if s_done s then s
  else
    let old_segv := s_disp s sigsegv in
    let d := upd (s_disp s) sigsegv (mk_sigact true ours) in
    let old_trap := d sigtrap in
    mk_sigs (upd d sigtrap (mk_sigact true ours)) true old_segv old_trap.
(** sigaction by the program (the kernel's). *)
Definition set_action (s : sigs) (signo : Z) (a : sigact) : sigs :=
  mk_sigs (upd (s_disp s) signo a) (s_done s) (s_old_segv s) (s_old_trap s).
Inductive sigop := OActivate | OSigaction (signo : Z) (a : sigact).
Definition sig_step (s : sigs) (o : sigop) : sigs :=
  match o with OActivate => activate s | OSigaction n a => set_action s n a end.

(** What the program sees of a signal. *)
Inductive seen := SeenInfo (f signo fault : Z) (context : option Z) | SeenCall (f signo : Z) | SeenKilled.
(** The kernel's delivery to a disposition of the program's; [forced]: the signal is raised by the
    instruction that faults, for which SIG_IGN counts as SIG_DFL. *)
Definition deliver_to (a : sigact) (forced : bool) (signo fault : Z) (context : option Z) : list seen :=
  if sa_siginfo a then [SeenInfo (sa_handler a) signo fault context]
  else if sa_handler a =? 0 then [SeenKilled]
  else if sa_handler a =? 1 then (if forced then [SeenKilled] else [])
  else [SeenCall (sa_handler a) signo].
(** Running what ForwardSignal does; what is raised is delivered, not forced, when the handler returns. *)
Fixpoint run_actions (d : Z -> sigact) (l : list sigdo) : list seen :=
  match l with
  | [] => []
  | DoSigaction f signo fault ctx :: l => SeenInfo f signo fault ctx :: run_actions d l
  | DoHandler f signo :: l => SeenCall f signo :: run_actions d l
  | DoRestore signo old :: l => run_actions (upd d signo old) l
  | DoRaise signo :: l => deliver_to (d signo) false signo 0 None ++ run_actions d l
  end.
Definition is_ours (a : sigact) : bool := sa_siginfo a && (sa_handler a =? ours).
Definition deliver (s : sigs) (forced : bool) (signo fault : Z) (context : option Z) : list seen :=
  if is_ours (s_disp s signo)
  then run_actions (s_disp s) (forward_signal (s_old_segv s) (s_old_trap s) signo fault context)
  else deliver_to (s_disp s signo) forced signo fault context.
