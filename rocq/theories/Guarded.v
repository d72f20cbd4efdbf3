(** Guarded sampling: tcmalloc/guarded_page_allocator.{h,cc}.

    A pool of pages, each between two pages that are never accessible.  A sampled
    allocation gets a page of its own, placed at its end (even slots) or at its start
    (odd slots); the page becomes inaccessible again when the allocation is freed.

    Addresses and sizes are integers; nothing here comes near 2^64 (the pool is a mapping
    the system has granted), so no operation wraps, except the computation of the magic
    byte, where the wrapping is written out.

    Not modelled here: the choice whether to sample (TrySample is GuardRate.v; the filter it uses is
    StackFilter.v), stack traces and thread ids, printing, the statistics counters other
    than the number of allocated pages and its maximum. *)
From Verif Require Import Base Bitmap.

(** guarded_page_allocator.h:76 and :221. *)
Definition gpa_max_pages : Z := 512.
Definition magic_size : Z := 32.
(** common.h:213 kAlignment and __STDCPP_DEFAULT_NEW_ALIGNMENT__ (16 on the supported
    64-bit systems), whose maximum guarded_page_allocator.cc:551-554 takes. *)
Definition k_alignment : Z := 8.
Definition stdcpp_default_new_alignment : Z := 16.

(** guarded_page_allocator.cc:56-73, :386-419: what Init and MapPages leave behind.
    [gc_base] is the address MmapAligned returned, a multiple of the page size. *)
Record gcfg := mkGcfg {
  gc_page : Z;     (* page_size_ *)
  gc_total : Z;    (* total_pages_ *)
  gc_max : Z;      (* max_allocated_pages_ *)
  gc_base : Z;     (* pages_base_addr_ *)
}.

(** guarded_page_allocator.cc:467-470 GetPageAddr: addr & ~(page_size_ - 1). *)
Definition page_addr (cf : gcfg) (addr : Z) : Z := Z.ldiff addr (gc_page cf - 1).

(** guarded_page_allocator.cc:394, :415 pages_end_addr_ and :418 first_page_addr_. *)
Definition gc_end (cf : gcfg) : Z := gc_base cf + (2 * gc_total cf + 1) * gc_page cf.
Definition first_page (cf : gcfg) : Z := page_addr cf (gc_base cf + gc_page cf).

(** guarded_page_allocator.cc:526-529 SlotToAddr and :531-538 AddrToSlot. *)
Definition slot_to_addr (cf : gcfg) (slot : Z) : Z := first_page cf + 2 * slot * gc_page cf.
Definition addr_to_slot (cf : gcfg) (addr : Z) : Z :=
  (addr - first_page cf) / gc_page cf / 2.

(** guarded_page_allocator.h:256-262 GetWriteOverflowMagic (both factors and the product
    are truncated to 8 bits) and ShouldRightAlign. *)
Definition overflow_magic (slot : Z) : Z := (205 * ((slot / 2) mod 256)) mod 256.
Definition should_right_align (slot : Z) : bool := slot mod 2 =? 0.

(** The allocator and the memory it manages.  [ga_prot] says which pages (by their first
    address) are readable and writable: the mapping starts without access (MmapAligned
    maps with PROT_NONE) and only mprotect changes it.  The other fields: used_pages_,
    allocated_pages_, high_allocated_pages_, and for each slot the metadata
    (guarded_page_allocator.h:210-219) allocation_start, requested_size,
    dealloc_count and write_overflow_detected. *)
Record ga := mkGa {
  ga_used : words;
  ga_count : Z;
  ga_high : Z;
  ga_start : Z -> Z;
  ga_size : Z -> Z;
  ga_deallocs : Z -> Z;
  ga_ovf : Z -> bool;
  ga_prot : Z -> bool;
  ga_mem : Z -> Z;
}.

(** guarded_page_allocator.h:78-96 constructor, and the fresh SlotMetadata of
    guarded_page_allocator.cc:407-411. *)
Definition ga_init : ga :=
  mkGa clear_all 0 0 (fun _ => 0) (fun _ => 0) (fun _ => 0) (fun _ => false)
       (fun _ => false) (fun _ => 0).

(** Whether the processor lets the program read or write the byte at [addr]. *)
Definition accessible (cf : gcfg) (g : ga) (addr : Z) : bool := ga_prot g (page_addr cf addr).

Definition set_prot (g : ga) (page : Z) (ok : bool) : ga :=
  mkGa (ga_used g) (ga_count g) (ga_high g) (ga_start g) (ga_size g) (ga_deallocs g)
       (ga_ovf g) (upd (ga_prot g) page ok) (ga_mem g).
Definition set_mem (g : ga) (mem : Z -> Z) : ga :=
  mkGa (ga_used g) (ga_count g) (ga_high g) (ga_start g) (ga_size g) (ga_deallocs g)
       (ga_ovf g) (ga_prot g) mem.
Definition set_deallocs (g : ga) (slot n : Z) : ga :=
  mkGa (ga_used g) (ga_count g) (ga_high g) (ga_start g) (ga_size g)
       (upd (ga_deallocs g) slot n) (ga_ovf g) (ga_prot g) (ga_mem g).
Definition set_ovf (g : ga) (slot : Z) : ga :=
  mkGa (ga_used g) (ga_count g) (ga_high g) (ga_start g) (ga_size g) (ga_deallocs g)
       (upd (ga_ovf g) slot true) (ga_prot g) (ga_mem g).

(** guarded_page_allocator.cc:448-456 GetFreeSlot.  [idx] is the random number modulo
    total_pages_.  [None]: undefined behaviour in FindClear. *)
Definition get_free_slot (g : ga) (idx : Z) : option Z :=
  let slot := find_clear_backwards (ga_used g) idx in
  if 0 <=? slot then Some slot else find_clear gpa_max_pages (ga_used g) idx.

(** guarded_page_allocator.cc:422-446 ReserveFreeSlot on an initialised allocator that
    allows allocations.  The outcome is [Some slot], or [None] when all are taken. *)
Definition reserve_free_slot (cf : gcfg) (g : ga) (idx : Z) : option (ga * option Z) :=
  if gc_max cf - ga_count g =? 0 then Some (g, None)
  else
    let? slot := get_free_slot g idx in
    let used := fst (set_bit (ga_used g) slot) in
    let nalloced := ga_count g + 1 in
    let high := if ga_high g <? nalloced then nalloced else ga_high g in
    Some (mkGa used nalloced high (ga_start g) (ga_size g) (ga_deallocs g) (ga_ovf g)
               (ga_prot g) (ga_mem g), Some slot).

(** guarded_page_allocator.cc:458-465 FreeSlot. *)
Definition free_slot (g : ga) (slot : Z) : ga :=
  mkGa (fst (clear_bit (ga_used g) slot)) (ga_count g - 1) (ga_high g) (ga_start g)
       (ga_size g) (ga_deallocs g) (ga_ovf g) (ga_prot g) (ga_mem g).

(** absl::bit_ceil: the least power of two that is not below [x]. *)
Definition bit_ceil (x : Z) : Z := if x <=? 1 then 1 else 2 ^ Z.log2_up x.

(** memset. *)
Definition memset (mem : Z -> Z) (addr v len : Z) : Z -> Z :=
  fun a => if (addr <=? a) && (a <? addr + len) then v else mem a.

(** guarded_page_allocator.cc:540-569 MaybeRightAlign. *)
Definition maybe_right_align (cf : gcfg) (slot size alignment ptr : Z) (mem : Z -> Z)
  : Z * (Z -> Z) :=
  if negb (should_right_align slot) then (ptr, mem)
  else
    let adjusted := ptr + gc_page cf - size in
    let default_alignment :=
      Z.min (bit_ceil size) (Z.max k_alignment stdcpp_default_new_alignment) in
    let mask := Z.max alignment default_alignment - 1 in
    let padding := Z.land adjusted mask in
    let adjusted := adjusted - padding in
    let n := Z.min padding magic_size in
    (adjusted, memset mem (adjusted + size) (overflow_magic slot) n).

(** guarded_page_allocator.cc:184-221: the end of Allocate, once the page is accessible
    (or the size is zero).  Returns the pointer. *)
Definition finish_alloc (cf : gcfg) (g : ga) (slot size alignment : Z) : ga * Z :=
  let result := slot_to_addr cf slot in
  let '(result, mem) :=
    if 0 <? size then maybe_right_align cf slot size alignment result (ga_mem g)
    else (result, ga_mem g) in
  (mkGa (ga_used g) (ga_count g) (ga_high g) (upd (ga_start g) slot result)
        (upd (ga_size g) slot size) (upd (ga_deallocs g) slot 0) (ga_ovf g) (ga_prot g)
        mem, result).

(** guarded_page_allocator.cc:501-503: the loop of WriteOverflowOccurred from [p], over
    [fuel] = magic_end - p bytes. *)
Fixpoint overflow_loop (fuel : nat) (mem : Z -> Z) (magic p : Z) : bool :=
  match fuel with
  | O => false
  | S fuel => if negb (mem p =? magic) then true else overflow_loop fuel mem magic (p + 1)
  end.

(** guarded_page_allocator.cc:494-505 WriteOverflowOccurred. *)
Definition write_overflow_occurred (cf : gcfg) (g : ga) (slot : Z) : bool :=
  if negb (should_right_align slot) then false
  else
    let magic := overflow_magic slot in
    let alloc_end := ga_start g slot + ga_size g slot in
    let page_end := slot_to_addr cf slot + gc_page cf in
    let magic_end := Z.min page_end (alloc_end + magic_size) in
    overflow_loop (Z.to_nat (magic_end - alloc_end)) (ga_mem g) magic alloc_end.

(** guarded_page_allocator.cc:472-488 GetNearestValidPage and :490-492 GetNearestSlot. *)
Definition nearest_valid_page (cf : gcfg) (addr : Z) : Z :=
  if addr <? first_page cf then first_page cf
  else
    let last_page := first_page cf + 2 * (gc_total cf - 1) * gc_page cf in
    if last_page <? addr then last_page
    else
      let offset := addr - first_page cf in
      if (offset / gc_page cf) mod 2 =? 0 then addr
      else
        let half := gc_page cf / 2 in
        if (offset / half) mod 2 =? 0 then addr - half else addr + half.
Definition nearest_slot (cf : gcfg) (addr : Z) : Z :=
  addr_to_slot cf (page_addr cf (nearest_valid_page cf addr)).

(** guarded_page_allocator.cc:286-291 GetRequestedSize and :293-299
    GetAllocationOffsetAndSize. *)
Definition requested_size (cf : gcfg) (g : ga) (ptr : Z) : Z :=
  ga_size g (addr_to_slot cf (page_addr cf ptr)).
Definition offset_and_size (cf : gcfg) (g : ga) (addr : Z) : Z * Z :=
  let slot := nearest_slot cf addr in (addr - ga_start g slot, ga_size g slot).

(** guarded_page_allocator.cc:507-524 GetErrorType for the slot :308 names. *)
Inductive gerror :=
| GUnknown | GDoubleFree | GBufferOverflowOnDealloc | GUseAfterFree
| GBufferUnderflow | GBufferOverflow.
Definition error_type (cf : gcfg) (g : ga) (addr : Z) : gerror :=
  let slot := nearest_slot cf addr in
  if ga_start g slot =? 0 then GUnknown
  else if 2 <=? ga_deallocs g slot then GDoubleFree
  else if ga_ovf g slot then GBufferOverflowOnDealloc
  else if ga_deallocs g slot =? 1 then GUseAfterFree
  else if addr <? ga_start g slot then GBufferUnderflow
  else if ga_start g slot + ga_size g slot <=? addr then GBufferOverflow
  else GUnknown.

(** The calls in progress.  Allocate (:168-221) and Deallocate (:232-285) hold the lock
    only to take and to return the slot; between the steps below any other thread may
    run. *)
Inductive act :=
| AReserved (slot size alignment : Z)   (* has the slot; mprotect is next *)
| AReady (slot size alignment : Z)      (* the page is accessible; :196-220 are next *)
| DCounted (slot ptr : Z)               (* dealloc_count was 0; the check is next *)
| DChecked (slot ptr : Z)               (* mprotect is next *)
| DProtected (slot ptr : Z).            (* returning the slot is next *)

Record gst := mkGst { gs_ga : ga; gs_pool : list act }.

(** What a step does, as seen from outside. *)
Inductive gev :=
| EvInternal                               (* nothing visible *)
| EvStart                                  (* an Allocate call has got a slot *)
| EvNoSlots                                (* Allocate returned NoAvailableSlots *)
| EvMprotectFailed                         (* Allocate returned MProtectFailed *)
| EvReturn (slot ptr size alignment : Z)   (* Allocate returned [ptr] *)
| EvFreeing (ptr : Z)                      (* a Deallocate call got past the counter *)
| EvCheck (slot : Z)                       (* it looked at the magic bytes *)
| EvFreed (slot : Z)                       (* it returned *)
| EvWrite (addr : Z)                       (* the program wrote a byte *)
| EvCrash (why : gerror) (ptr : Z)         (* Deallocate stopped the program *)
| EvFault (why : gerror) (addr : Z).       (* an access stopped the program *)

(** The arguments Allocate asserts (:177-180). *)
Definition request_ok (cf : gcfg) (size alignment : Z) : Prop :=
  0 <= size <= gc_page cf /\
  (alignment = 0 \/ exists k, 0 <= k /\ alignment = 2 ^ k /\ alignment <= gc_page cf).

(** One step of one thread; [None] as the new state: the program has crashed. *)
Inductive gstep (cf : gcfg) : gst -> gev -> option gst -> Prop :=
(* Allocate, :170-175 *)
| gs_start : forall g pool size alignment idx g' slot,
    request_ok cf size alignment -> 0 <= idx < gc_total cf ->
    reserve_free_slot cf g idx = Some (g', Some slot) ->
    gstep cf (mkGst g pool) EvStart (Some (mkGst g' (AReserved slot size alignment :: pool)))
| gs_noslots : forall g pool idx g',
    0 <= idx < gc_total cf ->
    reserve_free_slot cf g idx = Some (g', None) ->
    gstep cf (mkGst g pool) EvNoSlots (Some (mkGst g' pool))
(* :184-185: for size 0 the page stays inaccessible *)
| gs_mprotect : forall g p1 p2 slot size alignment g',
    g' = (if 0 <? size then set_prot g (slot_to_addr cf slot) true else g) ->
    gstep cf (mkGst g (p1 ++ AReserved slot size alignment :: p2)) EvInternal
          (Some (mkGst g' (p1 ++ AReady slot size alignment :: p2)))
(* :185-192 *)
| gs_mprotect_fails : forall g p1 p2 slot size alignment,
    0 < size ->
    gstep cf (mkGst g (p1 ++ AReserved slot size alignment :: p2)) EvMprotectFailed
          (Some (mkGst (free_slot g slot) (p1 ++ p2)))
(* :193-220 *)
| gs_finish : forall g p1 p2 slot size alignment g' ptr,
    finish_alloc cf g slot size alignment = (g', ptr) ->
    gstep cf (mkGst g (p1 ++ AReady slot size alignment :: p2))
          (EvReturn slot ptr size alignment) (Some (mkGst g' (p1 ++ p2)))
(* Deallocate, :234-242 *)
| gs_free : forall g pool ptr slot,
    slot = addr_to_slot cf (page_addr cf ptr) ->
    ga_deallocs g slot = 0 ->
    gstep cf (mkGst g pool) (EvFreeing ptr)
          (Some (mkGst (set_deallocs g slot (ga_deallocs g slot + 1))
                       (DCounted slot ptr :: pool)))
| gs_double_free : forall g pool ptr slot,
    slot = addr_to_slot cf (page_addr cf ptr) ->
    ga_deallocs g slot <> 0 ->
    gstep cf (mkGst g pool) (EvCrash GDoubleFree ptr) None
(* :255-261 *)
| gs_check : forall g p1 p2 slot ptr g',
    g' = (if 0 <? ga_size g slot
          then if write_overflow_occurred cf g slot then set_ovf g slot else g
          else g) ->
    gstep cf (mkGst g (p1 ++ DCounted slot ptr :: p2)) (EvCheck slot)
          (Some (mkGst g' (p1 ++ DChecked slot ptr :: p2)))
(* :265-270 *)
| gs_protect : forall g p1 p2 slot ptr g',
    (0 <? ga_size g slot) && ga_ovf g slot = false ->
    g' = (if 0 <? ga_size g slot then set_prot g (page_addr cf ptr) false else g) ->
    gstep cf (mkGst g (p1 ++ DChecked slot ptr :: p2)) EvInternal
          (Some (mkGst g' (p1 ++ DProtected slot ptr :: p2)))
| gs_overflow : forall g p1 p2 slot ptr,
    (0 <? ga_size g slot) && ga_ovf g slot = true ->
    gstep cf (mkGst g (p1 ++ DChecked slot ptr :: p2))
          (EvCrash GBufferOverflowOnDealloc ptr) None
(* :273-284 *)
| gs_freed : forall g p1 p2 slot ptr,
    ga_start g slot = ptr ->
    gstep cf (mkGst g (p1 ++ DProtected slot ptr :: p2)) (EvFreed slot)
          (Some (mkGst (free_slot g slot) (p1 ++ p2)))
| gs_corrupt : forall g p1 p2 slot ptr,
    ga_start g slot <> ptr ->
    gstep cf (mkGst g (p1 ++ DProtected slot ptr :: p2)) (EvCrash GUnknown ptr) None
(* the program writes a byte of the pool, rightly or wrongly *)
| gs_write : forall g pool addr v,
    accessible cf g addr = true ->
    gstep cf (mkGst g pool) (EvWrite addr)
          (Some (mkGst (set_mem g (upd (ga_mem g) addr v)) pool))
(* an access to an inaccessible page: the signal handler reports what [error_type] says *)
| gs_fault : forall g pool addr,
    gc_base cf <= addr < gc_end cf ->
    accessible cf g addr = false ->
    gstep cf (mkGst g pool) (EvFault (error_type cf g addr) addr) None.
