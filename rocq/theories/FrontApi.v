(** Model of the entry points of tcmalloc/tcmalloc.cc: nallocx, the allocation
    and deallocation decisions of malloc / operator new / memalign, calloc,
    realloc, reallocarray and the sized deletes.

    What is below the entry points (CPU cache, central free list, page heap,
    guarded allocator, sampler) appears as an [outcome] chosen by the
    environment: whether the allocation succeeds, is sampled or guarded, which
    address comes back and what bytes the fresh block holds. *)
From Verif Require Import Base SizeMap.

(** ** Lengths: pages.h *)

(** pages.h:197-200 BytesToLengthCeil. *)
Definition bytes_to_length_ceil (c : cfg) (b : Z) : Z :=
  Z.shiftr b (page_shift c) + (if is_aligned_to b (page_size c) then 0 else 1).

(** pages.h:49 Length::in_bytes; the product is taken in size_t. *)
Definition length_in_bytes (c : cfg) (n : Z) : Z := wrap64 (n * page_size c).

(** ** Policies: tcmalloc_policy.h *)

(** tcmalloc_policy.h:354-359 security_partition of DefaultPartitionPolicy
    (tcmalloc_policy.h:265-268). *)
Definition default_sec (c : cfg) : Z := if sec_parts c =? 1 then 0 else 1.

(** tcmalloc_policy.h:527 CppPolicy, with the alignment of DefaultAlignPolicy
    (tcmalloc_policy.h:132-138).  [numa] is the partition the executing CPU is local to. *)
Definition cpp_policy (c : cfg) (numa : Z) : policy :=
  Policy 1 true false true (default_sec c) numa.

(** tcmalloc_policy.h:528 MallocPolicy, with the alignment of MallocAlignPolicy
    (tcmalloc_policy.h:141-145); alignof(std::max_align_t) is 16. *)
Definition malloc_policy (c : cfg) (numa : Z) : policy :=
  Policy 16 true false false (default_sec c) numa.

(** tcmalloc_policy.h:394-398 AlignAs: the alignment is a run-time value. *)
Definition align_as (p : policy) (a : Z) : policy :=
  Policy a false (is_cold p) (alloc_new p) (sec_partition p) (numa_partition p).

(** tcmalloc_policy.h:403-408 AccessAs / AccessAsHot / AccessAsCold. *)
Definition access_as (p : policy) (cold : bool) : policy :=
  Policy (align p) (align_const p) cold (alloc_new p) (sec_partition p) (numa_partition p).

(** tcmalloc_policy.h:461-469 InPartition.  The security partition is
    clamped to 0/1 by tcmalloc_policy.h:282
    and is 0 when there is a single one (tcmalloc_policy.h:355-357). *)
Definition in_partition (c : cfg) (p : policy) (k : Z) : policy :=
  let numa := k mod numa_parts c in
  let sec := (k - numa) / numa_parts c in
  Policy (align p) (align_const p) (is_cold p) (alloc_new p)
         (if sec_parts c =? 1 then 0 else if 0 <? sec then 1 else 0) numa.

(** tcmalloc_policy.h:491-499 InPartitionWithToken: keeps the
    NUMA policy. *)
Definition in_partition_with_token (c : cfg) (p : policy) (k : Z) : policy :=
  let numa := k mod numa_parts c in
  let sec := (k - numa) / numa_parts c in
  Policy (align p) (align_const p) (is_cold p) (alloc_new p)
         (if sec_parts c =? 1 then 0 else if 0 <? sec then 1 else 0) (numa_partition p).

(** ** nallocx *)

(** tcmalloc.cc:382-393 nallocx_slow.  [None] is undefined behaviour. *)
Definition nallocx_slow (c : cfg) (m : sizemap) (numa size flags : Z) : option Z :=
  let a := Z.shiftl 1 (Z.land flags 63) in
  match get_size_class c m (align_as (cpp_policy c numa) a) size with
  | Small cl => Some (class_to_size m cl)
  | NotSmall => Some (length_in_bytes c (bytes_to_length_ceil c size))
  | LookupUB => None
  end.

(** tcmalloc.cc:400-412 nallocx, after initialisation. *)
Definition nallocx (c : cfg) (m : sizemap) (numa size flags : Z) : option Z :=
  if negb (flags =? 0) then nallocx_slow c m numa size flags
  else match get_size_class c m (cpp_policy c numa) size with
  | Small cl => Some (class_to_size m cl)
  | NotSmall => Some (length_in_bytes c (bytes_to_length_ceil c size))
  | LookupUB => None
  end.

(** ** Blocks *)

(** What the span of a sampled allocation records
    (allocation_sampling.h:95). *)
Record sample := Sample { s_guarded : bool; s_requested : Z; s_allocated : Z }.

(** A live block: the class recorded in the pagemap (0 for a span handed out
    whole), the bytes of its span, the sampling record and its contents. *)
Record block := Block {
  b_class : Z;
  b_span_bytes : Z;
  b_sample : option sample;
  b_data : Z -> Z
}.

(** tcmalloc.cc:556-571 GetSizeAndSampled and
    tcmalloc.cc:538-550 GetLargeSizeAndSampled. *)
Definition get_size_and_sampled (m : sizemap) (b : block) : Z * bool :=
  if negb (b_class b =? 0) then (class_to_size m (b_class b), false)
  else match b_sample b with
       | Some s => (if s_guarded s then s_requested s else s_allocated s, true)
       | None => (b_span_bytes b, false)
       end.

(** tcmalloc.cc:573 GetSize, which malloc_usable_size returns. *)
Definition get_size (m : sizemap) (b : block) : Z := fst (get_size_and_sampled m b).

(** GuardedPageAllocator::PointerIsMine on a live block. *)
Definition is_guarded (b : block) : bool :=
  match b_sample b with Some s => s_guarded s | None => false end.

(** The environment's choice for one allocation. *)
Inductive outcome :=
| OutOfMemory
| Plain (a : Z) (d : Z -> Z)
| Sampled (a : Z) (d : Z -> Z)
| Guarded (a : Z) (d : Z -> Z).

(** Result of the allocation decision: undefined behaviour, out of memory, or
    an address, its block and the capacity a size-returning caller sees. *)
Inductive alloc_result :=
| AllocUB
| AllocOom
| AllocOk (a : Z) (b : block) (capacity : Z).

(** tcmalloc.cc:1271-1309 fast_alloc,
    tcmalloc.cc:1235-1251 slow_alloc_small, tcmalloc.cc:1254-1268 slow_alloc_large,
    tcmalloc.cc:632-661 do_malloc_pages and
    allocation_sampling.h:89-226 SampleifyAllocation.
    [ret] is policy.size_returning().  A page allocation is never guarded
    (tcmalloc.cc:650-652). *)
Definition fast_alloc (c : cfg) (m : sizemap) (p : policy) (ret : bool) (size : Z)
  (o : outcome) : alloc_result :=
  match get_size_class c m p size with
  | LookupUB => AllocUB
  | Small cl =>
    let x := class_to_size m cl in
    match o with
    | OutOfMemory => AllocOom
    | Plain a d => AllocOk a (Block cl (class_to_pages m cl * page_size c) None d) x
    | Sampled a d =>
      AllocOk a (Block 0 (length_in_bytes c (bytes_to_length_ceil c x)) (Some (Sample false size x)) d) x
    | Guarded a d =>
      AllocOk a (Block 0 (length_in_bytes c (bytes_to_length_ceil c x))
                   (Some (Sample true size (if ret then size else x))) d) size
    end
  | NotSmall =>
    let n := length_in_bytes c (Z.max (bytes_to_length_ceil c size) 1) in
    match o with
    | OutOfMemory => AllocOom
    | Plain a d => AllocOk a (Block 0 n None d) n
    | Sampled a d | Guarded a d => AllocOk a (Block 0 n (Some (Sample false size n)) d) n
    end
  end.

(** ** The program-visible world *)

(** Ghost trace of the calls that reach the allocator. *)
Inductive event := EvAlloc (size al : Z) | EvFree (ptr : Z).

Record world := World {
  heap : Z -> option block;
  errno : Z;
  trace : list event     (* most recent first *)
}.

Definition ENOMEM : Z := 12.
Definition EINVAL : Z := 22.

Definition set_errno (w : world) (e : Z) : world := World (heap w) e (trace w).

(** fast_alloc with a malloc-style policy: tcmalloc_policy.h:114-120 MallocOomPolicy sets errno. *)
Definition w_alloc (c : cfg) (m : sizemap) (p : policy) (ret : bool) (w : world) (size : Z)
  (o : outcome) : option (Z * Z * world) :=
  let tr := EvAlloc size (align p) :: trace w in
  match fast_alloc c m p ret size o with
  | AllocUB => None
  | AllocOom => Some (0, 0, World (heap w) ENOMEM tr)
  | AllocOk a b n => Some (a, n, World (upd (heap w) a (Some b)) (errno w) tr)
  end.

(** tcmalloc.cc:806-841 do_free.  [None]: the pointer
    is not a live block (the code reports a corrupted or double free and
    aborts). *)
Definition w_free (w : world) (ptr : Z) : option world :=
  if ptr =? 0 then Some w
  else match heap w ptr with
       | None => None
       | Some _ => Some (World (upd (heap w) ptr None) (errno w) (EvFree ptr :: trace w))
       end.

(** memset(result, 0, size) and memcpy(new, old, n). *)
Definition zero_fill (d : Z -> Z) (n : Z) : Z -> Z :=
  fun i => if (0 <=? i) && (i <? n) then 0 else d i.
Definition mem_copy (dst src : Z -> Z) (n : Z) : Z -> Z :=
  fun i => if (0 <=? i) && (i <? n) then src i else dst i.
Definition set_data (b : block) (d : Z -> Z) : block :=
  Block (b_class b) (b_span_bytes b) (b_sample b) d.
Definition write_data (w : world) (a : Z) (f : (Z -> Z) -> Z -> Z) : world :=
  match heap w a with
  | None => w
  | Some b => World (upd (heap w) a (Some (set_data b (f (b_data b))))) (errno w) (trace w)
  end.

(** ** overflow.h *)

(** internal/overflow.h:29 the compiler builtin: the product modulo 2^64 and
    whether it differs from the exact product. *)
Definition mul_overflow_builtin (a b : Z) : bool * Z :=
  (negb (a * b =? wrap64 (a * b)), wrap64 (a * b)).

(** internal/overflow.h:31 the fallback. *)
Definition mul_overflow_fallback (a b : Z) : bool * Z :=
  let out := wrap64 (a * b) in
  (negb (b =? 0) && negb (out / b =? a), out).

(** Which of the two is compiled in. *)
Definition multiply_overflow (builtin : bool) (a b : Z) : bool * Z :=
  if builtin then mul_overflow_builtin a b else mul_overflow_fallback a b.

(** ** C entry points *)

(** tcmalloc.cc:1460-1463 malloc. *)
Definition api_malloc c m numa (w : world) (size : Z) (o : outcome) : option (Z * world) :=
  let? (a, _, w) := w_alloc c m (malloc_policy c numa) false w size o in Some (a, w).

(** tcmalloc.cc:1557-1568 calloc. *)
Definition api_calloc (bi : bool) c m numa (w : world) (n elem : Z) (o : outcome)
  : option (Z * world) :=
  let '(ov, size) := multiply_overflow bi n elem in
  if ov then Some (0, set_errno w ENOMEM)
  else
    let? (a, _, w) := w_alloc c m (malloc_policy c numa) false w size o in
    if a =? 0 then Some (0, w)
    else Some (a, write_data w a (fun d => zero_fill d size)).

(** internal/memory_tag.h:48-51 GetMemoryTag, with the
    tag values and shift of internal/memory_tag.h:33-46
    (no sanitizer address space; kAddressBits is 48). *)
Definition tag_shift : Z := 42.
Definition get_memory_tag (ptr : Z) : Z := Z.shiftr (Z.land ptr (Z.shiftl 7 tag_shift)) tag_shift.
Definition tag_sampled : Z := 0.
Definition tag_sampled_p1 : Z := 1.
Definition tag_cold : Z := 2.
Definition tag_metadata : Z := 3.
Definition tag_normal_p0 : Z := 4.
Definition tag_normal_p1 : Z := 6.

(** common.h:264-275 PartitionFromPointer. *)
Definition partition_from_pointer (c : cfg) (ptr : Z) : Z :=
  if normal_parts c =? 1 then 0
  else if get_memory_tag ptr =? tag_normal_p1 then 1 else 0.

(** common.h:279-288 PartitionFromPointerFast. *)
Definition partition_from_pointer_fast (c : cfg) (ptr : Z) : Z :=
  if normal_parts c =? 1 then 0
  else if Z.land (get_memory_tag ptr) 2 =? 0 then 0 else 1.

(** tcmalloc.cc:1570-1634 do_realloc.  [ws] is
    GetThreadSampler().WillRecordAllocation(new_size). *)
Definition do_realloc c m numa (w : world) (old_ptr new_size : Z) (ws : bool) (o : outcome)
  : option (Z * world) :=
  let? b := heap w old_ptr in
  let '(old_size, was_sampled) := get_size_and_sampled m b in
  let will_sample := (new_size <=? max_size c) && ws in
  let part := partition_from_pointer c old_ptr in
  let? actual :=
    match get_size_class c m (in_partition c (malloc_policy c numa) part) new_size with
    | Small cl => Some (class_to_size m cl)
    | NotSmall => Some (length_in_bytes c (bytes_to_length_ceil c new_size))
    | LookupUB => None
    end in
  if negb (actual =? old_size) || was_sampled || will_sample || is_guarded b then
    let? (a, _, w) := w_alloc c m (in_partition_with_token c (malloc_policy c numa) part) false w new_size o in
    if a =? 0 then Some (0, w)
    else
      let w := write_data w a (fun d => mem_copy d (b_data b) (if old_size <? new_size then old_size else new_size)) in
      let? w := w_free w old_ptr in
      Some (a, w)
  else Some (old_ptr, w).

(** tcmalloc.cc:1636-1650 realloc; the report for a pointer with high bits set is not modelled
    (such a pointer is not a live block). *)
Definition api_realloc c m numa (w : world) (ptr size : Z) (ws : bool) (o : outcome)
  : option (Z * world) :=
  if ptr =? 0 then api_malloc c m numa w size o
  else if size =? 0 then let? w := w_free w ptr in Some (0, w)
  else do_realloc c m numa w ptr size ws o.

(** tcmalloc.cc:1652-1666 reallocarray. *)
Definition api_reallocarray (bi : bool) c m numa (w : world) (ptr n elem : Z) (ws : bool) (o : outcome)
  : option (Z * world) :=
  let '(ov, size) := multiply_overflow bi n elem in
  if ov then Some (0, set_errno w ENOMEM)
  else if ptr =? 0 then api_malloc c m numa w size o
  else if size =? 0 then let? w := w_free w ptr in Some (0, w)
  else do_realloc c m numa w ptr size ws o.

(** absl::has_single_bit. *)
Definition has_single_bit (x : Z) : bool := (0 <? x) && (Z.land x (x - 1) =? 0).

(** tcmalloc.cc:1518-1521 memalign: no check of the alignment. *)
Definition api_memalign c m numa (w : world) (al size : Z) (o : outcome) : option (Z * world) :=
  let? (a, _, w) := w_alloc c m (align_as (malloc_policy c numa) al) false w size o in Some (a, w).

(** tcmalloc.cc:1819-1832 aligned_alloc. *)
Definition api_aligned_alloc c m numa (w : world) (al size : Z) (o : outcome) : option (Z * world) :=
  if negb (has_single_bit al) then Some (0, set_errno w EINVAL)
  else let? (a, _, w) := w_alloc c m (align_as (malloc_policy c numa) al) false w size o in Some (a, w).

(** tcmalloc.cc:1834-1847 posix_memalign: returns the error code and the value stored
    through result_ptr, if any. *)
Definition api_posix_memalign c m numa (w : world) (al size : Z) (o : outcome)
  : option (Z * option Z * world) :=
  if negb (al mod 8 =? 0) || negb (has_single_bit al) then Some (EINVAL, None, w)
  else
    let? (a, _, w) := w_alloc c m (align_as (malloc_policy c numa) al) false w size o in
    if a =? 0 then Some (ENOMEM, None, w) else Some (0, Some a, w).

(** tcmalloc.cc:1849-1853 valloc; [sys] is the system page size. *)
Definition api_valloc c m numa sys (w : world) (size : Z) (o : outcome) : option (Z * world) :=
  let? (a, _, w) := w_alloc c m (align_as (malloc_policy c numa) sys) false w size o in Some (a, w).

(** tcmalloc.cc:1855-1864 pvalloc: [(size + page_size - 1) & ~(page_size - 1)] in size_t. *)
Definition pvalloc_size (sys size : Z) : Z :=
  let size := if size =? 0 then sys else size in
  Z.ldiff (wrap64 (size + sys - 1)) (sys - 1).
Definition api_pvalloc c m numa sys (w : world) (size : Z) (o : outcome) : option (Z * world) :=
  let? (a, _, w) := w_alloc c m (align_as (malloc_policy c numa) sys) false w (pvalloc_size sys size) o in
  Some (a, w).

(** tcmalloc.cc:1913-1928 aligned_alloc_at_least and
    tcmalloc.cc:1907-1910 alloc_at_least: address and capacity. *)
Definition api_alloc_at_least c m numa (w : world) (size : Z) (o : outcome) : option (Z * Z * world) :=
  w_alloc c m (malloc_policy c numa) true w size o.
Definition api_aligned_alloc_at_least c m numa (w : world) (al size : Z) (o : outcome)
  : option (Z * Z * world) :=
  if negb (has_single_bit al) then Some (0, 0, set_errno w EINVAL)
  else w_alloc c m (align_as (malloc_policy c numa) al) true w size o.

(** ** Placement and sized deallocation *)

(** static_vars.h:112-115 active_partitions: [active] is
    multiple_non_numa_partitions(), [numa_active] the partitions of the NUMA topology. *)
Definition active_partitions (c : cfg) (active : bool) (numa_active : Z) : Z :=
  if active then normal_parts c else numa_active.

(** common.h:252-262 MultiNormalTag; other partitions are unreachable. *)
Definition multi_normal_tag (part : Z) : option Z :=
  if part =? 0 then Some tag_normal_p0 else if part =? 1 then Some tag_normal_p1 else None.

(** common.h:231-233 IsExpandedSizeClass. *)
Definition is_expanded_class (c : cfg) (cl : Z) : bool := expanded c && (expanded_start c <=? cl).

(** central_freelist.cc:52-60 MemoryTagFromSizeClass: the tag of the spans
    of a class. *)
Definition memory_tag_from_size_class (c : cfg) (parts cl : Z) : option Z :=
  if is_expanded_class c cl then Some tag_cold
  else if parts =? 1 then Some tag_normal_p0
  else multi_normal_tag (cl / num_base c).

(** tcmalloc_policy.h:361-367 TCMallocPolicy::partition. *)
Definition policy_partition (c : cfg) (p : policy) : Z :=
  if sec_parts c =? 1 then numa_partition p else sec_partition p.

(** tcmalloc.cc:636-643 the tag of a page allocation. *)
Definition malloc_pages_tag (c : cfg) (full : bool) (parts : Z) (p : policy) : option Z :=
  if is_cold p && (negb full || (sec_partition p =? 0)) then Some tag_cold
  else if 1 <? parts then multi_normal_tag (policy_partition c p)
  else Some tag_normal_p0.

(** tcmalloc.cc:763-780 the masks. *)
Definition k_bad_high : Z := 2 ^ 64 - 2 ^ 48.
Definition k_bad_align : Z := 7.
Definition k_normal_mask : Z := Z.shiftl tag_normal_p0 tag_shift.
Definition k_cold_mask : Z := Z.shiftl tag_cold tag_shift.
Definition k_tag_mask : Z := Z.shiftl 7 tag_shift.
Definition k_normal_or_bad : Z := Z.lor (Z.lor k_bad_high k_normal_mask) k_bad_align.
Definition k_tag_or_bad : Z := Z.lor (Z.lor k_bad_high k_tag_mask) k_bad_align.

(** internal/memory_tag.h:68-76 IsSampledMemory. *)
Definition is_sampled_memory (ptr : Z) : bool :=
  Z.ldiff (get_memory_tag ptr) tag_sampled_p1 =? 0.

(** What a sized delete does with the block: nothing, push it on the free list
    of a class, give its pages back (this path reads the span's metadata),
    report an error, or undefined behaviour. *)
Inductive free_action := FreeNothing | FreeClass (cl : Z) | FreePages | FreeReport | FreeUB.

(** tcmalloc.cc:843-889 handle_sampled_or_illformed_ptrs. *)
Definition handle_sampled_or_illformed (c : cfg) (m : sizemap) (p : policy) (ptr size : Z) : free_action :=
  if is_sampled_memory ptr then FreePages
  else if negb (Z.land ptr k_bad_high =? 0) then FreeReport
  else match get_size_class c m p size with
       | NotSmall => FreePages
       | _ => FreeReport
       end.

(** tcmalloc.cc:937-999 fast_free_with_size. *)
Definition fast_free_with_size (c : cfg) (m : sizemap) (p : policy) (ptr size : Z) : free_action :=
  let part := if is_cold p || (partition_from_pointer_fast c ptr =? 0) then 0 else 1 in
  match get_size_class c m (in_partition c p part) size with
  | Small cl => FreeClass cl
  | NotSmall => FreePages
  | LookupUB => FreeUB
  end.

(** tcmalloc.cc:895-925 do_free_with_size. *)
Definition do_free_with_size (c : cfg) (m : sizemap) (p : policy) (ptr size : Z) : free_action :=
  if negb (Z.land ptr k_normal_or_bad =? k_normal_mask) then
    if ptr =? 0 then FreeNothing
    else if negb (Z.land ptr k_tag_or_bad =? k_cold_mask)
    then handle_sampled_or_illformed c m p ptr size
    else fast_free_with_size c m (access_as p true) ptr size
  else fast_free_with_size c m (access_as p false) ptr size.

(** allocation_sampling.h:271 and what follows, in MaybeUnsampleAllocation: the size
    check made on a page block when its size is passed to delete.  [true]:
    accepted; [false]: reported as a mismatched delete. *)
Definition sized_pages_check (c : cfg) (p : policy) (ret : bool) (b : block) (size : Z) : bool :=
  match b_sample b with
  | None =>
    let mx := b_span_bytes b in
    let mn := wrap64 (mx - (page_size c - 1)) in
    negb (((size <? mn) || (mx <? size))
          && negb ((size =? 0) && (mx =? page_size c) && (page_size c <? align p)))
  | Some s =>
    if ret then (s_requested s <=? size) && (size <=? s_allocated s)
    else size =? s_requested s
  end.
