{"id": "C01", "title": "Small requests are served by a size class that is large enough, never oversized without need", "statement": "For every size-class table the allocator accepts at start-up and every requested size up to the small-object limit, the class chosen for the request has an object size that is at least the request, and no class with a smaller sufficient object size exists in that table; requests above the limit are never mapped to a class.", "quantifier": "all accepted size-class tables, all page sizes, all 64-bit request sizes", "why_tests_cant": "262145 sizes x every table that validation could accept (tables are user-overridable) x 4 page sizes; tests sample sizes for the shipped tables only.", "anchors": ["tcmalloc/sizemap.h: SizeMap::ClassIndexMaybe, SizeMap::GetSizeClass", "tcmalloc/sizemap.cc: SizeMap::Init, SizeMap::SetSizeClasses, SizeMap::ValidSizeClasses", "tcmalloc/size_classes.cc"]}
{"id": "C02", "title": "Aligned small requests get an object whose size is a multiple of the alignment", "statement": "For every accepted table, size and power-of-two alignment, if the lookup for (size, align) succeeds then the class's object size is >= size and is a multiple of align, so every object of the class in a span aligned to a page is aligned; if align exceeds the page size the lookup refuses.", "quantifier": "all accepted tables, sizes, power-of-two alignments", "why_tests_cant": "Product of sizes and alignments, and must hold for any user-supplied table passing validation.", "anchors": ["tcmalloc/sizemap.h: SizeMap::GetSizeClass, CppPolicy/AlignAsPolicy", "tcmalloc/tcmalloc_policy.h"]}
{"id": "C03", "title": "The shipped size-class tables are all accepted and deliver the advertised alignments", "statement": "Every size-class table compiled into the library (default, legacy, power-of-two and reuse variants, for every page size) passes validation, and in each of them every size that is a multiple of 2^k (k up to the advertised new-alignment) maps to a class size that is a multiple of it.", "quantifier": "all shipped tables and all sizes within them", "why_tests_cant": "Exhaustive over all tables x all sizes; unit tests only build one configuration at a time.", "anchors": ["tcmalloc/size_classes.cc", "tcmalloc/legacy_size_classes.cc", "tcmalloc/experimental_pow2_size_class.cc", "tcmalloc/reuse_relaxed_below_64_size_classes.cc", "tcmalloc/sizemap.cc: IsValidSizeClass"]}
{"id": "C04", "title": "nallocx / malloc_size agreement", "statement": "For every size and alignment for which an allocation can succeed, nallocx(size, flags) is at least the request and equals the usable size the corresponding allocation reports.", "quantifier": "all 64-bit sizes, all alignments", "why_tests_cant": "2^64 sizes; boundary and overflow behaviour only shows at extreme values.", "anchors": ["tcmalloc/tcmalloc.cc: TCMallocInternalNallocx, nallocx_slow, GetSize/do_malloc_pages"]}
{"id": "C05", "title": "Overflow-safe multiplication in calloc / reallocarray", "statement": "For every pair (n, elem_size): if n*elem_size does not fit in size_t, the call fails with a null result and ENOMEM and allocates nothing; otherwise it requests exactly n*elem_size bytes.", "quantifier": "all pairs of 64-bit values", "why_tests_cant": "2^128 input pairs.", "anchors": ["tcmalloc/tcmalloc.cc: TCMallocInternalCalloc, TCMallocInternalReallocArray, MultiplyOverflow", "tcmalloc/internal/overflow.h"]}
{"id": "C06", "title": "Aligned-allocation entry points validate and honour alignment", "statement": "posix_memalign / aligned_alloc / memalign / valloc / pvalloc: a non-power-of-two (or, for posix_memalign, too small) alignment is rejected without allocating; when accepted, the size passed to the allocator is >= the request (valloc/pvalloc rounding included) and the effective alignment is at least the requested one.", "quantifier": "all 64-bit sizes and alignments", "why_tests_cant": "2^128 inputs; failures only at wraparound boundaries (e.g. rounding a huge size up to a page).", "anchors": ["tcmalloc/tcmalloc.cc: TCMallocInternalPosixMemalign, TCMallocInternalAlignedAlloc, TCMallocInternalMemalign, TCMallocInternalValloc, TCMallocInternalPvalloc"]}
{"id": "C07", "title": "realloc preserves contents and never loses the old block on failure", "statement": "For every old block, new size and allocator outcome, realloc returns either a block holding the first min(old,new) bytes unchanged and releases/reuses the old one exactly once, or null leaving the old block intact; realloc(p,0) frees p exactly once.", "quantifier": "all old usable sizes, new sizes, contents, allocation outcomes", "why_tests_cant": "The lower/upper growth heuristics interact with sizes and out-of-memory outcomes that tests cannot enumerate.", "anchors": ["tcmalloc/tcmalloc.cc: do_realloc"]}
{"id": "C08", "title": "Sized and aligned delete compute the class the object was allocated from", "statement": "For every size and alignment, the size class (or large-page path) that operator delete(p, size[, align]) derives is the one operator new(size[, align]) used, for every hot/cold and partition placement of p.", "quantifier": "all sizes, alignments, tables, memory tags", "why_tests_cant": "A mismatch puts an object on the wrong freelist: must hold for every size/alignment/tag combination.", "anchors": ["tcmalloc/tcmalloc.cc: do_free_with_size, do_free_with_size_slow", "tcmalloc/sizemap.h: GetSizeClass"]}
{"id": "C09", "title": "Live page ranges never overlap", "statement": "For every history of page-level allocations (any lengths and alignments), frees, background releases, and every outcome of the operating system calls, two simultaneously live page ranges returned by the page allocator are disjoint, each has at least the requested length, lies in memory obtained from the OS, and respects the requested alignment.", "quantifier": "all operation histories, lengths, alignments, OS outcomes", "why_tests_cant": "Unbounded histories through filler, regions, cache and system-allocation paths; tests exercise random samples.", "anchors": ["tcmalloc/huge_page_aware_allocator.h: New, NewAligned, Delete, AllocSmall, AllocLarge, AllocEnormous, AllocRawHugepages", "tcmalloc/huge_page_filler.h", "tcmalloc/huge_region.h", "tcmalloc/huge_cache.cc", "tcmalloc/huge_allocator.cc"]}
{"id": "C10", "title": "Free address-space bookkeeping is exact", "statement": "For every sequence of insertions of disjoint free ranges, removals and lookups, the free-range map holds exactly the union of what was inserted minus removed, as maximal non-adjacent ranges, with correct total size and node count; lookup of the range at or before an address returns the right one.", "quantifier": "all sequences of disjoint insertions/removals and all random priorities", "why_tests_cant": "Balanced-tree shapes depend on random priorities and unbounded histories.", "anchors": ["tcmalloc/huge_address_map.h", "tcmalloc/huge_address_map.cc: Insert, Remove, Predecessor, Merge, Check"]}
{"id": "C11", "title": "Huge-page address allocator: no loss, no double hand-out, guaranteed fit", "statement": "For every history of gets and releases and OS grants: handed-out ranges are disjoint, system size = in use + free, a request succeeds whenever some free run is long enough, and memory is asked from the OS only when none is.", "quantifier": "all histories, request lengths, OS replies", "why_tests_cant": "Unbounded histories and fragmentation patterns.", "anchors": ["tcmalloc/huge_allocator.cc: Find, Get, Release, AllocateRange"]}
{"id": "C12", "title": "Huge-page cache conserves hugepages", "statement": "For every history of gets, releases, shrink operations and failures of the OS to release memory, each hugepage is in exactly one of: in use, cached (backed), or returned unbacked; the reported size, usage and the limit match, and after a shrink that is not refused by the OS the cache is no larger than the target.", "quantifier": "all histories, clock values, OS release outcomes", "why_tests_cant": "Failure injection at every release step in unbounded histories.", "anchors": ["tcmalloc/huge_cache.h", "tcmalloc/huge_cache.cc: Get, Release, ReleaseUnbacked, ShrinkCache, MaybeShrinkCacheLimit"]}
{"id": "C13", "title": "Sub-hugepage tracker: allocated runs are disjoint and statistics exact", "statement": "For every sequence of page gets and puts on one hugepage: a get succeeds iff a free run of that length exists, returned runs are disjoint from all live runs, used/free page counts and longest free run are exact, and the tracker uses a best-fit run.", "quantifier": "all sequences of gets/puts, all lengths, all page sizes", "why_tests_cant": "2^256 bitmap states.", "anchors": ["tcmalloc/internal/range_tracker.h: RangeTracker::FindAndMark, Unmark, Mark", "tcmalloc/huge_page_tracker.h: PageTracker::Get, Put"]}
{"id": "C14", "title": "Released-page accounting in a partially used hugepage is exact", "statement": "For every history of gets, puts, releases to the OS (successful or failing): the released page count equals the number of pages marked released, released pages are always free pages, and a get reports exactly how many of its pages had been released.", "quantifier": "all histories and OS outcomes", "why_tests_cant": "Interleaving of failing release runs and reallocation of released pages.", "anchors": ["tcmalloc/huge_page_tracker.h: PageTracker::Get, Put, ReleaseFree, MarkSubreleased, ReleasePages"]}
{"id": "C15", "title": "Bitmap search primitives meet their specification", "statement": "For every bitmap size, content and index: find-next-set/clear forward and backward, range set/clear, count in range and next-free-range return exactly the mathematically specified answer.", "quantifier": "all bitmap lengths, contents, indices", "why_tests_cant": "Exponential number of bitmaps; word-boundary arithmetic.", "anchors": ["tcmalloc/internal/range_tracker.h: Bitmap::FindSet, FindClear, FindSetBackwards, FindClearBackwards, SetRange, ClearRange, CountBits, NextFreeRange"]}
{"id": "C16", "title": "Objects inside a span never overlap and are never handed out twice", "statement": "For every object size, span length and sequence of object allocations and returns on a span (both the bitmap and the intrusive list representation): each handed-out object lies within the span at a multiple of the object size, is not already live, and no free object is lost.", "quantifier": "all size classes, span lengths, histories of batch pops and pushes", "why_tests_cant": "Unbounded histories; two representations with cached slots and packed indices.", "anchors": ["tcmalloc/span.h: Span::FreelistPopBatch, FreelistPushBatch, BitmapPopBatch, ListPopBatch", "tcmalloc/span.cc: BuildFreelist"]}
{"id": "C17", "title": "Division-free object indexing is exact", "statement": "For every size class and every object start inside a span, the reciprocal-multiplication index computation returns the true quotient, so freeing an object clears the right bit.", "quantifier": "all accepted object sizes, span sizes, indices", "why_tests_cant": "Rounding must hold for every offset/size pair.", "anchors": ["tcmalloc/span.h: Span::CalcReciprocal, OffsetToIdx, BitmapPtrToIdx"]}
{"id": "C18", "title": "Central free list conserves objects under every interleaving", "statement": "For every interleaving of threads removing and inserting batches (including the window where the lock is dropped to fetch a span and concurrent span exhaustion), every object is in exactly one of: held by a caller or free in a span of that class; spans are returned to the page heap only when all of their objects are free, exactly once.", "quantifier": "all thread schedules and batch sizes", "why_tests_cant": "Schedules around the unlocked populate/deallocate windows are unbounded.", "anchors": ["tcmalloc/central_freelist.h: RemoveRange, InsertRange, Populate, ReleaseToSpans, DeallocateSpans"]}
{"id": "C19", "title": "Central free list span prioritisation and statistics are consistent", "statement": "At all times each span with free objects is on exactly the list its allocation count maps to, spans without free objects are on none, and the reported object and span counters equal the real totals.", "quantifier": "all histories", "why_tests_cant": "Counter drift only shows after unbounded histories.", "anchors": ["tcmalloc/central_freelist.h: GetFirstNonEmptyIndex, IndexFor, RecordSpanAllocated, num_spans, length, OverheadBytes"]}
{"id": "C20", "title": "Transfer cache conserves objects and respects its capacity under every interleaving", "statement": "For every interleaving of inserts, removes, plunders, grows and shrinks: the multiset of objects handed to the cache equals those returned plus those cached plus those forwarded to the central list; 0 <= used <= capacity <= max capacity.", "quantifier": "all schedules, batch sizes, capacities", "why_tests_cant": "Plunder and shrink release the lock midway; unbounded schedules.", "anchors": ["tcmalloc/transfer_cache_internals.h: InsertRange, RemoveRange, TryPlunder, IncreaseCacheCapacity, ShrinkCache"]}
{"id": "C21", "title": "Transfer cache rebalancing conserves the total capacity and terminates", "statement": "For every miss distribution, the periodic resize terminates, never exceeds any class's maximum, and the number of batches of capacity given equals the number taken away.", "quantifier": "all capacities, fill levels, miss counts", "why_tests_cant": "Sorting order and all fill levels.", "anchors": ["tcmalloc/transfer_cache_internals.h: ResizeCaches/TryResizingCaches, IncreaseCacheCapacity, ShrinkCache"]}
{"id": "C22", "title": "Per-CPU cache slabs behave as bounded LIFO stacks and size classes never interfere", "statement": "For every layout of capacities that the initialisation accepts and that occupies fewer than 2^16 words (so every region of at most 256 KiB), and every sequence of push/pop/batch/grow/shrink/drain on a CPU's slab, each size class behaves as a LIFO stack bounded by its capacity; no operation on one class reads or changes another class's cached objects; a pop on an empty class fails.", "quantifier": "all capacity layouts, all operation sequences, all object addresses", "why_tests_cant": "The classes share one word array separated only by marker words; unbounded histories and layouts (including zero capacities sharing markers).", "anchors": ["tcmalloc/internal/percpu_tcmalloc.h: InitSlabs, InitCpuImpl, Push, Pop, Grow, GrowOtherCache, ShrinkOtherCache, Drain"]}
{"id": "C23", "title": "Per-CPU operations are atomic with respect to migration, preemption and remote drains", "statement": "For every schedule of thread preemption, CPU migration, and remote stop/drain/resize of a CPU's cache, a local push or pop either takes effect completely on the slab of the CPU it runs on, or not at all, and no object is lost or duplicated.", "quantifier": "all schedules of threads, migrations and remote operations", "why_tests_cant": "Preemption between any two instructions; cannot be driven from tests.", "anchors": ["tcmalloc/internal/percpu_tcmalloc.h: CacheCpuSlabSlow, StopCpu, StartCpu, ResizeSlabs, StoreCurrentCpu, rseq critical sections"]}
{"id": "C24", "title": "Per-CPU cache capacity accounting is conserved", "statement": "For every history of grows, steals between size classes and CPUs, shrinks, reclaims and slab resizes, allocated capacity plus available capacity of every CPU cache stays equal to its budget, and the sum over CPUs never exceeds the configured total.", "quantifier": "all histories and schedules at lock granularity", "why_tests_cant": "Stealing between caches moves capacity through several counters; drift only appears over long histories.", "anchors": ["tcmalloc/cpu_cache.h: UpdateCapacity, Grow, Steal, StealCapacityForSizeClassWithinCpu, ShuffleCpuCaches, TryReclaimingCaches"]}
{"id": "C25", "title": "Address-to-owner map returns the last registered owner for every page", "statement": "For every sequence of reservations, set and clear operations over the supported address space, looking up a page returns the value last set for that page, null if never set, and setting one page never changes another.", "quantifier": "all page numbers of the address space, all histories", "why_tests_cant": "2^35..2^39 pages in a multi-level radix tree.", "anchors": ["tcmalloc/pagemap.h: PageMap3, PageMap::Set, GetDescriptor, sizeclass", "tcmalloc/pagemap.cc: RegisterSizeClass, UnregisterSizeClass"]}
{"id": "C26", "title": "Memory tags partition the address space and are recoverable from any interior pointer", "statement": "For every allocation granted by the system layer for any tag, size and alignment and every kernel placement, all bytes of it carry the requested tag, ranges granted at different times are disjoint, hugepage-aligned and at least as large as requested, and classification predicates (normal/cold/sampled, partition) depend only on that tag.", "quantifier": "all sizes, alignments, tags, kernel replies and histories", "why_tests_cant": "Kernel placement decisions and wraparound at 2^42/2^48 boundaries.", "anchors": ["tcmalloc/internal/system_allocator.h: Allocate, AllocateFromRegion, MmapAlignedLocked, RandomMmapHint, MmapRegion::Alloc", "tcmalloc/internal/memory_tag.h"]}
{"id": "C27", "title": "Metadata arena hands out disjoint aligned blocks and its statistics are exact", "statement": "For every sequence of metadata allocations with any size and alignment, blocks are aligned, pairwise disjoint and inside memory obtained from the system; allocated + unallocated + unavailable bytes equal the bytes obtained.", "quantifier": "all request sequences", "why_tests_cant": "Free-list splitting with alignment leftovers depends on unbounded histories.", "anchors": ["tcmalloc/arena.h", "tcmalloc/arena.cc: Alloc, AllocSlow, TryPopFromFreelist, StashRemainingFreeArea", "tcmalloc/metadata_object_allocator.h"]}
{"id": "C28", "title": "Allocation sampling accounts for every byte", "statement": "For every sequence of allocation sizes and every sequence of sampling intervals, the sampling countdown neither skips nor double counts bytes: the sum of the weights recorded, plus the bytes counted since the last sampling point was drawn, equals the bytes allocated (each request counted as size+1) plus, over the sampling points already passed, the difference between the sampling interval and the gap drawn for it (which has mean zero); an allocation is sampled exactly when it reaches the drawn point; with interval 1 every allocation is sampled with weight size+1; with sampling off none is.", "quantifier": "all size sequences and drawn sampling points", "why_tests_cant": "Unbounded sequences; sign/wrap behaviour at extreme sizes.", "anchors": ["tcmalloc/sampler.h: TryRecordAllocationFast, RecordedAllocationFast, WillRecordAllocation", "tcmalloc/sampler.cc: RecordAllocationSlow, PickNextSamplingPoint"]}
{"id": "C29", "title": "Guarded sampling places allocations inside their own page and detects overflow bytes", "statement": "For every schedule of guarded allocations, frees (also repeated or late ones) and accesses: each guarded allocation lies within a page of its own between inaccessible pages, is aligned as asked and as its size demands, and all its bytes are accessible; no other byte of the pool is accessible except on pages of running calls; of several frees of one object only the first gets through; a free returns only for the original pointer and if none of the (up to 32) magic bytes after the object was found changed, and such a byte changes only if the program writes it; allocation is refused only when the limit is reached; a fault is attributed to the nearest object page with the right kind of error.", "quantifier": "all schedules, slots, sizes, alignments, contents", "why_tests_cant": "Address arithmetic for all combinations; double-free detection across threads.", "anchors": ["tcmalloc/guarded_page_allocator.cc: Allocate, Deallocate, MaybeRightAlign, WriteOverflowOccurred, GetFreeSlot, FreeSlot, GetNearestSlot, AddrToSlot, SlotToAddr"]}
{"id": "C30", "title": "Hook registration is linearizable for lock-free readers", "statement": "For every interleaving of a traversal with additions and removals, a traversal reports only hooks that were registered at some moment during it, reports every hook that was registered throughout (and not registered a second time in between), and never more than the list holds; with no writer active it reports exactly the registered hooks. Addition is refused exactly for a null hook or seven registered ones, removal exactly for a hook that is not registered.", "quantifier": "all schedules of one reader with any number of writers", "why_tests_cant": "Readers take no lock; all interleavings of loads and stores.", "anchors": ["tcmalloc/internal/hook_list.h: HookList::Add, Remove, Traverse"]}
{"id": "C31", "title": "Memory limit enforcement", "statement": "For every soft/hard limit and heap state: when usage is at or below the limit nothing is released; when over it, the amount requested to be released covers the overage; the process is terminated only if a hard limit cannot be met after releasing everything releasable, including breaking up hugepages; the soft limit never exceeds the hard limit.", "quantifier": "all limits, usage figures and release outcomes", "why_tests_cant": "Unbounded combinations of usage, limits and release shortfalls.", "anchors": ["tcmalloc/page_allocator.cc: ShrinkToUsageLimit, ShrinkHardBy, set_limit, ReleaseAtLeastNPages"]}
{"id": "C32", "title": "Large-region allocator conserves pages and backing state", "statement": "For every history of page gets, puts and releases in a 1 GiB region with any OS outcome: live runs are disjoint, backed/unbacked hugepage counts and free-backed statistics are exact, an allocation is reported as needing fresh backing iff it touches an unbacked hugepage, and a hugepage is unbacked only if no live run touches it.", "quantifier": "all histories and OS outcomes", "why_tests_cant": "131072 pages and 512 hugepages of state.", "anchors": ["tcmalloc/huge_region.h: HugeRegion::MaybeGet, Put, Release, Inc, Dec, UnbackHugepages"]}
{"id": "C33", "title": "Hugepage filler list discipline and page accounting", "statement": "For every history of page allocations, frees, donations and subreleases: each hugepage tracker with a free page is on exactly one list, at the index computed from its current occupancy; used, free and unmapped totals equal the sums over trackers; runs held never overlap; an allocation fails only if no hugepage has a free run long enough; a release reports exactly the pages it released, emptiest hugepages first, and leaves nothing unreleased if it returns less than asked and the OS refuses nothing.", "quantifier": "all histories", "why_tests_cant": "Lists are intrusive and indices recomputed around each mutation; drift shows only after long histories.", "anchors": ["tcmalloc/huge_page_filler.h: TryGet, Put, Contribute, AddToFillerList, RemoveFromFillerList, ReleasePages", "tcmalloc/hinted_tracker_lists.h"]}
{"id": "C34", "title": "Stack-trace filter never forgets a live trace", "statement": "For every sequence of additions and removals, in any thread interleaving, a stack trace whose completed additions exceed its started removals (with the counters below their wrap-around) is reported as contained by the counting filter; when all additions are undone nothing is contained; in the decaying filter no decay is lost or applied twice.", "quantifier": "all histories, all hash functions, all interleavings", "why_tests_cant": "Hash collisions and unbounded histories.", "anchors": ["tcmalloc/internal/stacktrace_filter.h: StackTraceFilter::Add, Contains, DecayingStackTraceFilter"]}
{"id": "C35", "title": "CPU list parsing is independent of read chunking", "statement": "For every well-formed kernel CPU list and every way the kernel may split it into reads, the parser returns exactly the listed CPUs; for every input at all the result does not depend on the splitting; entries that are not numbers or are out of range are rejected rather than misread.", "quantifier": "all CPU lists, all chunkings", "why_tests_cant": "Exponentially many chunkings of unbounded inputs through a 16-byte buffer.", "anchors": ["tcmalloc/internal/sysinfo.cc: ParseCpulist"]}
{"id": "C36", "title": "Sampled-allocation registry reports exactly the live samples", "statement": "For every interleaving of register, unregister and iterate operations, an iteration visits each sample that is live throughout it exactly once, never visits one that is dead throughout, and no sample twice; no sample is handed out while it is live, and a new one is made only when every existing one is live or being registered; unregistering all leaves none of the samples that were live at its start.", "quantifier": "all schedules", "why_tests_cant": "Lock-free push with intrusive lists, unbounded reuse.", "anchors": ["tcmalloc/internal/sampled_allocation_recorder.h: Register, Unregister, Iterate, PushDead, PopDead, UnregisterAll"]}
{"id": "C37", "title": "Time-series epoch arithmetic and window coverage", "statement": "For every clock value the multiplication-based epoch number equals the true quotient of time by epoch length, and for every sequence of reports (including clock regressions) the tracker's covered time equals the sum of its slots' gaps and never underflows; each slot holds exactly the values reported in its epoch, every value reported in the covered time is in a slot, and iterating over a window visits exactly the slots of that window.", "quantifier": "all 63-bit clock values, all epoch lengths, all report sequences", "why_tests_cant": "2^63 clock values.", "anchors": ["tcmalloc/internal/timeseries_tracker.h: GetCurrentEpoch, UpdateClock, Report, IterBackwards"]}
{"id": "C38", "title": "End-to-end: live heap objects never overlap", "statement": "For every history of malloc/free style operations through the per-CPU cache, transfer cache, central free list, spans and page heap, any two live objects occupy disjoint byte ranges, each of at least the requested size and alignment, and freed memory remains available for reuse (nothing is leaked by the tiers).", "quantifier": "all histories and placements of objects across tiers", "why_tests_cant": "The composition of all tiers over unbounded histories.", "anchors": ["tcmalloc/tcmalloc.cc: fast_alloc, do_free", "tcmalloc/cpu_cache.h: Allocate, Deallocate, Refill, ReleaseToBackingCache", "tcmalloc/transfer_cache_internals.h", "tcmalloc/central_freelist.h", "tcmalloc/span.h", "tcmalloc/huge_page_aware_allocator.h"]}
{"id": "C39", "title": "Reclaimed-size reporting and page-heap statistics add up", "statement": "For every history, the page heap's reported system bytes are exactly what the system granted, and equal free bytes plus unmapped bytes plus bytes in live ranges plus hugepages in transit (waiting for memory, being unbacked, or queued to leave the filler; none between operations). A release call never fails a check, leaves system and live memory alone, and reports exactly what unmapped grew by plus what background work unmapped without reporting it; with a willing system it releases at least what was asked for while cached hugepages last (the breaking variant: until nothing releasable is left). The counters of small ranges, slack, donated and abandoned pages equal the sums over the live ranges and hugepages they describe. (The literal claims that a release reports exactly what it returned itself, and that unmapped counts only what the system took, are refuted.)", "quantifier": "all histories and OS outcomes", "why_tests_cant": "Drift only appears after long mixed histories with failures.", "anchors": ["tcmalloc/huge_page_aware_allocator.h: stats, ReleaseAtLeastNPages", "tcmalloc/huge_page_filler.h", "tcmalloc/huge_cache.cc", "tcmalloc/huge_region.h"]}
{"id": "C40", "title": "Linked free lists preserve contents", "statement": "For every sequence of pushes, pops, batch pushes and batch pops on the intrusive lists used by the thread and central caches, the list behaves as a LIFO sequence and the stored length is exact.", "quantifier": "all operation sequences", "why_tests_cant": "Pointer manipulation over unbounded histories.", "anchors": ["tcmalloc/internal/linked_list.h: LinkedList, TList"]}
{"id": "C41", "title": "Redistributing the maximum capacities of the size classes is safe", "statement": "For every distribution of misses over the size classes and every earlier redistribution, the new maximum capacities of the per-CPU caches add up to the same total, no class falls below a batch by it, no class is changed twice, and slabs of every allowed size can still be laid out with them.", "quantifier": "all miss counts, all histories of redistributions, all slab sizes", "why_tests_cant": "Repeated redistribution reaches distributions that no test configures.", "anchors": ["tcmalloc/cpu_cache.h: GetUpdatedMaxCapacities, GetShiftMaxCapacity, UpdateMaxCapacity, ResizeSizeClassMaxCapacities", "tcmalloc/internal/percpu_tcmalloc.h: InitSlabs, InitCpuImpl, UpdateMaxCapacities"]}
{"id": "C42", "title": "Giving memory back to the system touches only whole pages of the range", "statement": "For every range and every reply of the kernel, a release passes to the kernel only the whole system pages contained in the range, all of them at once, and makes no call if there are none; it uses only the kinds of advice that the configured preference allows; it reports success only if the kernel accepted one of the calls; the error counter grows by one exactly when the kernel was asked and the release failed.", "quantifier": "all ranges, page sizes, preferences and kernel replies", "why_tests_cant": "Unaligned ranges near the ends of the address space and combinations of madvise failures cannot all be provoked.", "anchors": ["tcmalloc/internal/system_allocator.h: Release, ReleasePages"]}
{"id": "C43", "title": "Per-thread caches lose no object and share out their space exactly", "statement": "When per-CPU caches are not in use, every thread has its own cache.  In every history, the objects of a size class that were freed or fetched from the shared cache are exactly those that were allocated, those returned to the shared cache and those still in thread caches; an allocation fails only if the thread's cache has no object and the shared cache gave none; every exchange with the shared cache is for one object at least and one batch at most; the limits of all caches and the unclaimed space add up to the overall size; the reported numbers of cached objects and bytes are exact; a thread that exits leaves nothing behind; no list grows beyond 8192 objects.", "quantifier": "all histories of allocations, frees, thread starts and exits, scavenges and changes of the overall size, by any number of threads", "why_tests_cant": "The adaptive limits depend on the whole history, and taking space from other threads on the order in which threads come and go.", "anchors": ["tcmalloc/thread_cache.h: ThreadCache, FreeList", "tcmalloc/thread_cache.cc: FetchFromTransferCache, ListTooLong, ReleaseToTransferCache, Scavenge, IncreaseCacheLimitLocked, DeleteCache, RecomputePerThreadCacheSize"]}
{"id": "C44", "title": "malloc and free return in bounded time through every tier, and lose no object on any path", "statement": "Whatever threads, CPU migrations and background work (draining and shrinking a CPU's cache, plundering and resizing the shared caches) do in between: a malloc returns an object that nobody has, or null and then only because the page heap refused memory during this call; a free loses nothing; when no call is in progress every object is either live or in a cache; a malloc or free returns after a fixed number of its own steps; no batch exceeds the limits that the callees check; while a CPU is being drained its cache is not touched by other threads, and it is started again when the drain ends.", "quantifier": "all schedules of any number of threads, CPUs and shared caches, all histories, all answers of the page heap", "why_tests_cant": "An object is lost only if a thread is moved to another CPU, or a CPU is stopped, between two particular steps of a slow path while the caches below are just full or empty.", "anchors": ["tcmalloc/cpu_cache.h: AllocateSlowNoHooks, Refill, DeallocateSlowNoHooks, DrainHandler, ShrinkOtherCache", "tcmalloc/transfer_cache.h: Pop, Push, RemoveRange, InsertRange, BackingTransferCache", "tcmalloc/transfer_cache_internals.h: InsertRange, RemoveRange, TryPlunder, ShrinkCache"]}
{"id": "C45", "title": "Heap, allocation, lifetime and peak profiles report exactly the sampled objects they should, whatever runs concurrently", "statement": "With any number of threads allocating and freeing sampled objects while profiles are taken: every sampled object has its own handle; when no call is in progress the sampled size, the fragmentation estimate and the sample count are exactly the sums over the objects the program has, and the fragmentation counter never wraps around; a heap profile contains every sampled object that was live for its whole duration, nothing freed before it began, and nothing twice; an allocation profile contains exactly once every sampled malloc that began and returned between Start and Stop and nothing that returned before Start; a lifetime profile has exactly one record for every sampled free that completed between Start and Stop, never reports an object allocated after Start (or live throughout Start) without its allocation, and lists exactly once the objects not yet freed; a saved peak profile contains the allocation that made the peak; no call blocks for ever. Without concurrency the recorded peak never falls, covers every past heap size up to the growth fraction, and its profile adds up to it. (With concurrency the last point is false: a race can replace the peak by a smaller one.)", "quantifier": "all numbers of threads, all interleavings of sampled allocations, frees, profile starts, stops and dumps, all sample weights and sizes", "why_tests_cant": "The four profilers share counters, lists and two locks with every sampled malloc and free; the windows between reporting an allocation, registering it and counting it are a few instructions wide, and tests cannot enumerate the interleavings in which a record could be lost, doubled or counted twice.", "anchors": ["tcmalloc/allocation_sampling.h: SampleifyAllocation, MaybeUnsampleAllocation", "tcmalloc/allocation_sampling.cc: DumpHeapProfile", "tcmalloc/peak_heap_tracker.cc: MaybeSaveSample, IsNewPeak, DumpSample", "tcmalloc/allocation_sample.h: AllocationSampleList", "tcmalloc/allocation_sample.cc: AllocationSample::Stop", "tcmalloc/deallocation_profiler.cc: DeallocationProfiler, DeallocationProfilerList", "tcmalloc/span.cc: Span::Sample, Span::Unsample"]}
{"id": "C46", "title": "The statistics account for every byte, and the reported bytes in use are exactly those of the live objects", "statement": "In every reachable state of the whole allocator the numbers it reports balance: the bytes taken from the system are exactly the free bytes and the unmapped bytes of the page heap, the bytes of the central free lists, transfer caches and per-CPU caches, the usable bytes of the live objects, and the bytes in the hands of calls in progress. The reported bytes in use by the program (generic.current_allocated_bytes) are never less than the usable bytes of the live objects, and when no call is in progress they are exactly equal, for every shipped table of size classes. The physical memory reported is the bytes in use plus all cached and free bytes and metadata. The number of objects reported for a size class in the caches is exactly the number of its objects that are neither live nor in the hands of a call.", "quantifier": "all configurations, size-class tables, parameters, request sequences and interleavings of the whole allocator; all reachable states", "why_tests_cant": "The numbers are sums of counters kept by six components and updated at different moments; tests can compare them only after a few histories, and not while other threads move objects between the tiers.", "anchors": ["tcmalloc/global_stats.cc: ExtractStats, InUseByApp, VirtualMemoryUsed, UnmappedBytes, PhysicalMemoryUsed, RequiredBytes, ExternalBytes, HeapSizeBytes, LocalBytes, SlackBytes", "tcmalloc/cpu_cache.h: UsedBytes, TotalUsedBytes, GetSnapshot", "tcmalloc/central_freelist.h: length, OverheadBytes", "tcmalloc/transfer_cache.h: tc_length, GetStats", "tcmalloc/page_allocator.h: stats"]}
{"id": "C47", "title": "Reported residency, swap, staleness and lock figures are exact to the byte for every range", "statement": "For every range of bytes, of any alignment and size, and every state of the process's page tables: the number of resident bytes and of swapped bytes reported for the range (for heap profiles and statistics) is exactly the number of its bytes on resident and swapped pages, and the bitmap says exactly which of its first 512 pages are resident; the stale and locked bytes reported are exactly its bytes on stale and locked pages, where a page of a transparent hugepage counts as the hugepage's head, with small pages and transparent hugepages in any order; the per-hugepage bitmaps of unbacked, swapped and stale pages are exact; the mincore-based count is exact and never reads a byte the kernel has not written. If the kernel's files cannot be read the query reports failure (the mincore-based one 0) rather than a wrong number; it always reports a number if they can be read. IsHugepageBacked answers yes only for hugepages.", "quantifier": "all addresses and sizes below the end of the address space, all hardware page sizes from 4 KiB to 2 MiB, all contents of pagemap and pageflags, all read failures", "why_tests_cant": "Ranges straddle pages, buffers of 512 entries, arrays of 4096 entries and hugepages at arbitrary offsets, and first and last pages count partially; tests try a few offsets of a few fake files.", "anchors": ["tcmalloc/internal/residency.cc: ResidencyPageMap::Get, ReadMany, ReadOne, Update, GetUnbackedAndSwappedBitmaps", "tcmalloc/internal/pageflags.cc: PageFlags::Get, MaybeReadOne, ReadMany, GetSinglePageBitmaps, IsHugepageBacked", "tcmalloc/internal/mincore.cc: MInCore::residence_impl"]}
{"id": "C48", "title": "Releasing memory on request reports soundly and forgets no byte asked for", "statement": "For every sequence of ReleaseMemoryToSystem(n) calls (and background releases), with anything happening to the heap in between and for every answer of the page heaps: each call asks all page heaps, in order, for exactly the pages that cover n less what the previous call gave back in excess, each for what is still missing; the value returned is at most n and at most what the memory in use has become less by, and is all of it if nothing was given back in excess before; over any history the bytes asked for are at most those given back plus those the page heaps were asked for and did not give back. malloc_trim asks every page heap for 0 pages and always returns 0, even if memory was given back (the man page says 1 then).", "quantifier": "all sequences of requests of all sizes, all configurations of page heaps, all answers of the page heaps, all interleaved activity", "why_tests_cant": "The excess carried from call to call depends on the whole history and on what spans happen to be free; tests make a few calls on one heap state.", "anchors": ["tcmalloc/static_vars.h: ConstantRatePageAllocatorReleaser::Release", "tcmalloc/tcmalloc.cc: MallocExtension_Internal_ReleaseMemoryToSystem, do_malloc_trim", "tcmalloc/page_allocator.h: PageAllocator::ReleaseAtLeastNPages"]}
{"id": "C49", "title": "Periodic releases give memory back at a constant rate", "statement": "Over any sequence of periodic release requests, the bytes given back exceed the bytes asked for by at most what one request gave back: excess is credited to later requests, so that the memory is released at the rate asked for.", "quantifier": "all sequences of requests of all sizes, all answers of the page heaps", "why_tests_cant": "The credit has to be right over the whole history, whatever excess each call produced.", "anchors": ["tcmalloc/static_vars.h: ConstantRatePageAllocatorReleaser::Release"]}
{"id": "C50", "title": "Background maintenance runs every action in its period, in order, at the configured release rate", "statement": "For every history of ProcessBackgroundActions, with any sleep intervals, clock readings and switches that change between iterations: two runs of an action are at least its period apart (if the clock does not go back); an iteration that has the action switched on performs it unless it was performed, or the loop started, less than a period ago; nothing switched off is done, nothing is done twice in an iteration, and an iteration works from the outermost caches to the page heap; the bytes asked to be released never exceed rate times elapsed time and are behind by less than a byte per iteration; an amount is never negative or above the largest ssize_t, and is zero if the clock was set back.", "quantifier": "all histories of iterations, all clocks, sleep intervals, release rates and switches", "why_tests_cant": "Periods are measured against timestamps that are only updated when an action runs, while intervals and switches change; tests run the loop for a few seconds.", "anchors": ["tcmalloc/background.cc: MallocExtension_Internal_ProcessBackgroundActions"]}
{"id": "C51", "title": "Statistics printed into a buffer never overrun it, and what is returned is the whole text or nothing", "statement": "For every buffer size and every sequence of prints: nothing outside the buffer is written, even if formatting fails half-way; the space reported as required is the length of the whole text whether it fits or not; a text shorter than the buffer is in it unchanged; otherwise the buffer starts with a prefix of the text, followed by at most a NUL, and the rest is untouched (always NUL-terminated if only printf-style printing is used; not necessarily otherwise). The statistics functions report a length below the buffer's exactly if everything, including the text of the region factory, fits; MallocExtension::GetStats returns the whole text or, if it is longer than 8 MiB, nothing; malloc_stats writes exactly the first 64 KiB - 1 bytes and never reads past its buffer.", "quantifier": "all buffer sizes, all sequences and contents of prints, all points of truncation and formatting failures", "why_tests_cant": "Truncation can happen at every byte of every print, and three printers with different truncation rules share a buffer; tests try a few sizes.", "anchors": ["tcmalloc/internal/logging.h: Printer::printf, Printer::Append, SpaceRequired", "tcmalloc/tcmalloc.cc: TCMalloc_Internal_GetStats, MallocExtension_Internal_GetStats, MallocExtension_Internal_GetStatsInPbtxt, PrintStats", "tcmalloc/internal/system_allocator.h: MmapRegionFactory::GetStats"]}
{"id": "C52", "title": "Memory that recent demand will need is not released", "statement": "For every history of demand reports and every state of the allocator, a partial release of hugepages either releases nothing or leaves the backed pages no more than one hugepage below what the recent past requires. With a peak interval set the requirement is exactly the largest demand reported in the epochs of the interval (never less than the pages in use); with the short and long intervals it is exactly the largest swing within an epoch of the short one plus the largest minimum of an epoch of the long one, capped by the recent peak. The reported realized fragmentation and minimum of free pages are exact over their interval.", "quantifier": "all histories of reports and clock readings (gaps, wrap-around of the window, clock going backwards), all intervals, all filler states and release amounts", "why_tests_cant": "The window is a ring of aggregates with gaps between epochs; tests use a fake clock with a handful of reports, and cannot cover all histories or all interval lengths.", "anchors": ["tcmalloc/huge_page_subrelease.h: SubreleaseStatsTracker, GetRecentPeak, GetRecentDemand, CalculateCombinedDemandTrend, RealizedFragmentation", "tcmalloc/huge_page_filler.h: GetDesiredSubreleasePages, UpdateFillerStatsTracker"]}
{"id": "C53", "title": "The statistics of skipped releases count every decision once, and as correct only if demand came back", "statement": "For every history, the decisions reported as correct, as pending and as neither are disjoint, the totals are exactly theirs, and a decision is counted as correct only if demand reached its level again afterwards.", "quantifier": "all histories of demand reports and skipped releases, with all clock readings including regressions", "why_tests_cant": "Double counting depends on which earlier peaks fall in which epochs of the window and on clock readings by two trackers; tests script a few sequences.", "anchors": ["tcmalloc/huge_page_subrelease.h: SkippedSubreleaseCorrectnessTracker, ReportSkippedSubreleasePages, ReportUpdatedPeak, SubreleaseStatsTracker::Report"]}
{"id": "C54", "title": "Background treatment of hugepages never touches one that is gone, nor releases pages under the kernel's feet", "statement": "For every schedule of allocations, frees and releases by other threads around the background passes that look at hugepages, collapse them and break them up: no internal check fails; a hugepage a pass refers to is not given back to the system until the pass is over, and then each one emptied meanwhile is given back exactly once; while the kernel collapses a hugepage none of its pages is released. A pass chooses at most 64 hugepages that are due, preferring those with more objects; it releases only free pages of hugepages found to be broken, and the pages it reports as released are exactly those.", "quantifier": "all histories of page allocations, frees, releases and treatment passes, all interleavings of other threads with the unlocked part of a pass, all answers of the kernel", "why_tests_cant": "The lock is dropped for the system calls, so every other operation can happen at that point; tests use a fake that does nothing meanwhile, and 64 is a boundary of the selection heap only large heaps reach.", "anchors": ["tcmalloc/huge_page_treatment.h: SampledTrackerTreatment, HugePageUnbackedTrackerTreatment", "tcmalloc/huge_page_filler.h: TreatHugepageTrackers, FetchFullyFreedTracker", "tcmalloc/huge_page_tracker.h: Collapse, BeingCollapsed, DontFreeTracker"]}
{"id": "C55", "title": "Collapse attempts follow the documented limits and are reported exactly", "statement": "For every history: a pass tries to collapse exactly the hugepages found not backed, with fewer than 128 swapped and 64 unbacked pages (unless unfiltered), until one attempt takes longer than the limit; after a slow pass the following ones are skipped, for 1, 3, 7, ... up to 127 passes, and the wait shrinks again after fast ones; the reported attempts, successes, errors by kind, total and longest times, eligible hugepages and skipped passes are exactly those of the passes that are over.", "quantifier": "all histories of passes, all latencies, all results and errors of the kernel", "why_tests_cant": "The delay depends on the whole history of latencies and of requests; tests check a handful of sequences.", "anchors": ["tcmalloc/huge_page_treatment.h: Treat, TryUserspaceCollapse, UpdateCollapseErrorStats", "tcmalloc/huge_page_filler.h: ShouldBackoffFromCollapse, UpdateMaxBackoffDelay"]}
{"id": "C56", "title": "A page counted as released holds no memory", "statement": "Every page that the statistics count as released was given to the OS, or found to be without memory, after the application last had it.", "quantifier": "all histories of allocations, frees and treatment passes, all interleavings", "why_tests_cant": "The window is between looking at the hugepage without the lock and recording what was found; no test runs an allocation and a free in it.", "anchors": ["tcmalloc/huge_page_treatment.h: Restore", "tcmalloc/huge_page_filler.h: HandleUnbackedHugePage"]}
{"id": "C57", "title": "A profile converted to profile.proto says exactly what the profile says", "statement": "For every profile, whatever its samples, mappings and the answers of the kernel about residency, and in whatever order merged samples are visited: reading the converted profile back through its string, location and mapping tables gives, for each distinct combination of stack and attributes among the samples, exactly one sample with that stack, those attributes and the sums of count, bytes and resident, swapped, stale and locked bytes of the samples that have them, so that columns add up to the totals; samples can be told apart by stack and labels; tables hold no duplicates and no dangling ids; a location names a mapping only if it lies in it, and does so if the mappings are disjoint and non-empty. Lifetime and event-trace profiles have one sample per entry, with allocations, deallocations and censored allocations in separate columns.", "quantifier": "all profiles: all lists of samples, stacks up to 64 frames, attributes, mappings, kernel answers and orders of visit", "why_tests_cant": "The ids are shared by all samples, so a slip in interning or merging shows only for particular combinations of samples; tests compare a few fixed profiles.", "anchors": ["tcmalloc/internal/profile_builder.cc: MakeProfileProto, MakeLifetimeProfileProto, MergeProfileSamplesAndMaybeGetResidencyInfo, InternString, InternLocation, InternCallstack, AddMapping, AddCommonSampleTags"]}
{"id": "C58", "title": "Looking up a binary's build id never reads outside its note segments and finds the right id", "statement": "Whatever bytes and alignments the note segments of a loaded binary have, however corrupt, the search for its build id reads only bytes of those segments and ends. If the segments are sequences of notes, the result is the descriptor of the binary's build-id note, and empty if there is none or more than one.", "quantifier": "all lists of segments, all their contents and alignments", "why_tests_cant": "Sizes in a note are 32-bit numbers read from the file and are added and rounded with wrap-around, so bad combinations are a vanishing part of the inputs; tests use a few hand-made segments.", "anchors": ["tcmalloc/internal/profile_builder.cc: GetBuildId"]}
{"id": "C59", "title": "The NUMA partition and the L3 cache of every CPU are those the system describes", "statement": "However the reads of the system's description files are split and whatever CPUs each node has: a CPU's memory comes from the partition that is its node's number modulo the number of partitions; CPUs of no node and threads without a known CPU use partition 0; NUMA awareness is on exactly if it was asked for and a node outside partition 0 has a CPU. Two CPUs get the same L3 index exactly if they share their L3 cache. Whatever the files contain, no CPU gets a partition that does not exist or is not active.", "quantifier": "all machines of up to 31 nodes and 256 L3 caches, all contents of the files, all splittings of reads, all settings of TCMALLOC_NUMA_AWARE", "why_tests_cant": "Tests run on the topology of the machine they run on, or a handful of made-up ones; the property is about all machines.", "anchors": ["tcmalloc/internal/numa.cc: InitNumaTopology", "tcmalloc/internal/numa.h: NumaTopology", "tcmalloc/internal/cache_topology.cc: CacheTopology::Init"]}
{"id": "C60", "title": "Interrupted and short reads and writes lose and repeat nothing; process memory statistics are those of the status file", "statement": "Whatever signals, short transfers and errors occur, the signal-safe read stores exactly the next bytes of the file and returns their number, returns 0 only at the end of the file, and fails only if a system call really failed; the signal-safe write passes a prefix of the buffer once and in order. Copying memory that may be unmapped succeeds exactly if all of it is mapped. The memory statistics of the process do not depend on how the reads of its status file are split or interrupted and are the values of its fields.", "quantifier": "all files, all buffers and counts, all sequences of interruptions, short transfers and failures, all status files with lines below 1024 bytes", "why_tests_cant": "The number of interleavings of interruptions and short reads is unbounded, and a test cannot make the kernel produce them.", "anchors": ["tcmalloc/internal/util.cc: signal_safe_read, signal_safe_write, signal_safe_poll, SafeCopyMemory", "tcmalloc/internal/memory_stats.cc: GetMemoryStats, GetMemoryStatsFromStatus"]}
{"id": "C61", "title": "Iterating over the memory map returns every mapping once and in order", "statement": "However the reads of the memory map file are split and whatever signals interrupt them, successive calls of the iterator return the mappings of the file, each once, in order and with the fields of its line, and then false; lines that are not mappings are skipped; every call ends, even if reads fail.", "quantifier": "all files whose lines are below 5119 bytes, all sizes of reads and interruptions, all numbers of calls", "why_tests_cant": "A line may straddle any boundary of the buffer and of any read; there are unboundedly many ways to split the file.", "anchors": ["tcmalloc/internal/proc_maps.cc: ProcMapsIterator::NextExt", "tcmalloc/internal/proc_maps.h: Buffer", "tcmalloc/internal/util.h: TCMALLOC_RETRY_ON_TEMP_FAILURE"]}
{"id": "C62", "title": "Experiments are active exactly as the environment asks", "statement": "If BORG_EXPERIMENTS or BORG_DISABLE_EXPERIMENTS is set, or no test runs, an experiment is active exactly if the first variable asks for it (by its name among the labels separated by commas, or by asking for all) and the second does not refuse it (by its name or by the word all); BORG_DISABLE_EXPERIMENTS=all turns every experiment off. In a test that sets neither no brittle experiment is active. The properties list every experiment once with its state, and a name is found exactly if it is one of the table.", "quantifier": "all environments, all strings, all tables of experiments with distinct names and numbers, all hashes", "why_tests_cant": "The strings and environments are unbounded; tests try a few lists.", "anchors": ["tcmalloc/experiment.cc: SelectExperiments, ParseExperiments, GetSelectedExperiments, IsExperimentActive, FindExperimentByName, WalkExperiments", "tcmalloc/experiment_config.h: experiments", "tcmalloc/internal/environment.cc: thread_safe_getenv"]}
{"id": "C63", "title": "The estimate of zero bytes rests on the first resident bytes of the object", "statement": "For every object, every record of which of its pages are resident and every size of the local copy, the bytes sampled are the first resident bytes of the object in order, as many as fit, and an error is reported exactly if one of them cannot be read. The zero bytes reported are at least the bytes that are neither resident nor swapped and at most the size; they are the former if the sample has no zero byte and the latter if it has only zero bytes; more zero bytes in the sample never lower them.", "quantifier": "all addresses, sizes, page sizes, residency bitmaps, capacities and memory contents", "why_tests_cant": "Runs of resident pages, unaligned ends and capacities combine without bound; tests use a few layouts.", "anchors": ["tcmalloc/internal/compressibility.cc: CopyResidentPages, EstimateZeroBytes, CompressionAnalyzer::Analyze", "tcmalloc/internal/range_tracker.h: Bitmap::FindSet, FindClear"]}
{"id": "C64", "title": "Guarded sampling keeps to its rate", "statement": "For every schedule of any number T of threads that sample, guard and free allocations, with any failures of the system: the number of allocations ever guarded, less T, times the guarded sampling interval never exceeds the number of allocations sampled times the profile sampling interval, and no more guarded allocations are alive than the pool is to hold. No allocation larger than a page is guarded, none is when the interval is negative, one is filtered only if its stack is covered and every covered one is once half the pool is in use. A thread alone that samples uncovered allocations has at least 10 P in 10 G + P of them guarded, and all of them if G is at most P.", "quantifier": "all interleavings of all numbers of threads, all histories, all intervals, all random numbers", "why_tests_cant": "The check and the count are not one step, so the excess depends on the schedule; tests see a few.", "anchors": ["tcmalloc/guarded_page_allocator.cc: TrySample, ReserveFreeSlot, Allocate", "tcmalloc/span.cc: Span::Sample"]}
{"id": "C65", "title": "Reports of memory errors say what happened, and signals reach the program", "statement": "After any earlier reports, what a crash handler reads is what the last report was given: the kind, the pointer, the sizes, alignments and types, and the innermost 64 frames of each stack it was given; the first report reads no stack or alignment it was not given. The alignment reported of a pointer that 2^32 does not divide is the largest power of two that divides it, so a pointer less aligned than expected is reported with less. A wrong sized delete reports the requested size up to the size the program was told. In every history, a fault near a guarded object in use is reported as underflow or overflow, read or write, with its offset and the object's size, none inside it is, and one at a freed object is reported as use after free. However often guarded sampling is activated among the program's calls of sigaction, the program sees each signal as if it never were, except for a fault whose signal it ignores.", "quantifier": "all sequences of reports, all pointers, all histories of the guarded pool, all faulting addresses and error codes, all interleavings of activation and sigaction", "why_tests_cant": "A test triggers one error in one state; most reports end the process.", "anchors": ["tcmalloc/internal/gwp_asan_state.h: GwpAsanState", "tcmalloc/error_reporting.cc: ReportMismatchedDelete, ReportCorruptedFree", "tcmalloc/segv_handler.cc: SegvHandler, ForwardSignal, MallocExtension_Internal_ActivateGuardedSampling"]}
{"id": "C66", "title": "Allocation hooks are told of each allocation and free, in order and as often as they are registered", "statement": "For every schedule of any number of threads that allocate, free, reallocate, and add and remove hooks: from the return of a thread's call that adds a hook until no hook is left, every malloc, free and realloc of that thread is announced; those of another thread are from the first time it leaves the fast path; and all of them are from the start of the program to the first moment without hooks. An announcement calls each hook as often as it is registered at that moment, except that the first allocation of all is announced twice to hooks added before it. No object is announced as allocated twice without being announced as freed in between, nor freed twice, and when no call is under way the objects the events say are in use are those in use.", "quantifier": "all interleavings of all numbers of threads, all histories of hooks, objects and rescheduling", "why_tests_cant": "Whether a thread is on the fast path depends on the schedule; a test has one thread or few, and the first allocation is long past.", "anchors": ["tcmalloc/malloc_hook.cc: AddNewHook, RemoveNewHook, InitialNewHook", "tcmalloc/tcmalloc.cc: slow_alloc_small, alloc_small_sampled_hooks_or_perthread, slow_alloc_large, FreeSmallSlow, FreeWithHooksOrPerThread, InvokeHooksAndFreePages, do_realloc, MallocHook_HooksChanged", "tcmalloc/cpu_cache.h: AllocateSlow, DeallocateSlow, MaybeForceSlowPath"]}
{"id": "C67", "title": "The figures of a profile are the nearest whole objects and account for all that was allocated", "statement": "For every sampled object the bytes a profile gives are its count times the size of the object, and no multiple of that size is nearer to the estimate weight * allocated / (requested + 1). Every trace is listed exactly once, newest first, with its own sizes, attributes and stack. With a sampling interval of 1 a profile is exact: each allocation is in it as one object of the size it got. For any number of allocations of one size, any intervals and any sampling points, the bytes in the profile are those allocated, up to the luck of the draws (whose mean is zero), the bytes since the last draw and half an object for each sample; this rounding does not even out.", "quantifier": "all traces, all histories of allocations, all sequences of sampling intervals and sampling points", "why_tests_cant": "A test compares a profile of a few sizes with a tolerance of many percent; a systematic error in rounding or weighting within it goes unseen.", "anchors": ["tcmalloc/stack_trace_table.cc: AddTrace, Iterate", "tcmalloc/sampler.cc: AllocatedBytes, RecordAllocationSlow"]}
{"id": "C68", "title": "Hooks are passed the sizes that let them keep exact books", "statement": "With hooks installed throughout, after any history of allocations, frees, sized frees and reallocs, the allocated size last announced for an address and not announced as freed since is the usable size of the object there, and addresses not so announced hold no object. Each Delete announcement passes the allocated size its New announcement passed; each New announcement is of a non-null address not in use, with a requested size no larger than the allocated one. The total of the announced sizes is that of the usable sizes of the objects in use. A successful allocation announces the size asked for (a size-returning one the size returned), a free the size the caller passed, and a successful realloc one Delete and one New with the sizes before and after; a failed call announces nothing. This includes sampled and guarded objects, size-returning calls and reallocs that keep the object in place.", "quantifier": "all histories of calls, all sizes and policies, all outcomes of each allocation (plain, sampled, guarded, out of memory)", "why_tests_cant": "Tests check the sizes of a few plain calls; books drift only in combinations such as a sampled or guarded object that is resized and then freed.", "anchors": ["tcmalloc/tcmalloc.cc: alloc_small_sampled_hooks_or_perthread, slow_alloc_large, FreeWithHooksOrPerThread, do_realloc", "tcmalloc/malloc_hook.h: NewInfo, DeleteInfo"]}
