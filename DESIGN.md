# A Rocq (Coq 8.16.1) model of google/tcmalloc

## Layout

* `properties.jsonl` – the English properties (C01 …).
* `rocq/theories/*.v` – for each component `X`:
  * `X.v`        the model: total Gallina functions transcribed from the C++,
                 each with a comment citing file and lines (and simplifications);
  * `XProofs.v`  invariants and lemmas;
  * `XProps.v`   the property theorems, stated against a small specification,
                 each closed by `exact`, each followed by `Print Assumptions`
                 and by an `Example`/witness showing that the hypotheses are
                 met by a concrete non-trivial state.
* `MANIFEST.json` – property → theorem names and status.
* `seeded/LOG.jsonl` – record of wrong-program experiments.

## Modelling conventions

* Addresses, sizes, page numbers: `N` (or `Z` where subtraction matters).  Where
  the property is about wrap-around, arithmetic is explicitly `mod 2^64`.
* Pointer-linked structures: functional trees/lists when sharing is not
  observable; otherwise explicit heaps (finite maps).
* Locks: a critical section is one atomic step.  Where the code drops a lock
  midway, the operation is split into several steps and other threads' steps
  interleave arbitrarily between them.
* Lock-free code: each atomic load/store/RMW is a step (sequentially consistent
  interleaving; weak-memory reorderings are not modelled).
* Random numbers, clocks, OS replies (mmap, madvise), CPU migration and
  preemption are universally quantified inputs of the steps.
* A failed `TC_CHECK`/`TC_ASSERT`, or an out-of-contract access, is a distinct
  outcome (`None`/`Crash`), never silently a default.

## Plan per property

| id | model | proof |
|----|-------|-------|
| C01,C02 | `SizeMap`: validation, `SetSizeClasses`, `Init` (class array fill), `ClassIndexMaybe`, `GetSizeClass` with alignment search, parametric in the table and page shift | invariant of the fill loop; arithmetic of the index function; generic in any validated table |
| C03 | the literal tables as Coq lists | evaluation of the validator inside the kernel (finite domain) + generic theorem |
| C04–C08 | `FrontApi`: nallocx, calloc, reallocarray, memalign family, realloc, sized delete with 64-bit wrap-around | arithmetic with `mod 2^64`; refinement of realloc against a byte-content specification; false cases recorded as `_refuted` |
| C09 | `Hpaa`: filler + regions + cache + address allocator composed | invariant: ownership partition of pages, over arbitrary op lists and OS outcomes |
| C10 | `AddrMap`: the treap with priorities, longest, merge-on-insert | refinement to a set of hugepages; structural invariant (BST, heap, longest) |
| C11 | `HugeAlloc` on top of `AddrMap` | invariant + completeness of `Find` |
| C12 | `HugeCache` | invariant over op lists with failing unback |
| C13–C14 | `RangeTracker`, `PageTracker` | refinement to bit predicates; invariants |
| C15 | `Bitmap`: word-level operations | refinement of words to bit functions |
| C16,C17 | `Span`: bitmap representation and list representation with cache and indices | invariant by induction on op lists; reciprocal arithmetic |
| C18,C19 | `Cfl`: threads as small-step machines with the lock dropped in Populate/Deallocate | ownership invariant over all schedules |
| C20,C21 | `TransferCache` | conservation (multisets) over schedules; measure for the resize loop |
| C22,C23 | `Slab`: word array with headers and begin markers; threads/rseq as small steps | refinement to stacks; schedule invariant |
| C24 | `CpuCap` capacity moves | conservation invariant |
| C25 | `PageMap` radix | get/set laws at bit level |
| C26 | `SysAlloc` + tags | invariant over histories with adversarial kernel |
| C27 | `Arena` | disjointness + accounting invariants |
| C28 | `Sampler` | accounting identity by induction |
| C29 | `Guarded` | address arithmetic; slot reservation invariant |
| C30 | `HookList` | small-step reader/writers, linearizability invariant |
| C31 | `Limits` | case analysis over all release outcomes |
| C32 | `HugeRegion` | invariant |
| C33 | `Filler` with `HintedLists` | invariant |
| C34 | `StackFilter` | counters as sums, for every hash function |
| C35 | `CpuList` | chunked parser vs. specification parser |
| C36 | `Recorder` | small-step invariant |
| C37 | `TimeSeries` | division-by-multiplication theorem; invariant |
| C38 | `Heap` composition of front-end caches, transfer cache, CFL, spans, page heap | ownership invariant |
| C39 | page-heap statistics on `Hpaa` | invariant |
| C40 | `LinkedList`, `TList` on an explicit pointer heap | refinement to lists |
| C41–C43 | see the rows of the table of modules below that name them | invariants |
| C44 | `Flow`: malloc and free of one size class through all tiers, threads as small-step machines with a stack of calls | ownership invariant over all schedules; lexicographic measure for termination |

None of the listed properties is inexpressible; weak-memory effects and real
time/performance claims are out of scope.

## Trusted base

* The Coq 8.16.1 kernel, including its virtual machine (`vm_compute`), as used by
  `coqc`; `coqchk` re-checks the compiled files without it.
* `Print Assumptions` stands beneath every property theorem.  For every one of
  them it prints `Closed under the global context`: no axiom, neither ours nor the
  standard library's.  Only the standard library is used (`ZArith`, `List`,
  `Permutation`, `Lia`, ...).
* The faithfulness of the model to the C++, argued definition by definition in
  the citing comments.

## What is modelled

| file(s) in /repo/tcmalloc | model | left out |
|---|---|---|
| sizemap.h, sizemap.cc, size_classes.cc and the other class tables, common.h | `SizeMap`, `Tables` | selection of the table from experiments and environment |
| internal/range_tracker.h (Bitmap, RangeTracker) | `Bitmap`, `RangeTracker` | – |
| span.h, span.cc | `Span` | sampling state, allocation-time hints, the cache-line layout |
| internal/linked_list.h | `LinkedList` | – |
| hinted_tracker_lists.h | `HintedLists` | – |
| central_freelist.h | `CentralFreeList` | telemetry beyond the counters, lifetime prediction |
| huge_address_map.*, huge_allocator.*, huge_cache.* | `HugeAddressMap`, `HugeAllocator`, `HugeCache` | printing; the demand trackers are arbitrary inputs |
| tcmalloc.cc (entry points), tcmalloc_policy.h, allocation_sampling.h (size checks), internal/memory_tag.h, internal/overflow.h | `FrontApi` | hooks, error reports (an outcome), new-handler loop |
| pagemap.h, pagemap.cc | `PageMap` | `bytes_used`, memory ordering of the lock-free reads |
| arena.h, arena.cc, metadata_object_allocator.h | `Arena` | Back() of small blocks, sanitizer annotations |
| sampler.h, sampler.cc, internal/exponential_biased.h (generator) | `Sampler` | the floating-point geometric variable (an arbitrary input) |
| internal/timeseries_tracker.h | `TimeSeries` | the floating-point length of an epoch in ticks and of a window in epochs (inputs) |
| internal/sysinfo.cc, internal/cpu_utils.h | `CpuList` | opening and caching of the sysfs files |
| internal/stacktrace_filter.h | `StackFilter` | the hash functions are arbitrary parameters; memory order (all operations are atomic on one location) |
| transfer_cache_internals.h | `TransferCache` | hit/miss counters (resizing is proved for arbitrary miss counts); a critical section is one step; calls to the list below are labels with arbitrary answers; the sharded manager is the same cache over another list below |
| internal/percpu_tcmalloc.h, internal/percpu_rseq_x86_64.S (PushBatch, PopBatch) | `Slab` | prefetches; the operations run uninterrupted (interruptions: `SlabRseq`) |
| internal/percpu_tcmalloc.h, internal/percpu_rseq_x86_64.S: restartable sequences of push, pop, batches, grow; caching the slab pointer; stop, fence and start of a CPU; populate, replacing all slabs, unmapping drained CPUs | `SlabRseq` | one load or store per step, any interleaving; a preemption, migration or fence moves the thread to the start of its sequence and clears the cached pointer (the kernel's rseq contract, assumed); memory is sequentially consistent; at most one thread runs on a CPU; allocation inside signal handlers is not modelled; remote operations on a stopped and fenced CPU are single steps, operations that hold all the locks stop and fence the CPUs in any order |
| cpu_cache.h (Activate, Populate, Grow, Drain, ResizeCpuSizeClasses, StealFromOtherCache, TryDrainingCaches, ResizeSlabs, UpdateMaxCapacities, TargetOverflowRefillCount, UpdateCapacity, GetUpdatedMaxCapacities, GetShiftMaxCapacity) | `CpuCache` | one atomic operation on a counter or one slab operation per step, any interleaving of any number of threads; one background thread; which classes and CPUs are picked is left open; taking the lock of a CPU and stopping it are one step; replacing the slabs of all CPUs is one step, draining the old ones is not |
| huge_page_tracker.h | `PageTracker` | The locks taken around the call to the OS, time stamps, residency and the histogram that AddSpanStats fills; Collapse. |
| `huge_page_filler.h` | `Filler` | statistics over time, life times, printing; `Put` is one step although it drops the lock around the call to the OS; the floating-point part of the release target and the pages that skipping requires are parameters; of the heap and sort used to pick candidates only their contract is used |
| `huge_region.h` | `HugeRegion` | `HugeRegion` and `HugeRegionSet` as one-step operations (regions are built with the `unback` that keeps the lock); the times of the last changes, mapping names and printed reports are not modelled |
| internal/hook_list.h | `HookList`, `HookListProps` | sequentially consistent memory; the lock is a writer that is under way; the loads a writer makes under the lock are one step; one reader (readers do not affect anyone); the calls Invoke makes to the hooks |
| internal/sampled_allocation_recorder.h | `Recorder`, `RecorderProps` | sequentially consistent memory; what happens under the lock of the graveyard plus one sample's lock is one step; the dispose callback and the destructor; a sample's contents is a number |
| page_allocator.{h,cc} (limits) | `Limits`, `LimitsProps` | the heaps are behind an interface (any answers; other threads act while a heap releases); sums do not wrap at 2^64; logging; the release hooks |
| guarded_page_allocator.{h,cc} | `Guarded`, `GuardedProps` | Allocate and Deallocate in the steps between which other threads run; memory and page protection as functions; the decision to sample is `GuardRate`; not stack traces, printing |
| huge_page_aware_allocator.h | `Hpaa`, `HpaaProofs`, `HpaaProps`, `HpaaExamples` | the page heap of one tag, composed of the models of filler, regions, cache and allocator: New, NewAligned, the refill of a small request (the lock is dropped), Delete, stats, release, release breaking hugepages, the background treatment; not GetPageAllocationStatus, printing, the lifetime/usermode experiments |
| internal/system_allocator.h, internal/memory_tag.h | `SysAlloc`, `SysAllocProps` | Allocate, AllocateFromRegion, MmapAligned, RandomMmapHint, the default regions, Release, ReleasePages; the kernel's replies are arbitrary but for: it maps where nothing of ours is mapped, in the user's half; not: naming and binding of memory, user-supplied region factories, logging |
| all tiers together: tcmalloc.cc (malloc, free), cpu_cache.h, transfer_cache_internals.h, central_freelist.h, span.h, pagemap.h, page_allocator.h, huge_page_aware_allocator.h, internal/system_allocator.h | `HeapClass`, `HeapCaches`, `HeapPages`, `Heap`, `HeapProofs`, `HeapProps`, `HeapExamples` | one state machine whose steps are the steps of the verified component models (`SlabRseq`, `TransferCache`, `CentralFreeList`, `Hpaa`, `SysAlloc`) over shared memory, span descriptors and page map, and the program's allocations, frees and writes; not: the per-thread caches used without per-CPU caches, GWP-ASan's guarded slots (`GuardedPages`), the bytes in which a descriptor is stored; simplified: when a class gives up a span the page map forgets it for all its pages (the code keeps the interior entries and clears only their class) |
| thread_cache.{h,cc} | `ThreadCache`, `ThreadCacheProofs`, `ThreadCacheProofs2`, `ThreadCacheProps` | the lists are Coq lists (their chaining: `LinkedList`); an operation on a thread's own lists is one step with its calls to the transfer cache as events; max_size_ and the statics change in steps of their own, any interleaving; the product with a floating-point ratio is any number between 0 and the old value; not: the creation of thread-specific data, recursive calls from it |
| cpu_cache.h (Allocate, Deallocate, AllocateSlowNoHooks, Refill, DeallocateSlowNoHooks, DrainHandler, FetchFromBackingCache, ReleaseToBackingCache), transfer_cache.h (Pop, Push, BackingTransferCache) | `Flow`, `FlowProofs`, `FlowProps`, `FlowLive`, `FlowExamples`, `FlowStop` | one size class; per-CPU caches are stacks with atomic operations (`Slab`, `SlabRseq`), the central free list a bag with atomic operations (`CentralFreeList`), the transfer caches those of `TransferCache`, one step per access; capacities change in any way that leaves room (`CpuCache`); migrations at any time |
| C45 | Profiling.v: threads in sampled mallocs and frees step by step (handle, fragmentation, reports to allocation and lifetime profiles, registration, size, peak), dumps, starts and stops; iterations return anything that C36 allows | invariant: each list and counter is the objects of the program plus those of the threads at the right stages; invariants of each profile in progress; theorems over executions from start to stop (ProfilingProps.v); sequential executions and a race for the peak (ProfilingPeak.v) |
| C46 | HeapStats.v: ExtractStats and the derived numbers over the state of the whole allocator (Heap.v), as sums of the counters that the components keep | the counters equal the objects by the invariants of C44; bytes of the spans split into objects, tails and overhead per class; page-heap statistics by C24; sums over classes, CPUs and tags (HeapStatsProofs.v, HeapStatsProps.v); shipped tables by computation (HeapStatsExamples.v) |
| C47 | Residency.v: the three readers over an abstract file or mincore that may fail at any call, batches and buffers as in the code | counting bytes page by page; loop invariants over batches; last head seen is the head of the current hugepage (ResidencyProps.v) |
| C48, C49, C50 | Releaser.v: the releaser over the page heaps of Limits.v, malloc_trim, one iteration of the background loop | one-call specification and induction over requests; an iteration is a filter of the fixed order of actions, induction over iterations (ReleaserProps.v). C49 is false as stated: credit left over by a request that it covers is forgotten (constant_rate_refuted) |
| C51 | Printing.v: the printer over byte memory, GetStats, GetStatsInPbtxt, malloc_stats | invariant (prefix of the text, at most a NUL, rest untouched) by induction over the prints (PrintingProps.v); printer_terminated_refuted shows that a buffer filled by Append has no NUL |
| C52, C53 | huge_page_subrelease.h: SubreleaseStatsTracker (Report, GetRecentPeak, GetRecentDemand, min_free_pages, RealizedFragmentation) and SkippedSubreleaseCorrectnessTracker, on the model of timeseries_tracker.h; composed with ReleasePages of the filler | Subrelease.v, SubreleaseSpec.v, SubreleaseProofs.v, SubreleaseSkip.v, SubreleaseProps.v | invariant of the ring over all histories gives the entries visited; extrema by induction; ghost partition of the decisions for the counts. Division of durations is exact instead of floating point; printing is not modelled. |
| C54, C55, C56 | huge_page_treatment.h and TreatHugepageTrackers with its caller's loop (huge_page_filler.h, huge_page_aware_allocator.h), PageTracker::Collapse; the passes of one background thread interleaved with TryGet, Put, Contribute and ReleasePages of the filler | Treatment.v, TreatmentProofs.v to TreatmentProofs4.v, TreatmentSpec.v, TreatmentProps.v | state machine whose pass drops the lock between steps; an invariant ties the two keep bits and the collapsing flag of every hugepage to what the pass refers to, a second one the statistics and waits to the record of past passes. Latencies are integers in cycles; heap operations of the selection are a relation; naming sampled regions is not modelled. |
| C57 | internal/profile_builder.cc: the tables of ProfileBuilder, the merging of samples, labels, values, both kinds of conversion | ProfileProto.v, ProfileProtoSpec.v (how a reader understands a proto, what is expected), ProfileProtoProofs.v to ProfileProtoProofs3.v, ProfileProtoProps.v | invariants of the tables (each table and its hash map are inverse), ids stay valid as tables grow; merging by induction over the samples; the hash map's order is an arbitrary permutation. Times, duration, documentation URL and the finding of the mappings are not modelled; overflow of the int64 sums is not modelled. |
| C58 | internal/profile_builder.cc: GetBuildId | BuildId.v, BuildIdProps.v | reads outside a segment are a fault, 32- and 64-bit wrap-around explicit; safety from bounds on masked sums for every alignment, exactness by induction over encoded notes (alignments 1 to 2^16). The hexadecimal text is not modelled. |
| C59 | internal/numa.{h,cc}, internal/cache_topology.{h,cc}, CpuSet | Topology.v, TopologySpec.v, TopologyProofs*.v, TopologyProps.v | the loops over nodes, CPUs and shared sets over arbitrary file contents, on top of the CPU-list parser of C35; a node or cache map is specified independently, loop invariants; `1 << node` as an int shift. Refuted beyond 31 nodes, beyond 256 L3 caches and with a missing cache file. |
| C60 | internal/util.cc (read, write, poll, SafeCopyMemory), internal/memory_stats.cc | SafeIo.v, SafeIoSpec.v, SafeIoProofs*.v, SafeIoProps.v | system calls as arbitrary finite sequences of outcomes (interrupted, failed, k bytes); loop invariants; the parser is shown equal to a parse of the whole text, then to a list of fields. process_vm_readv all-or-part, sizes do not wrap. Refuted: a failing poll hides bytes read; the write returns the size of its last part. open, close and the fragmentation ratio (a double) are not modelled. |
| C61 | internal/proc_maps.cc, proc_maps.h | ProcMaps.v, ProcMapsSpec.v, ProcMapsProofs*.v, ProcMapsProps.v | reads as in C60; the text before nextline_ is left out of the buffer since it is not read again; sscanf for this format without signs and 0x. Invariant: unread text plus buffer is the rest of the file. Refuted: lines longer than the buffer and failing reads give wrong mappings. open and makedev are not modelled. |
| C62 | experiment.cc, experiment_config.h, internal/environment.cc | Experiment.v, ExperimentSpec.v, ExperimentProofs.v, ExperimentProps.v | direct model with hashes as arbitrary functions; splitting at commas shown equal to a relation on strings; for every table with distinct names and numbers, and the table of the program is one. Built without compiler experiments; no rollout bucket is computed. Refuted: the choice for a test is stable (it is seeded with the clock). |
| C63 | internal/compressibility.cc | Compress.v, CompressSpec.v, CompressProofs.v, CompressProps.v | loop over runs of resident pages shown to gather the prefix of the filtered addresses, over the bitmap of C31 and the copy of C60. The double arithmetic of the share is an arbitrary function with the bounds of `a_share`; addresses do not wrap. |
| C64 | guarded_page_allocator.cc: TrySample | GuardRate.v, GuardRateProps.v | steps of the threads between the two reads of counters, the reservation and mprotect; invariant over all counts at or above what the rate allows; the filter (C34) and the random numbers are arbitrary, the slots themselves are C29. Counters do not overflow, the intervals are constant. |
| C65 | internal/gwp_asan_state.h, error_reporting.cc, segv_handler.cc | Report.v, ReportProps.v | the state a crash handler reads, after any sequence of reports; the alignment as a shift that may be undefined; the handler over every reachable state of the guarded pool (Guarded.v, C29); the dispositions of signals against the same history without activation. The logged text, the write flag of other processors, nested signals and the ending of the process are not modelled. |
| C66 | malloc_hook.cc, and where tcmalloc.cc and cpu_cache.h call hooks or leave the fast path | HookFront.v, HookFrontProps.v | steps of any number of threads; history of announced and silent events; invariants: a thread off the fast path has no cached slab outside its slow path, an object is held by one thread at most, the list holds what the history registers. Changing and reading the list of hooks are one step each (their interleaving is C30); which object is taken, whether the slab is cached afterwards and whether a call is sampled are arbitrary; hooks do not allocate; the sizes passed to hooks are not modelled. |
| C67 | stack_trace_table.cc, AllocatedBytes of sampler.cc, with the sampler of C28 | Figures.v, FiguresProps.v | arithmetic of one trace; induction over the traces; C28's identity summed over the samples. The doubles are exact fractions; the weight factor is 1.0 as at every call; attributes that are only copied are one number. |
| C08 (free_sized) | realloc followed by free_sized, tcmalloc.cc do_realloc and TCMallocInternalFreeSized | FrontApiProps4.v | classes of one block are determined by their size; realloc in place means the same size; then sized_delete_same_class. |
| C68 | the hook calls of tcmalloc.cc on top of the front end of C04-C08 | HookSizes.v, HookSizesProps.v, HookSizesProps2.v | invariant over histories: the log agrees with the live blocks; the history is one of the front end without hooks. Hooks are installed throughout (C66 treats when calls are announced); a sized delete's class is the block's (C08). calloc is its allocation followed by a write. |

Not modelled at all: what the printed and pbtxt statistics consist of (printing into
a buffer is), the serialisation of a profile.proto, the C library
overrides, weak-memory reorderings.
