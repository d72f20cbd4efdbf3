{
 "claims": [
  {
   "property": "C01",
   "status": "proved",
   "theorems": [
    "accepted_table_initialises",
    "size_class_lookup",
    "size_class_span",
    "class_size_range_exact",
    "table_length_unchecked_refuted"
   ],
   "note": "For every configuration (page shift 12/13/15/18, NUMA or security partitions), every accepted table that fits the arrays. table_length_unchecked_refuted: validation does not reject an over-long table when expanded classes are compiled out."
  },
  {
   "property": "C02",
   "status": "proved",
   "theorems": [
    "aligned_size_class_lookup",
    "aligned_objects",
    "lookup_partition"
   ],
   "note": ""
  },
  {
   "property": "C03",
   "status": "proved",
   "theorems": [
    "shipped_tables_accepted",
    "shipped_tables_alignment"
   ],
   "note": "All 32 tables, transcribed mechanically."
  },
  {
   "property": "C13",
   "status": "proved",
   "theorems": [
    "hugepage_runs",
    "hugepage_get",
    "hugepage_put",
    "tracker_live_exact",
    "tracker_get_iff_fits",
    "tracker_put_succeeds",
    "tracker_mark_succeeds"
   ],
   "note": "RangeTracker<N> and PageTracker for every number of pages per hugepage, including releases between the gets and puts."
  },
  {
   "property": "C15",
   "status": "proved",
   "theorems": [
    "bitmap_single_bit",
    "bitmap_ranges",
    "bitmap_count",
    "bitmap_is_zero",
    "bitmap_find",
    "bitmap_find_backwards",
    "bitmap_next_free_range",
    "bitmap_clear_lowest",
    "bitmap_pop_batch",
    "bitmap_bitwise",
    "bitmap_copy",
    "bitmap_scale"
   ],
   "note": "For every N and every bitmap the operations can build."
  },
  {
   "property": "C16",
   "status": "proved",
   "theorems": [
    "span_live_objects",
    "span_pop_exact",
    "span_build_exact",
    "span_push_exact"
   ],
   "note": "Every accepted size class, both representations, both push variants, with arbitrary writes of owners into live objects; single span, operations serialised by the central free list lock."
  },
  {
   "property": "C17",
   "status": "proved",
   "theorems": [
    "span_index_exact"
   ],
   "note": ""
  },
  {
   "property": "C40",
   "status": "proved",
   "theorems": [
    "linked_list_lifo",
    "tlist_exact"
   ],
   "note": ""
  },
  {
   "property": "C18",
   "status": "proved",
   "theorems": [
    "cfl_objects",
    "cfl_remove_exact",
    "cfl_insert_succeeds",
    "cfl_span_return",
    "cfl_one_object"
   ],
   "note": "Every accepted size class, any number of threads, interleaved at lock granularity (the unlocked parts of Populate and InsertRange are separate steps), with arbitrary writes of owners into objects they hold. The page heap is an environment that only promises non-overlapping spans (C09)."
  },
  {
   "property": "C19",
   "status": "proved",
   "theorems": [
    "cfl_lists",
    "cfl_statistics"
   ],
   "note": "length() counts as free the objects popped by a RemoveRange that is still inside Populate (the counter is updated at its end); the theorem says so through in_use."
  },
  {
   "property": "C10",
   "status": "proved",
   "theorems": [
    "address_map_exact",
    "address_map_insert",
    "address_map_predecessor"
   ],
   "note": "Every sequence of insertions and removals with arbitrary (adversarial) treap priorities."
  },
  {
   "property": "C11",
   "status": "proved",
   "theorems": [
    "huge_allocator_exact",
    "huge_allocator_get",
    "huge_allocator_release"
   ],
   "note": "The system is an environment that may refuse or grant any not previously granted hugepage range of at least the requested length."
  },
  {
   "property": "C12",
   "status": "proved",
   "theorems": [
    "huge_cache_conserves",
    "huge_cache_get",
    "huge_cache_release",
    "huge_cache_shrink",
    "huge_cache_release_cached",
    "huge_cache_bounded"
   ],
   "note": "Histories interleave other operations at the point where releasing memory drops the page heap lock. The time-series trackers that steer the limit are inputs with arbitrary values. huge_cache_shrink, huge_cache_release_cached and huge_cache_bounded describe an operation that no other thread interferes with."
  },
  {
   "property": "C04",
   "status": "partial",
   "theorems": [
    "nallocx_matches_allocation",
    "nallocx_bounds_malloc",
    "nallocx_malloc_refuted",
    "nallocx_guarded_refuted",
    "nallocx_zero_overaligned_refuted"
   ],
   "note": "Proved for allocations made with the alignment nallocx is asked about. The claim as stated fails in three cases, each with a counterexample theorem: nallocx without an alignment flag answers for 8-byte alignment but malloc aligns to 16 (nallocx(8)=8, malloc(8) has 16); a guarded sample has exactly the requested size; a zero-byte over-aligned request uses a page while nallocx says 0."
  },
  {
   "property": "C05",
   "status": "proved",
   "theorems": [
    "calloc_overflow",
    "calloc_exact",
    "reallocarray_exact"
   ],
   "note": "Both the builtin and the fallback multiplication."
  },
  {
   "property": "C06",
   "status": "partial",
   "theorems": [
    "posix_memalign_spec",
    "alignment_check_exact",
    "aligned_alloc_spec",
    "aligned_alloc_at_least_spec",
    "memalign_spec_partial",
    "memalign_unchecked_refuted",
    "valloc_spec",
    "pvalloc_size_spec",
    "pvalloc_spec_partial",
    "pvalloc_wraps_refuted"
   ],
   "note": "posix_memalign, aligned_alloc, aligned_alloc_at_least and valloc in full. memalign does not check its alignment and pvalloc's rounding wraps: both shown by counterexample, the theorems for valid inputs carry the suffix _partial."
  },
  {
   "property": "C07",
   "status": "proved",
   "theorems": [
    "realloc_preserves",
    "realloc_zero",
    "realloc_null",
    "usable_covers_request"
   ],
   "note": "For every world reached by a history of allocations, callocs, reallocs, frees and writes, and every outcome (success, sampled, guarded, out of memory) of the new allocation."
  },
  {
   "property": "C08",
   "status": "proved",
   "theorems": [
    "sized_delete_same_class",
    "class_tag_defined",
    "sized_delete_pages",
    "sized_pages_check_accepts",
    "free_sized_after_realloc",
    "free_sized_after_realloc_refuted"
   ],
   "note": "Every placement policy, every partition mode, every size from the requested to the usable one; also for free_sized of a small object that realloc left in place (free_sized_after_realloc). Recorded as a counterexample: a block from aligned_alloc with an alignment above the page size, kept in place by realloc to its own size, is taken by free_sized for a small object (free_sized_after_realloc_refuted)."
  },
  {
   "property": "C25",
   "status": "proved",
   "theorems": [
    "pagemap_last_write",
    "pagemap_ensure",
    "pagemap_ops_succeed",
    "pagemap_next_page",
    "pagemap_class_copies",
    "pagemap_stale_class_refuted"
   ],
   "note": "Every configuration the static_asserts accept, every history. Recorded as a counterexample theorem: unregistering a span clears only one of the two copies of its size class, so the combined lookup keeps answering the old class until the page is set again."
  },
  {
   "property": "C27",
   "status": "proved",
   "theorems": [
    "arena_blocks_apart",
    "arena_alloc_aligned",
    "arena_statistics",
    "metadata_object_counts",
    "metadata_object_reuse",
    "arena_alloc_zero_refuted"
   ],
   "note": "One arena shared by any number of object allocators, with arbitrary stores by the holders of blocks; the free lists live in the free memory. The number of blocks is reported modulo 2^16 (a 16-bit counter). Recorded as a counterexample: a zero-byte request to a fresh arena returns null although the function is declared non-null."
  },
  {
   "property": "C28",
   "status": "proved",
   "theorems": [
    "sampler_accounts",
    "sampler_decision",
    "sampler_prediction",
    "sampler_interval_one",
    "sampler_off",
    "sampler_random_range",
    "sampler_random_bijective",
    "sampler_max_size_refuted",
    "sampler_huge_first_refuted"
   ],
   "note": "Every history of requests below 2^62 bytes, both allocation paths, intervals up to 2^62 changing at any time, any gaps drawn. Recorded as counterexamples for impossible sizes: a request of SIZE_MAX bytes is never counted, and a first request of 3*2^62 bytes stops sampling on that thread for 2^62 bytes."
  },
  {
   "property": "C37",
   "status": "proved",
   "theorems": [
    "epoch_is_quotient",
    "epoch_power_of_two_refuted",
    "timeseries_window",
    "timeseries_moved",
    "timeseries_iter",
    "timeseries_iter_back",
    "timeseries_recent"
   ],
   "note": "Any payload type, any number of slots, any history including clock regressions. The epoch number equals the quotient for every epoch length that is not a power of two of clock ticks; for a power of two it is proved to be 0 for ever (a 65-bit reciprocal is truncated), recorded as a counterexample theorem."
  },
  {
   "property": "C35",
   "status": "proved",
   "theorems": [
    "cpulist_chunking",
    "cpulist_read_error",
    "cpulist_meaning",
    "cpulist_well_formed",
    "cpulist_rejects",
    "num_possible_spec",
    "cpulist_dangling_range_refuted"
   ],
   "note": "Every byte string and every splitting into reads. Recorded as a counterexample theorem: a range without an end (\"7-\") is accepted as an empty list; examples show that a reversed and a double range are accepted too."
  },
  {
   "property": "C34",
   "status": "proved",
   "theorems": [
    "stackfilter_contains",
    "stackfilter_contains_alone",
    "stackfilter_counters",
    "stackfilter_empty",
    "decaying_counters",
    "decay_all_empties",
    "decaying_race_refuted"
   ],
   "note": "Any number of concurrent calls interleaved at every atomic operation, all hash functions. Recorded as a counterexample theorem: the decaying filter can transiently forget an unrelated trace with net count 1, because it publishes a trace for decay before counting it."
  },
  {
   "property": "C20",
   "status": "proved",
   "theorems": [
    "tc_conserves",
    "tc_capacity",
    "tc_no_duplicates",
    "tc_bounds",
    "tc_lifo",
    "capacity_needed_spec"
   ],
   "note": "Any number of concurrent calls; steps are the unlocked read, each critical section, each try_lock outcome, and each call to the list below."
  },
  {
   "property": "C21",
   "status": "proved",
   "theorems": [
    "resize_conserves",
    "grow_capacity",
    "shrink_capacity",
    "other_steps_keep_capacity",
    "interval_misses_spec"
   ],
   "note": "All capacities, batch sizes and miss counts; the capacity decisions are shown independent of the fill levels and of concurrent client operations."
  },
  {
   "property": "C22",
   "status": "proved",
   "theorems": [
    "slab_is_stacks",
    "slab_is_stacks_256k",
    "slab_classes_apart",
    "slab_no_interference",
    "slab_full_region_refuted",
    "slab_empty_class_refuted"
   ],
   "note": "Observational refinement: for every accepted layout of fewer than 2^16 words, every initial content of the memory and every sequence of operations, the results are those of one bounded stack per class. The two _refuted theorems show that a layout that fills a 2^19-byte region to its last word, which the checks accept, breaks the 16-bit offsets."
  },
  {
   "property": "C23",
   "status": "proved",
   "theorems": [
    "slab_linearizable",
    "slab_memory",
    "slab_op_once",
    "slab_conserves",
    "slab_resize_returns_all",
    "slab_stopped_exclusive",
    "slab_unlocked_running",
    "slab_commit_current"
   ],
   "note": "instruction-level model of the restartable sequences under every schedule of preemption, migration, remote stop/fence/drain and slab replacement; the rseq contract of the kernel and sequential consistency are assumed"
  },
  {
   "property": "C24",
   "status": "proved",
   "theorems": [
    "cache_budget",
    "cache_budget_at_rest",
    "cache_total",
    "cache_no_overflow",
    "cache_class_bounds",
    "cache_release_check",
    "cache_release_check_refuted",
    "refill_count_bounds",
    "increase_bounds"
   ],
   "note": "The configured total is the per-CPU limit in force at Activate times the number of CPUs; a later SetCacheLimit changes neither budgets nor total. Finding: the TC_CHECK that all of a drained CPU's budget is available when its slab is released can fail while a thread is inside Grow (cache_release_check_refuted); it holds when no thread is (cache_release_check)."
  },
  {
   "property": "C41",
   "status": "proved",
   "theorems": [
    "redistribution",
    "redistribution_fits"
   ],
   "note": "redistribution_fits asks that the total of the configured capacities leaves room at the shift (roomy); ex_roomy shows it for the default build."
  },
  {
   "property": "C14",
   "status": "proved",
   "theorems": [
    "released_pages_exact",
    "get_reports_released",
    "release_free_exact",
    "release_free_all",
    "mark_subreleased_exact",
    "span_stats_exact"
   ],
   "note": "Every history of gets, puts, releases and MarkSubreleased with arbitrary outcomes of the calls to the OS."
  },
  {
   "property": "C33",
   "status": "proved",
   "theorems": [
    "filler_lists",
    "filler_totals",
    "filler_runs_disjoint",
    "filler_get",
    "filler_put",
    "filler_freed",
    "filler_release_total",
    "filler_release",
    "filler_treatment",
    "shipped_dense_one_page",
    "accepted_dense_one_page_refuted"
   ],
   "note": "For every history of gets, puts, contributions, donations, releases, treatments and fetches, whatever the OS answers. Found: the check of a size-class table accepts a class with many objects in a span of two pages, for which the filler's assertion and then its search fail; no shipped table has one."
  },
  {
   "property": "C32",
   "status": "proved",
   "theorems": [
    "region_runs",
    "region_backing",
    "region_get",
    "region_put",
    "region_release",
    "region_span_stats",
    "set_runs",
    "set_stats",
    "set_get",
    "set_put",
    "set_put_other",
    "set_release",
    "set_release_capped_refuted"
   ],
   "note": "One region and the set of regions, any sizes, any history of gets, puts, releases and contributed regions, any answers of the OS. set_release_capped_refuted is a finding: the comment in huge_region.h says the adaptive release is capped by the pages asked for, and it is not."
  },
  {
   "property": "C30",
   "status": "proved",
   "theorems": [
    "traverse_only_registered",
    "traverse_all_registered",
    "traverse_quiet",
    "hooks_sequential",
    "traverse_throughout_refuted",
    "traverse_multiplicity_refuted"
   ],
   "note": "Every interleaving of a traversal with the stores of writers. The two refuted theorems are findings: a hook that is registered twice for a while can be missed although it is registered at every moment, and a hook can be reported twice although it is never registered twice."
  },
  {
   "property": "C36",
   "status": "proved",
   "theorems": [
    "iterate_reports",
    "iterate_goes_on",
    "iterate_quiet",
    "register_reuses",
    "unregister_all_clears"
   ],
   "note": "Every interleaving of any number of Register calls (with the compare-exchange loop step by step), Unregister, UnregisterAll and one Iterate. Clients unregister only live samples, and not concurrently with UnregisterAll reaching the same sample, as the header demands."
  },
  {
   "property": "C31",
   "status": "proved",
   "theorems": [
    "shrink_asks",
    "limit_respected_does_nothing",
    "limit_exceeded_asks",
    "limit_outcome",
    "limits_ordered",
    "hard_hits_counted_refuted"
   ],
   "note": "For any heaps and any interference the calls made are as stated; for heaps that report truthfully and stop short only when nothing is left, the process ends exactly if the hard limit cannot be met by releasing everything. hard_hits_counted_refuted is a finding about a debug assertion (page_allocator.cc:133)."
  },
  {
   "property": "C29",
   "status": "proved",
   "theorems": [
    "guarded_objects",
    "guarded_access",
    "guarded_guards",
    "guarded_free",
    "guarded_free_outcome",
    "guarded_free_progress",
    "guarded_changed_written",
    "guarded_capacity",
    "guarded_nearest",
    "guarded_report",
    "guarded_freed"
   ],
   "note": "The mapping (an address aligned to the page size, inaccessible at first) is assumed; the bytes between the last magic byte and the page end are not checked by the code."
  },
  {
   "property": "C09",
   "status": "proved",
   "theorems": [
    "live_ranges_disjoint",
    "page_allocation",
    "page_refill",
    "page_free"
   ],
   "note": "One page heap (one tag); the system is assumed to grant only what it has not granted before (C26). A hugepage has any number P > 1 of pages, a region any number K > 0 of hugepages."
  },
  {
   "property": "C39",
   "status": "proved",
   "theorems": [
    "page_heap_stats",
    "page_release",
    "page_release_breaking",
    "page_release_total",
    "page_heap_counters",
    "release_reports_exactly_refuted",
    "unmapped_although_refused_refuted"
   ],
   "note": "The two literal claims named in the statement are refuted by reachable states of the model (findings)."
  },
  {
   "property": "C26",
   "status": "proved",
   "theorems": [
    "system_allocate",
    "system_mmap_aligned",
    "system_grants",
    "system_serves_page_heaps",
    "classification",
    "page_heaps_together",
    "mmap_aligned_large_refuted"
   ],
   "note": "The refuted statement is a finding: MmapAligned's own check admits sizes above 2^42 for which the tag cannot be uniform; Allocate never asks for them."
  },
  {
   "property": "C42",
   "status": "proved",
   "theorems": [
    "system_release"
   ],
   "note": "munlock and the EAGAIN loops are summarised by their last reply."
  },
  {
   "property": "C38",
   "status": "proved",
   "theorems": [
    "live_objects_disjoint",
    "live_object_good",
    "live_contents_kept",
    "free_finds_owner",
    "usable_size_found",
    "double_free_found",
    "objects_accounted",
    "pages_accounted",
    "pages_returned",
    "objects_returned",
    "free_objects_found",
    "cpu_caches_run"
   ],
   "note": "Over every history of the composed model (per-CPU caches with preemption, transfer caches, central free lists, page heaps of all tags, system allocator with an adversarial kernel): live objects are pairwise disjoint, large enough, aligned, in user space and of the right memory tag; no step but the program's own write changes a byte of a live object; free finds the class or span from the address and is always possible; every object outside a central free list is in exactly one place, every range handed out by a page heap is a span in exactly one place, and objects and spans can always be passed back down. Example: HeapExamples.heap_history. Not in the composition: per-thread caches, guarded (GWP-ASan) slots."
  },
  {
   "property": "C43",
   "status": "proved",
   "theorems": [
    "thread_caches_listed",
    "thread_caches_conserve",
    "thread_cache_batches",
    "thread_cache_safe",
    "thread_cache_space",
    "thread_cache_stats",
    "thread_cache_lists",
    "thread_cache_allocates",
    "thread_cache_overflow",
    "thread_cache_exit"
   ],
   "note": "All histories of any number of threads. Floating point: scaling a limit by a ratio below 1 is any function with values between 0 and the old limit."
  },
  {
   "property": "C44",
   "status": "proved",
   "theorems": [
    "flow_conserves",
    "flow_nothing_lost",
    "flow_malloc_fresh",
    "flow_null",
    "flow_safe",
    "flow_sizes",
    "flow_stopped",
    "flow_restarts",
    "flow_call_bounded",
    "flow_calls_end"
   ],
   "note": "All schedules of any number of threads, CPUs and shards; waiting for a lock is not counted as a step (a step that takes a lock happens when the lock is free)."
  },
  {
   "property": "C45",
   "status": "proved",
   "theorems": [
    "profile_handles",
    "profile_counters",
    "profile_no_wrap",
    "heap_profile",
    "allocation_profile",
    "lifetime_profile",
    "peak_profile",
    "peak_sequential",
    "profile_no_deadlock",
    "profile_call_bounded",
    "peak_race_refuted"
   ],
   "note": "Threads in sampled mallocs and frees interleave with profile starts, stops and dumps. Iterations over the recorder return any list that iterate_reports (C36) allows. peak_race_refuted: with concurrency the recorded peak can be replaced by a smaller one, because the size is read again after the comparison; the claim about the peak is for sequential executions. Aggregation by stack and lifetime statistics are not modelled."
  },
  {
   "property": "C46",
   "status": "proved",
   "theorems": [
    "statistics_balance",
    "in_use_at_least",
    "in_use_exact",
    "in_use_with_tails",
    "physical_is_in_use_and_external",
    "class_count_exact",
    "shipped_tables_no_tail"
   ],
   "note": "The counters are read at one moment of the interleaving (the code reads them one after another without stopping other threads). in_use_exact assumes that no call is in progress and that a class with one object per span fills it; shipped_tables_no_tail proves the latter for every shipped table, in_use_with_tails says what is reported otherwise. Per-thread caches are not part of Heap.v; metadata and residency are parameters."
  },
  {
   "property": "C47",
   "status": "proved",
   "theorems": [
    "residency_exact",
    "unbacked_bitmaps_exact",
    "page_flags_exact",
    "stale_bitmap_exact",
    "hugepage_backed_sound",
    "mincore_exact"
   ],
   "note": "The files do not change during a query. page_flags_exact assumes that every hugepage of the address space in the range is one transparent hugepage or only small pages (the code documents this). signal_safe_read is abstracted to success or failure; IsHugepageBacked answers no if lseek fails, which the theorem says."
  },
  {
   "property": "C48",
   "status": "proved",
   "theorems": [
    "release_request",
    "release_reported",
    "release_all_asked",
    "malloc_trim_releases",
    "malloc_trim_returns_zero"
   ],
   "note": "That sums of byte counts stay below 2^64 is assumed. release_reported assumes that each page heap reports what it gives back (page_release, C39)."
  },
  {
   "property": "C49",
   "status": "partial",
   "theorems": [
    "constant_rate_partial",
    "constant_rate_refuted"
   ],
   "note": "False as stated: a request covered by the remembered excess forgets what is left of it (extra_bytes_released_ is overwritten on both ways out), so small requests can give back a million times what was asked for; proved refuted. Proved: it holds for every history in which each request asks for at least the excess of the one before."
  },
  {
   "property": "C50",
   "status": "proved",
   "theorems": [
    "background_not_too_often",
    "background_not_forgotten",
    "background_order",
    "background_rate",
    "background_amount"
   ],
   "note": "The product of rate and elapsed seconds is computed exactly instead of in doubles; saturation of absl::Duration is not modelled."
  },
  {
   "property": "C51",
   "status": "proved",
   "theorems": [
    "printer_in_bounds",
    "printer_space_required",
    "printer_exact",
    "printer_prefix",
    "get_stats_exact",
    "get_stats_string_exact",
    "print_stats_exact",
    "printer_terminated_refuted"
   ],
   "note": "SNPrintF is modelled by its contract. Which statistics are printed is arbitrary here (their values: C46). Texts are shorter than 2^31."
  },
  {
   "property": "C52",
   "status": "proved",
   "theorems": [
    "recent_peak_exact",
    "recent_demand_exact",
    "realized_fragmentation_exact",
    "min_free_exact",
    "release_keeps_recent_demand",
    "skipped_report_exact"
   ],
   "note": "Over all histories; composed with the filler's release."
  },
  {
   "property": "C53",
   "status": "partial",
   "theorems": [
    "skip_statistics_partial",
    "skip_correct_needs_demand_refuted"
   ],
   "note": "Each decision is counted at most once and the figures are exact; a decision counted as correct had its demand level reported at some time. That the demand came after the decision is false of the code: the peak of the same epoch, reported before the decision, confirms it (refuted)."
  },
  {
   "property": "C54",
   "status": "proved",
   "theorems": [
    "treatment_lifetime",
    "treatment_collapse_safe",
    "treatment_selection",
    "treatment_recording"
   ],
   "note": "For all schedules around one background thread (the API asks for one)."
  },
  {
   "property": "C55",
   "status": "proved",
   "theorems": [
    "treatment_tries",
    "treatment_statistics",
    "treatment_waits"
   ],
   "note": "Over all histories; latencies are integers."
  },
  {
   "property": "C56",
   "status": "partial",
   "theorems": [
    "treatment_recording",
    "treatment_released_is_unbacked_refuted"
   ],
   "note": "Proved: a page a pass marks as released was free when recorded, and was either given to the OS or found unbacked by the look of that pass. That no allocation used it after the look is false of the code: the look is not repeated under the lock (refuted)."
  },
  {
   "property": "C57",
   "status": "proved",
   "theorems": [
    "heap_profile_reads",
    "heap_profile_totals",
    "life_profile_reads",
    "profile_samples_distinct",
    "profile_other_types"
   ],
   "note": "For samples whose sizes fit in 63 bits and whose guarded status has a name (the switch is marked unreachable for the two deprecated ones). The proto's wire format is not modelled."
  },
  {
   "property": "C58",
   "status": "proved",
   "theorems": [
    "build_id_safe",
    "build_id_exact"
   ],
   "note": "Exactness is for build ids that are not empty."
  },
  {
   "property": "C59",
   "status": "proved",
   "theorems": [
    "numa_topology",
    "numa_partitions_exist",
    "cache_topology",
    "cache_index_bound",
    "numa_many_nodes_refuted",
    "cache_topology_refuted"
   ],
   "note": "Stated for up to 31 nodes and up to 256 L3 caches with all files present; the refuted theorems show what happens beyond (undefined shift, wrapped 8-bit index, CPUs after an offline one all in cache 0)."
  },
  {
   "property": "C60",
   "status": "proved",
   "theorems": [
    "safe_read_exact",
    "safe_write_exact",
    "safe_write_positive",
    "safe_copy_exact",
    "memory_stats_chunking",
    "memory_stats_failure",
    "memory_stats_exact",
    "safe_read_poll_refuted",
    "safe_write_result_refuted"
   ],
   "note": "The refuted theorems: the result of a write is not the number of bytes written as documented, and a failing poll turns a successful read into -1."
  },
  {
   "property": "C61",
   "status": "proved",
   "theorems": [
    "proc_maps_exact",
    "proc_maps_lines",
    "proc_maps_ends",
    "proc_maps_long_line_refuted",
    "proc_maps_failed_read_refuted"
   ],
   "note": "For lines shorter than the buffer and reads that do not fail; the refuted theorems show both are needed."
  },
  {
   "property": "C62",
   "status": "proved",
   "theorems": [
    "getenv_exact",
    "experiments_as_asked",
    "experiments_in_tests",
    "experiments_table_ok",
    "experiment_active",
    "experiments_all_off",
    "experiments_walk",
    "find_by_name",
    "experiments_stable_refuted"
   ],
   "note": "The refuted theorem: the comment in SelectExperiments promises a stable choice per test target, but the hash is seeded with the clock."
  },
  {
   "property": "C63",
   "status": "proved",
   "theorems": [
    "sample_is_first_resident_bytes",
    "sample_fits_and_is_whole",
    "estimate_bounds",
    "estimate_grows_with_zeroes",
    "analyze_zero_object"
   ],
   "note": "The floating-point share is abstract: within bounds, exact at both ends and monotone."
  },
  {
   "property": "C64",
   "status": "proved",
   "theorems": [
    "guard_only_within_rate",
    "guard_not_rate_limited",
    "guard_filter",
    "guard_rate_all_schedules",
    "guard_rate_reached",
    "guard_all_of_them"
   ],
   "note": "The excess of one per thread is real: see guard_rate_two_threads."
  },
  {
   "property": "C65",
   "status": "proved",
   "theorems": [
    "report_read_back",
    "report_first_unknown",
    "report_stale_refuted",
    "report_alignment",
    "report_alignment_undefined_refuted",
    "report_misaligned_free",
    "report_guarded_alignment_refuted",
    "report_mismatched_sizes",
    "fault_report",
    "fault_report_only",
    "signals_forwarded",
    "signals_forwarded_ignored_refuted"
   ],
   "note": "The exceptions are real: a later double free report keeps the earlier report's allocation stack (report_stale_refuted); 1u << countr_zero(ptr) is undefined where 2^32 divides the pointer (report_alignment_undefined_refuted); the free of the page start of a right-aligned guarded object reports an alignment above the expected one (report_guarded_alignment_refuted); a program that ignores SIGSEGV faults for ever instead of being killed (signals_forwarded_ignored_refuted)."
  },
  {
   "property": "C66",
   "status": "proved",
   "theorems": [
    "hooks_own_thread",
    "hooks_after_slow_path",
    "hooks_from_start",
    "hooks_called_exactly",
    "hooks_in_order",
    "hooks_called_once_refuted",
    "hooks_other_threads_refuted"
   ],
   "note": "The exceptions are real: MallocHook_HooksChanged takes only the calling thread off the fast path, so that other threads may make any number of unannounced calls after AddNewHook has returned (hooks_other_threads_refuted); a hook added before the first allocation is called twice for it (hooks_called_once_refuted)."
  },
  {
   "property": "C67",
   "status": "proved",
   "theorems": [
    "figures_nearest",
    "figures_empty",
    "figures_listed",
    "figures_exact",
    "figures_uniform",
    "figures_rounding_refuted"
   ],
   "note": "Doubles are modelled as exact fractions. figures_rounding_refuted shows that the half object per sample in figures_uniform is needed: there are histories of any length in which every sample stands for 1.4 objects and is reported as one."
  },
  {
   "property": "C68",
   "status": "proved",
   "theorems": [
    "hook_sizes_same_calls",
    "hook_sizes_exact",
    "hook_sizes_paired",
    "hook_sizes_total",
    "hook_sizes_alloc",
    "hook_sizes_free",
    "hook_sizes_realloc"
   ],
   "note": "Hooks are installed throughout the history; when a call is announced at all is C66. The size a sized delete passes is assumed to select the class of the block (C08 proves it does for correct sizes)."
  }
 ]
}