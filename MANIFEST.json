{
 "claims": [
  {
   "property": "C01",
   "status": "proved",
   "theorems": [
    "C01_blocks_well_placed"
   ],
   "note": "All histories, any honest underlying allocator; concurrent use of SyncBlinkAlloc is C24, proxies are C22."
  },
  {
   "property": "C02",
   "status": "proved",
   "theorems": [
    "C02_live_blocks_disjoint"
   ],
   "note": "Same scope as C01."
  },
  {
   "property": "C03",
   "status": "proved",
   "theorems": [
    "C03_independent_buffers"
   ],
   "note": "Refinement to independent buffers for every history including arbitrary in-bounds client writes."
  },
  {
   "property": "C04",
   "status": "proved",
   "theorems": [
    "C04_resize_keeps_prefix"
   ],
   "note": "Moved and in-place; an overlapping copy would be OUB, excluded by C19 and by the ORet hypothesis."
  },
  {
   "property": "C05",
   "status": "proved",
   "theorems": [
    "C05_failure_changes_nothing"
   ],
   "note": "Any request that returns Err, in any reached state."
  },
  {
   "property": "C06",
   "status": "proved",
   "theorems": [
    "C06_shrink_in_place"
   ],
   "note": "No state change at all and no upstream call."
  },
  {
   "property": "C07",
   "status": "partial",
   "theorems": [
    "C07_shrink_may_move_refuted",
    "C07_shrink_may_fail_refuted",
    "C07_raising_alignment_partial"
   ],
   "note": "The documented claim is false of the code: refuted twice (block moves; shrink fails) by concrete histories. Proved: with an alignment not larger C06 holds; with a larger one the call is an allocation and a copy, so it always moves and fails when allocation fails."
  },
  {
   "property": "C08",
   "status": "proved",
   "theorems": [
    "C08_deallocate_is_inert"
   ],
   "note": "deallocate is a no-op on the allocator state and on memory."
  },
  {
   "property": "C09",
   "status": "proved",
   "theorems": [
    "C09_grow_at_tip"
   ],
   "note": "Only header bytes of the chunk change; no copy."
  },
  {
   "property": "C10",
   "status": "partial",
   "theorems": [
    "C10_tip_shrink_frees_refuted",
    "C10_shrink_frees_never"
   ],
   "note": "README claim is false of the code: refuted by a concrete history, and C10_shrink_frees_never shows for all states that such a shrink changes nothing."
  },
  {
   "property": "C11",
   "status": "proved",
   "theorems": [
    "C11_headers_untouched",
    "C11_writes_do_not_break_later_calls"
   ],
   "note": "Headers are outside all live blocks, and any operation after any write terminates normally (see also C03)."
  },
  {
   "property": "C12",
   "status": "proved",
   "theorems": [
    "C12_upstream_contract"
   ],
   "note": "legal is the caller's side of the Allocator contract over the complete call trace."
  },
  {
   "property": "C13",
   "status": "proved",
   "theorems": [
    "C13_reset_returns_chunks"
   ],
   "note": "reset, reset_final and drop."
  },
  {
   "property": "C14",
   "status": "proved",
   "theorems": [
    "C14_warm_allocator"
   ],
   "note": "Any workload, including resizes and zeroed allocation, whose worst-case need fits."
  },
  {
   "property": "C15",
   "status": "partial",
   "theorems": [
    "C15_steady_usage_refuted",
    "C15_bounded_partial",
    "C15_one_chunk_forever_partial"
   ],
   "note": "Documented claim is false of the code: a fixed workload that needs two chunks and upstream calls in every cycle, for all n. What holds instead is proved: the chunks besides the newest hold at most twice the bytes the workload can need, every chunk asked for is bounded independently of the number of rounds, and once the kept chunk is large enough it serves every later round alone."
  },
  {
   "property": "C16",
   "status": "proved",
   "theorems": [
    "C16_chunk_growth",
    "C16_chunk_size",
    "C16_larger_chunk_refuted"
   ],
   "note": "The stated growth is proved (inequalities and exact size); README's stronger claim that the new chunk is larger is refuted."
  },
  {
   "property": "C17",
   "status": "proved",
   "theorems": [
    "C17_fails_only_if_refused"
   ],
   "note": "unwrap_unchecked(None) is OUB in the model and excluded by C19."
  },
  {
   "property": "C18",
   "status": "partial",
   "theorems": [
    "C18_layouts_valid_partial",
    "C18_invalid_layout_refuted"
   ],
   "note": "Proved when max(address limit, chunk size) + request + 2^15 <= isize::MAX; refuted in general (valid layout of isize::MAX bytes)."
  },
  {
   "property": "C19",
   "status": "partial",
   "theorems": [
    "C19_no_failure_partial",
    "C19_zero_chunk_size_refuted",
    "C19_extreme_chunk_size_refuted",
    "C19_invalid_layout_refuted"
   ],
   "note": "Proved for all release setups over a layout-agnostic underlying allocator and for debug setups with non-zero chunk size without extreme sums; refuted for chunk size 0 and extreme chunk sizes in debug builds and for a valid layout of isize::MAX bytes."
  },
  {
   "property": "C20",
   "status": "proved",
   "theorems": [
    "C20_allocate_zeroed",
    "C20_grow_zeroed"
   ],
   "note": "allocate_zeroed and grow_zeroed (trait defaults over the blink allocator)."
  },
  {
   "property": "C21",
   "status": "proved",
   "theorems": [
    "C21_blink_meets_contract",
    "C21_tower"
   ],
   "note": "contract implies contract for any underlying allocator; towers of any depth over the adversarial bottom allocator."
  },
  {
   "property": "C22",
   "status": "proved",
   "theorems": [
    "C22_separate"
   ],
   "note": "Any number of proxies, created, used, reset and dropped in any order, interleaved with direct use and resets of the shared allocator; any honest underlying allocator, debug and release builds. Operations are interleaved as a whole; the interleaving inside the shared allocator is C24-C26."
  },
  {
   "property": "C23",
   "status": "proved",
   "theorems": [
    "C23_recorded",
    "C23_capacity",
    "C23_request"
   ],
   "note": "The recorded size never decreases; capacities of the chunks of all later proxies; size of the first request of all later proxies."
  },
  {
   "property": "C24",
   "status": "proved",
   "theorems": [
    "C24_no_schedule_goes_wrong",
    "C24_blocks_well_placed",
    "C24_blocks_disjoint",
    "C24_upstream_calls_legal"
   ],
   "note": "Step machine with adversarial schedules, spurious failures, old values of relaxed loads, reset_unchecked, and adversarial upstream answers."
  },
  {
   "property": "C25",
   "status": "proved",
   "theorems": [
    "C25_independent_buffers",
    "C25_linearizable",
    "C25_others_do_not_touch",
    "C25_resize_keeps_prefix"
   ],
   "note": "Refinement of independent buffers in linearization order, per-thread linearizability, untouched blocks and resized prefixes."
  },
  {
   "property": "C26",
   "status": "proved",
   "theorems": [
    "C26_failure_means_progress",
    "C26_alone_is_fast",
    "C26_no_deadlock"
   ],
   "note": "Non-spurious CAS failure implies another thread's success; solo bound; completion of all calls is always possible."
  },
  {
   "property": "C27",
   "status": "proved",
   "theorems": [
    "C27_no_schedule_goes_wrong",
    "C27_conservation",
    "C27_conservation_when_idle",
    "C27_never_twice"
   ],
   "note": "Every schedule of any number (at most 2^63) of threads; sequentially consistent atomics; conservation as a permutation of values."
  },
  {
   "property": "C28",
   "status": "proved",
   "theorems": [
    "C28_sequential",
    "C28_concurrent_order",
    "C28_none_only_if_empty",
    "C28_effect_within_call"
   ],
   "note": "Sequential results equal those of a queue; concurrent runs linearize to a FIFO queue; None only when empty."
  },
  {
   "property": "C29",
   "status": "partial",
   "theorems": [
    "C29_cached_memory_freed_refuted",
    "C29_never_freed"
   ],
   "note": "False of the code: refuted by a concrete history in which the cached allocator's chunk stays allocated after the cache is dropped. C29_never_freed: dropping a cache never returns anything, whatever it contains."
  },
  {
   "property": "C30",
   "status": "proved",
   "theorems": [
    "C30_counter_bound",
    "C30_increment_fits",
    "C30_exhausted_stays_exhausted"
   ],
   "note": "Bound isize::MAX + threads, every increment fits in usize, exhausted caches stay exhausted until a push."
  },
  {
   "property": "C31",
   "status": "proved",
   "theorems": [
    "C31_owned_alloc",
    "C31_reset_drops_all",
    "C31_whole_history",
    "C31_exactly_once",
    "C31_registered",
    "C31_slice_registered",
    "C31_newest_first"
   ],
   "note": "For histories in which no operation is affected by C36-C38 (predicate sound, part of arrives). Any allocator keeping the contract; closures and iterators may use the Blink and may panic."
  },
  {
   "property": "C32",
   "status": "partial",
   "theorems": [
    "C32_never_dropped_partial",
    "C32_not_while_collecting_partial",
    "C32_not_registered_partial",
    "C32_slice_not_registered_partial",
    "C32_refuted"
   ],
   "note": "Proved: no reset ever drops such a value; nothing drops it earlier unless zero-sized values of the type are collected, or from_iter runs out of memory, overflows a size or has a panicking size_hint, or a put fails for lack of memory and unwinds (C82; the value was then never put in). The rest is false: collecting zero-sized values with put_no_drop drops them (refuted)."
  },
  {
   "property": "C33",
   "status": "partial",
   "theorems": [
    "C33_refuted",
    "C33_never_dropped"
   ],
   "note": "Documented claim is false of the code: emplace_shared passes no_drop = true; refuted by a concrete program, and C33_never_dropped shows for all programs that no reset ever drops a value put in this way."
  },
  {
   "property": "C34",
   "status": "proved",
   "theorems": [
    "C34_reset",
    "C34_at_most_once",
    "C34_goes_on"
   ],
   "note": "For histories in which no operation is affected by C36-C38 (predicate sound, part of arrives). Complete description of how a reset ends: normally, by a panic (exactly one panicking destructor), or by an abort (two in the same slice)."
  },
  {
   "property": "C35",
   "status": "proved",
   "theorems": [
    "C35_value",
    "C35_error"
   ],
   "note": "For histories in which no operation is affected by C36-C38 (predicate sound, part of arrives). That the uncalled closure is returned is part of the type of the result and not visible in the model; that it was not called is."
  },
  {
   "property": "C36",
   "status": "partial",
   "theorems": [
    "C36_no_undefined_behaviour_partial",
    "C36_references_never_alias_partial",
    "C36_references_are_aligned_and_ours_partial",
    "C36_references_keep_their_values_partial",
    "C36_refuted"
   ],
   "note": "Proved whenever the stored Result fits what is allocated (always for value, with, put). False for fallible emplacement on the non-dropping path: refuted by two live references sharing bytes."
  },
  {
   "property": "C37",
   "status": "partial",
   "theorems": [
    "C37_fused_partial",
    "C37_refuted",
    "C37_zero_sized_refuted"
   ],
   "note": "Proved for sized elements over allocators that return exactly what was asked for (BlinkAlloc), and without dropping over any allocator. Refuted for over-allocating allocators with dropping (uninitialised elements, UB at reset) and for zero-sized elements with lying hints."
  },
  {
   "property": "C38",
   "status": "partial",
   "theorems": [
    "C38_any_iterator_partial",
    "C38_refuted"
   ],
   "note": "Proved for every iterator without dropping, and for fused iterators with dropping. Refuted with dropping for an iterator that resumes after None."
  },
  {
   "property": "C39",
   "status": "proved",
   "theorems": [
    "C39_nothing_lost"
   ],
   "note": "For histories in which no operation is affected by C36-C38 (predicate sound, part of arrives). For iterators that do not use the Blink the log shows what was yielded; for the others C37/C38 state the same in terms of the iterator."
  },
  {
   "property": "C40",
   "status": "partial",
   "theorems": [
    "C40_refuted",
    "C40_empty_refuted",
    "C40_each_dropped_twice",
    "C40_each_dropped_early"
   ],
   "note": "False of the code: each collected zero-sized value is dropped twice (refuted, and shown for every iterator with true hints that does not use the Blink); an empty iterator panics in debug builds (refuted)."
  },
  {
   "property": "C41",
   "status": "partial",
   "theorems": [
    "C41_counts",
    "C41_saturates_partial",
    "C41_endless",
    "C41_refuted",
    "C41_underflow_refuted",
    "C41_slice_length"
   ],
   "note": "The count is exact for every honest iterator of at most usize::MAX elements; beyond that it saturates if hints stay positive. Refuted otherwise: with hints of 0 (Flatten over ranges) the debug build panics and the release build returns 0 for 2^64 elements."
  },
  {
   "property": "C42",
   "status": "proved",
   "theorems": [
    "C42_iterator_panics"
   ],
   "note": "For histories in which no operation is affected by C36-C38 (predicate sound, part of arrives). Covers panics of next, panics in its use of the Blink, panics of size_hint (the element taken last is then dropped at once), size overflow, and out-of-memory errors that unwind."
  },
  {
   "property": "C43",
   "status": "proved",
   "theorems": [
    "C43_copy",
    "C43_panics"
   ],
   "note": "For histories in which no operation is affected by C36-C38 (predicate sound, part of arrives). It panics only when memory is exhausted in a build where that unwinds."
  },
  {
   "property": "C44",
   "status": "proved",
   "theorems": [
    "C44_shared_alloc",
    "C44_reset_leaves_allocator",
    "C44_others_untouched"
   ],
   "note": "For histories in which no operation is affected by C36-C38 (predicate sound, part of arrives). reset leaves the whole allocator state and memory as they are; programs never touch blocks of others."
  },
  {
   "property": "C45",
   "status": "partial",
   "theorems": [
    "C45_refuted",
    "C45_every_change_ub"
   ],
   "note": "False of the code: in direct mode grow is called to reduce and shrink to enlarge, so every realloc that changes the size breaks the contract of the underlying allocator (refuted, and shown for all states). Histories that keep the size are covered by C46_strict_partial."
  },
  {
   "property": "C46",
   "status": "partial",
   "theorems": [
    "C46_lenient",
    "C46_strict_partial"
   ],
   "note": "Every legal history over an underlying allocator whose grow and shrink accept any sizes; over an arbitrary one every history that does not change the size of a block by realloc in direct mode (that is undefined behaviour, C45)."
  },
  {
   "property": "C47",
   "status": "proved",
   "theorems": [
    "C47_lenient",
    "C47_strict"
   ],
   "note": "Every legal history, both global allocators (the shared one used by one thread), debug and release builds."
  },
  {
   "property": "C48",
   "status": "partial",
   "theorems": [
    "C48_refuted"
   ],
   "note": "False: Blink is marked Send although put and emplace accept types that are not; a moved Blink drops them on the wrong thread (refuted). What holds for SendBlink is C54. Data races through the other Send/Sync markers are not expressible in this sequential model of Blink (the concurrent arena and cache have their own theorems, C24-C26 and C27-C30)."
  },
  {
   "property": "C49",
   "status": "proved",
   "theorems": [
    "C49_push_array_unused"
   ],
   "note": "In every reachable state push_array is empty and no thread is inside the shared part of push or the exclusive part of pop."
  },
  {
   "property": "C50",
   "status": "proved",
   "theorems": [
    "C50_closure_panics"
   ],
   "note": "Any allocator, any state."
  },
  {
   "property": "C51",
   "status": "partial",
   "theorems": [
    "C51_refuted",
    "C51_partial"
   ],
   "note": "False in debug builds: the first allocation on a proxy of a fresh shared allocator panics when it is zero-sized (refuted). Proved: nothing else panics, and nothing in release builds."
  },
  {
   "property": "C52",
   "status": "proved",
   "theorems": [
    "C52_reclaimed"
   ],
   "note": ""
  },
  {
   "property": "C53",
   "status": "proved",
   "theorems": [
    "C53_poisoned"
   ],
   "note": ""
  },
  {
   "property": "C54",
   "status": "proved",
   "theorems": [
    "C54_own_values",
    "C54_all_dropped"
   ],
   "note": ""
  },
  {
   "property": "C55",
   "status": "proved",
   "theorems": [
    "C55_no_data_race",
    "C55_runs_are_traced",
    "C55_writes_are_traced",
    "C55_reads_are_traced",
    "C55_cursors_only_grow"
   ],
   "note": "C55_no_data_race; the other theorems show that the trace it speaks about records every access."
  },
  {
   "property": "C56",
   "status": "proved",
   "theorems": [
    "C56_no_schedule_goes_wrong",
    "C56_our_blocks",
    "C56_their_blocks",
    "C56_all_disjoint",
    "C56_upstream_calls_legal",
    "C56_our_contents",
    "C56_their_contents",
    "C56_ours_keep_theirs",
    "C56_theirs_keep_ours",
    "C56_calls_finish"
   ],
   "note": "The arena of C24-C26 while others use the underlying allocator in between its steps; calls of the underlying allocator are atomic (it is thread-safe). C56_calls_finish: from every reached state the running calls can be finished."
  },
  {
   "property": "C57",
   "status": "proved",
   "theorems": [
    "C57_no_schedule_goes_wrong",
    "C57_blink_blocks",
    "C57_direct_blocks",
    "C57_all_disjoint",
    "C57_upstream_calls_legal",
    "C57_blink_contents",
    "C57_direct_contents",
    "C57_returned_block",
    "C57_calls_finish"
   ],
   "note": "Step machine: Conc.v plus one step for every access of the counter, other users of the underlying allocator in between. Direct-mode realloc only with unchanged size (C45). Without local(). C57_calls_finish: from every reached state all running calls, resets included, can be finished (no deadlock)."
  },
  {
   "property": "C58",
   "status": "partial",
   "theorems": [
    "C58_counter",
    "C58_check_partial",
    "C58_calm_resets",
    "C58_refuted",
    "C58_spurious_refuted"
   ],
   "note": "False when calls overlap a reset: the check misses a block allocated between check and reset and every later reset then panics (C58_refuted), or panics although everything was given back (C58_spurious_refuted). Proved for resets that no other call overlaps."
  },
  {
   "property": "C59",
   "status": "proved",
   "theorems": [
    "C59_no_schedule_goes_wrong",
    "C59_blocks_well_placed",
    "C59_blocks_disjoint",
    "C59_own_block",
    "C59_proxy_contents",
    "C59_shared_contents",
    "C59_upstream_calls_legal",
    "C59_panics",
    "C59_no_deadlock",
    "C59_reclaimed",
    "C59_recorded_size_grows",
    "C59_recorded_size_covers"
   ],
   "note": "Conc.v steps for the shared allocator, interleaved with proxies. A proxy's own work between two uses of the shared allocator is one step (its arena is not shared); its requests for chunks go through the shared machine step by step. Panics: only those of C51 (C59_panics)."
  },
  {
   "property": "C60",
   "status": "proved",
   "theorems": [
    "C60_calls_finish",
    "C60_waits_for_another"
   ],
   "note": "Blocked steps leave the state unchanged and imply another thread inside a call that can move; all running calls can be driven to their end. The room condition is that of Vec::push (C27_no_schedule_goes_wrong). Fairness of the lock itself (parking_lot) is not modelled."
  },
  {
   "property": "C61",
   "status": "proved",
   "theorems": [
    "C61_no_conflict"
   ],
   "note": "Over all schedules, including the counter being put back by the overflow guard while others take values."
  },
  {
   "property": "C62",
   "status": "proved",
   "theorems": [
    "C62_fails_only_when_it_must",
    "C62_one_request_per_call"
   ],
   "note": "Step machine of C24. The failing step is the slow path under the write lock; sizes as in C16."
  },
  {
   "property": "C63",
   "status": "partial",
   "theorems": [
    "C63_there_was_no_room_partial",
    "C63_refuted"
   ],
   "note": "False of the code: alloc_slow does not look again after taking the write lock, so threads that find no room at the same time create a chunk each (C63_refuted). Proved: at some moment of the same call the newest chunk had no room, old values of the cursor included, and only this step asks, once."
  },
  {
   "property": "C64",
   "status": "proved",
   "theorems": [
    "C64_memory_linear",
    "C64_request_linear",
    "C64_chunks_logarithmic",
    "C64_calls_logarithmic"
   ],
   "note": "Sizes include the worst padding of each request. The last two theorems count chunks and successful calls: 32 * 2^((n-1)/2) is at most the bytes requested plus 32."
  },
  {
   "property": "C65",
   "status": "proved",
   "theorems": [
    "C65_everything_returned",
    "C65_borrowed_untouched"
   ],
   "note": "For programs that are sound in the sense of C36-C38. Two panics in one slice abort, as in C34."
  },
  {
   "property": "C66",
   "status": "proved",
   "theorems": [
    "C66_one_chunk",
    "C66_raised",
    "C66_warmed_up"
   ],
   "note": "Operations interleaved as a whole. The rounds follow each other; what happens besides them is arbitrary. The second round is not always enough (C66_case); it is in the documented example (C66_documented)."
  },
  {
   "property": "C67",
   "status": "proved",
   "theorems": [
    "C67_no_schedule_goes_wrong",
    "C67_conservation",
    "C67_none_only_if_empty",
    "C67_effect_within_call",
    "C67_counter_bound",
    "C67_no_conflict",
    "C67_fifo_refuted"
   ],
   "note": "About the same machine started with slots in push_array, which no public function creates. Sequentially consistent. That the order of pops would change is shown by a witness (C67_fifo_refuted)."
  },
  {
   "property": "C68",
   "status": "proved",
   "theorems": [
    "C68_no_data_race",
    "C68_no_data_race_with_slots",
    "C68_writes_are_traced",
    "C68_reads_are_traced"
   ],
   "note": "Ordering comes only from the reader-writer lock; the machine itself is sequentially consistent. The trace is shown to be complete: steps change and depend on nothing else (C68_writes_are_traced, C68_reads_are_traced)."
  },
  {
   "property": "C69",
   "status": "proved",
   "theorems": [
    "C69_still_an_allocator",
    "C69_whatever_they_do",
    "C69_no_undefined_behaviour",
    "C69_references_keep_their_values",
    "C69_whole_history",
    "C69_others_keep_their_values",
    "C69_nothing_in_common"
   ],
   "note": "Others act before and after every call to the allocator; a call is not interleaved with another (C24 is about that for SyncBlinkAlloc). They use their own blocks only and cannot reset what is borrowed. The hypothesis on closures and iterators of the Blink is that of C36-C38."
  },
  {
   "property": "C70",
   "status": "proved",
   "theorems": [
    "C70_no_undefined_behaviour",
    "C70_references_keep_their_values",
    "C70_references_never_alias",
    "C70_whole_history",
    "C70_exactly_once",
    "C70_others_untouched"
   ],
   "note": "Operations interleave as a whole; with C69 also with others at work within them. The hypothesis on closures and iterators is that of C36-C38."
  },
  {
   "property": "C71",
   "status": "proved",
   "theorems": [
    "C71_together",
    "C71_panics",
    "C71_recorded"
   ],
   "note": "Operations interleave as a whole. Resets are allowed when every proxy has been dropped or has not been used yet."
  },
  {
   "property": "C72",
   "status": "partial",
   "theorems": [
    "C72_refuted",
    "C72_partial"
   ],
   "note": "False as stated: a proxy with no block left that survives a reset hands out memory that the global allocator hands out too, or has its header overwritten; no check notices (C72_refuted). Dropping the used proxies first is sufficient (C72_partial, C71)."
  },
  {
   "property": "C73",
   "status": "proved",
   "theorems": [
    "C73_still_an_allocator",
    "C73_at_any_moment",
    "C73_no_undefined_behaviour",
    "C73_references_keep_their_values",
    "C73_whole_history",
    "C73_others_keep_their_values",
    "C73_calls_in_order",
    "C73_nothing_in_common"
   ],
   "note": "Steps of other threads come between any two steps of a call; accesses of the Blink to its own blocks are not steps of the machine. When the given schedule is used up in a call, those who hold the lock finish, then the call. Nobody resets the allocator."
  },
  {
   "property": "C74",
   "status": "proved",
   "theorems": [
    "C74_independent_buffers",
    "C74_disjoint",
    "C74_placed",
    "C74_accounts",
    "C74_unwrapping_is_silent",
    "C74_leaks_for_ever",
    "C74_reset_final_first",
    "C74_all_returned"
   ],
   "note": "Actions interleave as a whole; after unwrapping, the blocks can still be read and written. The sequential arena (for SyncBlinkAlloc shared by threads next to other users of the allocator see C56)."
  },
  {
   "property": "C75",
   "status": "proved",
   "theorems": [
    "C75_as_with_a_queue",
    "C75_disjoint",
    "C75_placed",
    "C75_accounts",
    "C75_left_in_the_cache",
    "C75_cache_only_moves",
    "C75_others_untouched",
    "C75_warm",
    "C75_reset_makes_room"
   ],
   "note": "push and pop are step machines; an action on a BlinkAlloc is one step, since it belongs to one thread (the underlying allocator is taken to be atomic). C29 is quantified: exactly the chunks of what is in the cache remain."
  },
  {
   "property": "C76",
   "status": "proved",
   "theorems": [
    "C76_separate",
    "C76_panics",
    "C76_others_keep_their_values",
    "C76_nothing_in_common",
    "C76_calls_in_order",
    "C76_blink",
    "C76_blink_at_any_moment",
    "C76_blink_among_others",
    "C76_given_back"
   ],
   "note": "Seen from one thread; the others do whatever the machine of Conc.v allows at every step of its calls of the shared allocator. What the thread does to its own arenas between two such calls is not interleaved. Nobody resets the shared allocator (it is borrowed). Loads of max_local_alloc return the newest value (old ones: C59)."
  },
  {
   "property": "C77",
   "status": "proved",
   "theorems": [
    "C77_exact",
    "C77_same_in_every_build",
    "C77_contents_do_not_matter"
   ],
   "note": "Equality with a second machine, Paper.v, that is plain arithmetic on addresses and shares with the model only the types of operations, layouts and calls. One thread; also SyncBlinkAlloc used by one thread, whose code is the same. Loop bounds and memory contents are not in Paper.v; contents are C03 and C81."
  },
  {
   "property": "C78",
   "status": "proved",
   "theorems": [
    "C78_blink_alloc",
    "C78_any_memory",
    "C78_tower",
    "C78_blink",
    "C78_blink_borrowed",
    "C78_blink_foreign",
    "C78_proxies",
    "C78_threads",
    "C78_thread_blink",
    "C78_thread_proxies",
    "C78_global",
    "C78_global_proxies",
    "C78_threads_shared",
    "C78_threads_global",
    "C78_threads_proxies"
   ],
   "note": "Memory is the bottom allocator's: every store of the model - headers, copies, zeroing, values, drop lists, clients' writes to their own blocks - goes to it. Stores by the underlying allocator itself into what was returned to it are the model's Undef. Covered: BlinkAlloc, towers, Blink, proxies, the global allocators with proxies, threads on a SyncBlinkAlloc alone, among other users, or with proxies, threads on a GlobalBlinkAlloc. Not covered: lodging (C76 arenas under a Blink), threads on a GlobalBlinkAlloc together with its proxies."
  },
  {
   "property": "C79",
   "status": "proved",
   "theorems": [
    "C79_notes_change_nothing",
    "C79_notes_ok",
    "C79_value",
    "C79_copy",
    "C79_uninit",
    "C79_quiet",
    "C79_collect",
    "C79_known_length",
    "C79_empty",
    "C79_zero_sized"
   ],
   "note": "Any allocator and any state, no hypothesis on either. Observed through an allocator that takes notes, shown to change nothing (C79_notes_change_nothing, an instance of parametricity of Blink in its allocator). Closures and iterators that use the Blink themselves are not covered, nor what the BlinkAlloc below asks of its own allocator (C64, C77). With a false upper bound the number of requests is linear (C79_case_false_hints)."
  },
  {
   "property": "C80",
   "status": "proved",
   "theorems": [
    "C80_histories",
    "C80_histories_as_before",
    "C80_blinks",
    "C80_blinks_as_before",
    "C80_references",
    "C80_blinks_on_bottom",
    "C80_any_allocator",
    "C80_proxies",
    "C80_global_strict",
    "C80_global_lenient"
   ],
   "note": "Dirt replaces the model's Undef in the bottom allocator and in everything a BlinkAlloc hands out, grows into or takes back; proved relationally (Param.v, BlinkParam.v: whatever is built on an allocator answers alike on allocators that answer alike). It makes reads of recycled memory visible, which the other theorems' BlinkAlloc hands out with its old contents. For Blinks: programs for which the code is right ([sound], see C36). Interleaved threads are not covered."
  },
  {
   "property": "C81",
   "status": "proved",
   "theorems": [
    "C81_exact",
    "C81_footprint"
   ],
   "note": "Equality with PaperMem.v, which says what each operation does to bytes without anything of the code, on top of C77. Copies that read too much are visible here because they would leave something in the rest of the new block. One thread, a BlinkAlloc directly on the underlying allocator, as C77."
  },
  {
   "property": "C82",
   "status": "proved",
   "theorems": [
    "C82_value",
    "C82_collect",
    "C82_goes_on"
   ],
   "note": "For histories in which no operation is affected by C36-C38 (predicate sound, part of arrives). C82_value is for closures that do nothing but return; C50 covers the others, C43 the copies. C82_collect is for iterators that neither panic nor use the Blink; C42 covers the others. A closure is taken to hold the value it would return."
  },
  {
   "property": "C83",
   "status": "proved",
   "theorems": [
    "C83_in_place",
    "C83_recorded",
    "C83_second_time"
   ],
   "note": "Operations interleaved as a whole. On its proxy the vector is alone, as in the documented example; everybody else is arbitrary. A vector starts with a request of at least one byte. C83_second_time combines the other two."
  },
  {
   "property": "C84",
   "status": "proved",
   "theorems": [
    "C84_polite",
    "C84_without_references",
    "C84_demand_needed",
    "C84_plain"
   ],
   "note": "A destructor is a program of looks, writes, allocations and a possible panic, depending on its type, on where the value is and on its value; it does not get at the Blink, which is borrowed mutably. C84_demand_needed shows that the demand cannot be dropped; C84_plain ties this to the destructors of C31-C35."
  },
  {
   "property": "C85",
   "status": "proved",
   "theorems": [
    "C85_diary_changes_nothing",
    "C85_exact",
    "C85_resets",
    "C85_value",
    "C85_collect"
   ],
   "note": "The diary is kept by a wrapper around the allocator (C85_diary_changes_nothing: it changes nothing). Programs are those of C36 (sound), since the others have undefined behaviour. Room for 2n+16 elements is enough, by C79, not always necessary."
  },
  {
   "property": "C86",
   "status": "proved",
   "theorems": [
    "C86_exact",
    "C86_one_call",
    "C86_with_room"
   ],
   "note": "The shared allocator and the proxies are used by one thread at a time, call by call (Proxy.v); threads in the middle of calls are C59, C71. As in C22, with a debug build or a bounded underlying allocator the chunks of the proxies must be requests it can be asked for (proxies_ok)."
  },
  {
   "property": "C87",
   "status": "proved",
   "theorems": [
    "C87_exact",
    "C87_one_call",
    "C87_with_room"
   ],
   "note": "As in C21, with a debug build or a bounded level below the chunks of a level must be requests the level below can be asked for, and in a debug build the chunk size is at least 1 (tower_ok). The client is at the top; clients of the levels below are C86 (two levels)."
  },
  {
   "property": "C88",
   "status": "proved",
   "theorems": [
    "C88_exact",
    "C88_exact_strict",
    "C88_same_answers",
    "C88_one_call",
    "C88_with_room",
    "C88_chunks_wait"
   ],
   "note": "Since State::resize calls grow and shrink the wrong way round (C45), either the underlying allocator accepts any sizes in both (C88_exact) or the client does not change sizes in direct mode (C88_exact_strict). One thread; many threads are C57, GlobalBlinkAlloc::local is C71."
  },
  {
   "property": "C89",
   "status": "proved",
   "theorems": [
    "C89_exact",
    "C89_every_move",
    "C89_warm"
   ],
   "note": "The machine of C24: interleavings step by step, with old values of the relaxed cursor loads. A resize that finds itself last in the chunk may be moved on paper as well as grown, because an old value of the cursor makes the code do so. As in C24, a zeroed request is an allocation followed by a write of zeroes. A block of size zero at the very start of a chunk is the exception: there is no old value, so it grows where it is."
  },
  {
   "property": "C90",
   "status": "proved",
   "theorems": [
    "C90_exact",
    "C90_every_move"
   ],
   "note": "The machine of C24 with other users of the underlying allocator (Shared.v); each call of theirs is one step, because the underlying allocator is thread-safe. Calls that break the rules of Allocator are not made. The others do not reset the underlying allocator."
  },
  {
   "property": "C91",
   "status": "proved",
   "theorems": [
    "C91_exact",
    "C91_every_move"
   ],
   "note": "The machine of C57 (GConc.v): the steps of Conc.v, one step for each access of the counter, one for each call in direct mode. Reallocation in direct mode only with the same size (every other call is undefined behaviour, C45). Proxies made by local are not part of it (C71, C86)."
  },
  {
   "property": "C92",
   "status": "proved",
   "theorems": [
    "C92_exact",
    "C92_every_move"
   ],
   "note": "The machine of C59 (PConc.v): the steps of Conc.v for calls of the shared allocator, one step for an operation on a proxy that needs no chunk, and two around the call of the shared allocator for one that does. reset of the shared allocator only without proxies, as the borrow checker demands."
  },
  {
   "property": "C93",
   "status": "proved",
   "theorems": [
    "C93_exact",
    "C93_mode_unseen"
   ],
   "note": "Sequential operations, the careful client of C71 (proxies that have chunks are dropped before reset and direct_mode); threads are C91 and C92, separately. lax = false: clients that never change the size of a block in direct mode (C45)."
  },
  {
   "property": "C94",
   "status": "proved",
   "theorems": [
    "C94_threads",
    "C94_new",
    "C94_first_request",
    "C94_twice",
    "C94_one_chunk",
    "C94_served"
   ],
   "note": "Histories without reset (after a reset C14 applies); total_need and most_called count size + alignment - 1 for every request, also for resizes in place. C94_twice: sizes that are a power of two from 32 bytes to 8 KB. C94_threads: calls as in C24-C26 (no allocate_zeroed, no grow_zeroed); the number of chunks is also reached by some runs (example), see C63."
  },
  {
   "property": "C95",
   "status": "proved",
   "theorems": [
    "C95_chunks",
    "C95_after_reset",
    "C95_reset_cleans",
    "C95_memory",
    "C95_exponential",
    "C95_stampede"
   ],
   "note": "Between resets; calls as in C24-C26 (no allocate_zeroed, no grow_zeroed). In C95_exponential a thread may be refused instead when the underlying allocator refuses or the size of a chunk overflows. C95_stampede is about one setup (default chunk size, an underlying allocator that grants up to 64 GB). Schedules come from C89_every_move."
  }
 ]
}