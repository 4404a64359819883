{"id": "C01", "title": "Returned blocks are aligned and large enough", "statement": "Every successful BlinkAlloc/SyncBlinkAlloc/LocalBlinkAlloc allocate returns a non-null block whose address is a multiple of the requested alignment, whose length is at least the requested size, and which lies wholly inside a memory chunk currently obtained from the underlying allocator, without wrapping the address space.", "quantifier": "every finite history of API calls, every valid layout, every initial chunk size, and every underlying allocator that honours the Allocator contract (including one that fails at any call)", "why_tests_cant": "a test fixes one sequence of layouts and one underlying allocator; the claim is about all of them", "anchors": ["src/arena/mod.rs: ChunkHeader::alloc, alloc_slow", "src/local.rs: BlinkAlloc::allocate"]}
{"id": "C02", "title": "Live blocks never overlap", "statement": "At any moment, any two blocks handed out since the last reset and still owned by the client (allocated or resized, not deallocated) share no byte.", "quantifier": "every finite history of API calls, every valid layout, every initial chunk size, and every underlying allocator that honours the Allocator contract (including one that fails at any call)", "why_tests_cant": "a test fixes one sequence of layouts and one underlying allocator; the claim is about all of them", "anchors": ["src/arena/mod.rs: ChunkHeader::alloc, resize, dealloc, alloc_slow, resize_slow", "src/local.rs: BlinkAlloc"]}
{"id": "C03", "title": "Live blocks behave as independent buffers", "statement": "Reading a live block always returns exactly the bytes its owner last put there (by writing, zeroed allocation or resize): no operation on another block, and no allocator bookkeeping, changes them.", "quantifier": "every finite history of API calls, every valid layout, every initial chunk size, and every underlying allocator that honours the Allocator contract (including one that fails at any call), interleaved with arbitrary client writes inside live blocks", "why_tests_cant": "needs all interleavings of writes and allocator calls", "anchors": ["src/arena/mod.rs: init_chunk, alloc, resize, resize_slow, dealloc", "src/local.rs"]}
{"id": "C04", "title": "Resize preserves the common prefix", "statement": "A successful resize/grow/shrink returns a block that meets the new layout and whose first min(old size, new size) bytes equal the old block's, in place or moved, on the fast and on the slow path; the copy never overlaps.", "quantifier": "every finite history of API calls, every valid layout, every initial chunk size, and every underlying allocator that honours the Allocator contract (including one that fails at any call)", "why_tests_cant": "a test fixes one sequence of layouts and one underlying allocator; the claim is about all of them", "anchors": ["src/arena/mod.rs: ChunkHeader::resize, resize_slow", "src/local.rs: BlinkAlloc::resize, grow, shrink"]}
{"id": "C05", "title": "Failed allocation and failed resize change nothing for the client", "statement": "When allocate or resize returns Err, every previously live block - including the one being resized - is still live, at the same address, with the same contents, and the set of chunks held is unchanged.", "quantifier": "every finite history of API calls, every valid layout, every initial chunk size, and every underlying allocator that honours the Allocator contract (including one that fails at any call), with failures injected at any call", "why_tests_cant": "failure points are unbounded in number", "anchors": ["src/arena/mod.rs: alloc_slow, resize_slow", "src/local.rs: resize"]}
{"id": "C06", "title": "Shrink without raising alignment is free and infallible", "statement": "Shrinking (or keeping the size of) any live block to a layout of no larger alignment always succeeds, returns the same address, and never calls the underlying allocator.", "quantifier": "every finite history of API calls, every valid layout, every initial chunk size, and every underlying allocator that honours the Allocator contract (including one that fails at any call)", "why_tests_cant": "a test fixes one sequence of layouts and one underlying allocator; the claim is about all of them", "anchors": ["src/arena/mod.rs: ChunkHeader::resize", "src/api.rs: BlinkAllocator"]}
{"id": "C07", "title": "Documented guarantee: shrink never moves an already aligned block", "statement": "BlinkAllocator documents that shrink always succeeds and never moves memory when the pointer is already aligned to the new alignment.", "quantifier": "every finite history of API calls, every valid layout, every initial chunk size, and every underlying allocator that honours the Allocator contract (including one that fails at any call)", "why_tests_cant": "depends on accidental alignment of the address", "anchors": ["src/api.rs: BlinkAllocator doc", "src/arena/mod.rs: ChunkHeader::resize"]}
{"id": "C08", "title": "Deallocate never disturbs live memory", "statement": "Deallocating any live block (in any chunk, in any order, with any size between the requested and returned size) frees no memory that is still in use, moves no cursor, calls no underlying allocator and changes no byte.", "quantifier": "every finite history of API calls, every valid layout, every initial chunk size, and every underlying allocator that honours the Allocator contract (including one that fails at any call)", "why_tests_cant": "the cursor comparison must be wrong for every chunk placement, including adjacent chunks and zero-sized blocks", "anchors": ["src/arena/mod.rs: ChunkHeader::dealloc, dealloc"]}
{"id": "C09", "title": "Growing the last block is in place", "statement": "Growing the most recently allocated non-moved block without raising its alignment, when the chunk has room, returns the same address and neither copies nor calls the underlying allocator.", "quantifier": "every finite history of API calls, every valid layout, every initial chunk size, and every underlying allocator that honours the Allocator contract (including one that fails at any call)", "why_tests_cant": "a test fixes one sequence of layouts and one underlying allocator; the claim is about all of them", "anchors": ["src/arena/mod.rs: ChunkHeader::resize"]}
{"id": "C10", "title": "Documented: shrinking at the tip frees memory for reuse", "statement": "README claims a shrink on the tip of allocation frees the memory for reuse.", "quantifier": "every finite history of API calls, every valid layout, every initial chunk size, and every underlying allocator that honours the Allocator contract (including one that fails at any call)", "why_tests_cant": "claim over all shrinks", "anchors": ["README.md: Design", "src/arena/mod.rs: ChunkHeader::resize, dealloc"]}
{"id": "C11", "title": "Client writes cannot corrupt the allocator", "statement": "Whatever a client writes inside the blocks it owns, all later allocator operations work on intact bookkeeping: blocks never overlap chunk headers and no later call reads a corrupted header.", "quantifier": "every finite history of API calls, every valid layout, every initial chunk size, and every underlying allocator that honours the Allocator contract (including one that fails at any call), with arbitrary data written to live blocks", "why_tests_cant": "needs arbitrary data at arbitrary times", "anchors": ["src/arena/mod.rs: ChunkHeader, init_chunk, base"]}
{"id": "C12", "title": "The underlying allocator's contract is respected", "statement": "Every deallocate sent to the underlying allocator names a block currently outstanding, with the alignment it was requested with and a size between the requested size and the returned length; nothing is freed twice.", "quantifier": "every finite history of API calls, every valid layout, every initial chunk size, and every underlying allocator that honours the Allocator contract (including one that fails at any call)", "why_tests_cant": "double frees depend on the whole reset/allocate history", "anchors": ["src/arena/mod.rs: dealloc_chunk, reset, reset_leak", "src/local.rs: Drop"]}
{"id": "C13", "title": "Reset keeps one chunk; final reset and drop return everything", "statement": "After reset at most one chunk is still held from the underlying allocator - the most recent one - and all others have been returned; after reset_final or drop nothing is held.", "quantifier": "every finite history of API calls, every valid layout, every initial chunk size, and every underlying allocator that honours the Allocator contract (including one that fails at any call)", "why_tests_cant": "a test fixes one sequence of layouts and one underlying allocator; the claim is about all of them", "anchors": ["src/arena/mod.rs: reset, ChunkHeader::reset", "src/local.rs: reset, reset_final, Drop"]}
{"id": "C14", "title": "A warm allocator does not touch the underlying allocator", "statement": "After reset, any sequence of allocations whose sizes plus worst-case alignment padding fit the retained chunk's capacity is served from it with no call to the underlying allocator and no failure.", "quantifier": "every finite history of API calls, every valid layout, every initial chunk size, and every underlying allocator that honours the Allocator contract (including one that fails at any call), and every sequence of layouts that fits", "why_tests_cant": "a test fixes one sequence of layouts and one underlying allocator; the claim is about all of them", "anchors": ["src/arena/mod.rs: ChunkHeader::alloc, reset", "src/tests.rs: test_reuse"]}
{"id": "C15", "title": "Documented: steady usage converges to one chunk", "statement": "The docs claim that with steady memory usage, after a few reset cycles one chunk suffices for all allocations between resets.", "quantifier": "every workload repeated forever between resets", "why_tests_cant": "a claim about the limit of infinitely many cycles", "anchors": ["README.md: Design", "src/local.rs: reset", "src/arena/mod.rs: alloc_slow"]}
{"id": "C16", "title": "Chunk growth", "statement": "When a chunk is exhausted the newly requested chunk can hold the request, at least the configured chunk size (when it is not the first request: plus a growth step), and at least the total capacity of all chunks older than the exhausted one; the README's stronger claim is that the new chunk is larger than the exhausted one.", "quantifier": "every finite history of API calls, every valid layout, every initial chunk size, and every underlying allocator that honours the Allocator contract (including one that fails at any call)", "why_tests_cant": "a test fixes one sequence of layouts and one underlying allocator; the claim is about all of them", "anchors": ["src/arena/mod.rs: alloc_slow, CHUNK_* constants", "README.md"]}
{"id": "C17", "title": "Allocation fails only when it must", "statement": "allocate returns Err only if the underlying allocator refused a chunk or the required chunk size is not representable; in particular the slow path's unchecked unwrap is never reached with None, whatever address and (possibly larger) length the underlying allocator returned.", "quantifier": "every finite history of API calls, every valid layout, every initial chunk size, and every underlying allocator that honours the Allocator contract (including one that fails at any call)", "why_tests_cant": "unwrap_unchecked must be justified for all sizes, alignments and addresses", "anchors": ["src/arena/mod.rs: alloc_slow"]}
{"id": "C18", "title": "Layouts sent to the underlying allocator are valid", "statement": "Every layout constructed for the underlying allocator satisfies Layout's invariant (size rounded up to the alignment at most isize::MAX).", "quantifier": "every chunk size and layout accepted by the safe API", "why_tests_cant": "extreme sizes", "anchors": ["src/arena/mod.rs: alloc_chunk, alloc_slow"]}
{"id": "C19", "title": "No assertion, overflow or undefined behaviour in any history", "statement": "No API history that respects the documented safety rules reaches a failed debug assertion, an arithmetic overflow, a wild header read, an overlapping copy or an unbounded loop.", "quantifier": "every finite history of API calls, every valid layout, every initial chunk size, and every underlying allocator that honours the Allocator contract (including one that fails at any call), in debug and release configuration", "why_tests_cant": "a test fixes one sequence of layouts and one underlying allocator; the claim is about all of them", "anchors": ["src/arena/mod.rs: all debug_assert!, unsafe blocks"]}
{"id": "C20", "title": "Zeroed allocation is zero", "statement": "allocate_zeroed (and grow_zeroed for the added bytes) returns memory reading as zero even when the chunk was used and reset before.", "quantifier": "every finite history of API calls, every valid layout, every initial chunk size, and every underlying allocator that honours the Allocator contract (including one that fails at any call)", "why_tests_cant": "stale data depends on the history", "anchors": ["src/local.rs: Allocator::allocate_zeroed (default)", "src/sync.rs"]}
{"id": "C21", "title": "BlinkAlloc is itself a conforming allocator, to any nesting depth", "statement": "If the underlying allocator meets the Allocator contract, then so does the blink allocator built on it; hence blink allocators can be stacked to any depth.", "quantifier": "every conforming underlying allocator", "why_tests_cant": "universally quantified over allocators", "anchors": ["src/local.rs: unsafe impl Allocator for BlinkAlloc", "src/sync.rs: unsafe impl Allocator"]}
{"id": "C22", "title": "Shared allocator and local proxies never hand out overlapping memory", "statement": "Blocks obtained directly from a SyncBlinkAlloc and blocks obtained from any of its LocalBlinkAlloc proxies (including after proxy resets and proxy drops) are pairwise disjoint while live, and keep their contents.", "quantifier": "every history over one shared allocator and any number of proxies", "why_tests_cant": "a test fixes one sequence of layouts and one underlying allocator; the claim is about all of them", "anchors": ["src/sync.rs: SyncBlinkAlloc::local, LocalBlinkAlloc"]}
{"id": "C23", "title": "Proxy warm-up size", "statement": "After a proxy is reset or dropped, every proxy created later from the same shared allocator requests a first chunk with capacity at least that of the finished proxy's last chunk; the recorded size never decreases.", "quantifier": "every sequence of proxy lifetimes", "why_tests_cant": "a test fixes one sequence of layouts and one underlying allocator; the claim is about all of them", "anchors": ["src/sync.rs: local, update_max_local_alloc, Drop for LocalBlinkAlloc", "src/arena/local.rs: last_chunk_size"]}
{"id": "C24", "title": "Concurrent allocation is safe under every schedule", "statement": "For any number of threads allocating, resizing and deallocating through one SyncBlinkAlloc, under every interleaving of atomic steps and lock acquisitions and every pattern of spurious compare-exchange failures, all live blocks are aligned, in bounds and pairwise disjoint.", "quantifier": "every schedule, number of threads, layouts, spurious failures, upstream answers", "why_tests_cant": "schedules cannot be enumerated", "anchors": ["src/arena/sync.rs", "src/arena/mod.rs: ChunkHeader::alloc, resize, dealloc"]}
{"id": "C25", "title": "Concurrent resize preserves contents", "statement": "Under every schedule, a thread's own block keeps its bytes while other threads operate, and its resize preserves the common prefix.", "quantifier": "every schedule", "why_tests_cant": "schedules cannot be enumerated", "anchors": ["src/arena/mod.rs: ChunkHeader::resize", "src/arena/sync.rs: resize_fast, resize_slow"]}
{"id": "C26", "title": "Lock-free progress of the fast path", "statement": "A compare-exchange in the allocation loop fails non-spuriously only if another thread's allocation or growth succeeded in the meantime; a thread running alone without spurious failures finishes in a bounded number of its own steps.", "quantifier": "every schedule", "why_tests_cant": "liveness over all schedules", "anchors": ["src/arena/mod.rs: ChunkHeader::alloc"]}
{"id": "C27", "title": "The cache never hands one allocator to two owners and never loses one", "statement": "Under every schedule of concurrent push and pop, the multiset of pushed allocators equals those popped plus those still inside; none is returned twice or lost.", "quantifier": "every schedule and number of threads", "why_tests_cant": "schedules cannot be enumerated", "anchors": ["src/cache.rs: BlinkAllocCache::push, pop, flush"]}
{"id": "C28", "title": "The cache is a FIFO queue", "statement": "For sequential use, pop returns the least recently pushed allocator, and returns None exactly when the cache is empty.", "quantifier": "every sequence of push and pop", "why_tests_cant": "a test fixes one sequence of layouts and one underlying allocator; the claim is about all of them", "anchors": ["src/cache.rs"]}
{"id": "C29", "title": "Dropping the cache frees cached allocators", "statement": "Dropping a BlinkAllocCache releases the memory of the allocators stored in it.", "quantifier": "every history of pushes and pops", "why_tests_cant": "claim about all histories", "anchors": ["src/cache.rs: Inner, BlinkAllocCache (no Drop impl)"]}
{"id": "C30", "title": "Cache counters never wrap", "statement": "The pop/push index counters never wrap around and never become valid again by overflow, however many pops are attempted on an exhausted cache.", "quantifier": "every schedule with fewer than 2^63 threads", "why_tests_cant": "needs more than 2^63 operations", "anchors": ["src/cache.rs: prevent_overflow"]}
{"id": "C31", "title": "Values put into Blink are dropped exactly once, newest first", "statement": "reset, drop_all and drop of a Blink run the destructor of every value emplaced with dropping enabled since the last reset exactly once, in reverse order of emplacement (elements of one slice in order), each on the value's current contents, and of nothing else.", "quantifier": "every history of emplacements, mutations and resets, closures and iterators using the Blink themselves included, that stays clear of the memory errors described by C36-C38", "why_tests_cant": "a test fixes one sequence of layouts and one underlying allocator; the claim is about all of them", "anchors": ["src/drop_list.rs: DropList::add, reset, drop_from_item", "src/blink.rs: reset, drop_all, Drop"]}
{"id": "C32", "title": "No-drop emplacement never runs destructors", "statement": "Values emplaced with put_no_drop / emplace_no_drop, or of types without drop glue, are never dropped by Blink.", "quantifier": "every history", "why_tests_cant": "a test fixes one sequence of layouts and one underlying allocator; the claim is about all of them", "anchors": ["src/blink.rs: _try_emplace, emplace_no_drop"]}
{"id": "C33", "title": "Documented: emplace_shared values are dropped on reset", "statement": "The docs of emplace_shared say emplaced values are still dropped on reset.", "quantifier": "every history", "why_tests_cant": "claim over all histories", "anchors": ["src/blink.rs: emplace_shared"]}
{"id": "C34", "title": "A panicking destructor never causes a double drop", "statement": "If destructors panic during reset, no value is dropped twice, then or by any later reset or drop, and the Blink stays usable; values of list items after the panicking one are leaked.", "quantifier": "every subset of panicking destructors, every history that stays clear of the memory errors described by C36-C38", "why_tests_cant": "all crash points", "anchors": ["src/drop_list.rs: DropList::reset"]}
{"id": "C35", "title": "Failed emplacement hands the input back", "statement": "If allocation fails, try_value returns the value and try_with/try_with_fallible return the uncalled closure; nothing is registered for dropping. If a fallible closure returns Err, the error is returned, and nothing is registered.", "quantifier": "every failure point of every history that stays clear of the memory errors described by C36-C38", "why_tests_cant": "a test fixes one sequence of layouts and one underlying allocator; the claim is about all of them", "anchors": ["src/blink.rs: _try_emplace_drop, _try_emplace_no_drop, try_value, try_with, try_with_fallible"]}
{"id": "C36", "title": "Emplaced values are stored inside the block allocated for them", "statement": "Every byte written or exposed while emplacing a value lies inside the block allocated for it, so references returned by Blink never alias and never clobber other values.", "quantifier": "every value and error type layout", "why_tests_cant": "depends on type layouts chosen by the compiler", "anchors": ["src/blink.rs: _try_emplace_no_drop, _try_emplace_drop, with_fallible, try_with_fallible"]}
{"id": "C37", "title": "from_iter stores exactly the yielded elements in order", "statement": "For iterators that keep returning None after the first None, from_iter/try_from_iter returns, on success, a slice holding exactly the yielded elements in order, whatever the size hints say.", "quantifier": "every element sequence, every (possibly lying) size hint behaviour, every allocator failure pattern", "why_tests_cant": "hints and growth steps combine unboundedly", "anchors": ["src/blink.rs: _try_emplace_drop_from_iter, _try_emplace_no_drop_from_iter, size_hint_and_one"]}
{"id": "C38", "title": "from_iter with arbitrary iterators", "statement": "from_iter holds exactly the elements it took from the iterator even if the iterator resumes after returning None.", "quantifier": "every iterator, fused or not", "why_tests_cant": "arbitrary iterators", "anchors": ["src/blink.rs: Guard::fill"]}
{"id": "C39", "title": "Failed from_iter loses no element", "statement": "When try_from_iter fails, the returned slice followed by the returned element is exactly the sequence of elements taken from the iterator.", "quantifier": "every iterator of sized elements that does not use the Blink itself, every failure point, every history that stays clear of the memory errors described by C36-C38", "why_tests_cant": "a test fixes one sequence of layouts and one underlying allocator; the claim is about all of them", "anchors": ["src/blink.rs: try_from_iter, Guard::flush"]}
{"id": "C40", "title": "Zero-sized elements are dropped exactly once", "statement": "Collecting zero-sized values with destructors drops each exactly once, at reset.", "quantifier": "every iterator of zero-sized values", "why_tests_cant": "counts", "anchors": ["src/blink.rs: _try_emplace_drop_from_iter, saturating_drain_iter"]}
{"id": "C41", "title": "Counting zero-sized elements saturates", "statement": "The length of a collected zero-sized slice is the number of yielded elements, saturating at usize::MAX, without arithmetic overflow.", "quantifier": "every iterator with honest size hints, of any length", "why_tests_cant": "needs about 2^64 elements", "anchors": ["src/blink.rs: saturating_drain_iter"]}
{"id": "C42", "title": "Iterator panic keeps collected elements owned", "statement": "If the iterator panics during from_iter with dropping enabled, the elements collected so far are dropped exactly once at the next reset.", "quantifier": "every iterator and panic point, every history that stays clear of the memory errors described by C36-C38", "why_tests_cant": "all crash points", "anchors": ["src/blink.rs: Drop for Guard"]}
{"id": "C43", "title": "copy_slice and copy_str copy exactly", "statement": "The returned slice has the source's length and contents, in fresh memory that overlaps no live value; on failure nothing changes.", "quantifier": "every slice, every history that stays clear of the memory errors described by C36-C38", "why_tests_cant": "a test fixes one sequence of layouts and one underlying allocator; the claim is about all of them", "anchors": ["src/blink.rs: _try_copy_slice"]}
{"id": "C44", "title": "Blink over a shared reference", "statement": "Resetting a Blink whose allocator is a shared reference drops its values but leaves the allocator's memory and other users' blocks untouched.", "quantifier": "every history that stays clear of the memory errors described by C36-C38", "why_tests_cant": "a test fixes one sequence of layouts and one underlying allocator; the claim is about all of them", "anchors": ["src/api.rs: impl BlinkAllocator for &A", "src/blink.rs: reset"]}
{"id": "C45", "title": "Global allocators: direct-mode realloc respects the underlying allocator", "statement": "In direct mode, realloc calls grow only to enlarge and shrink only to reduce, as the Allocator contract demands.", "quantifier": "every old and new size", "why_tests_cant": "contract of a foreign allocator", "anchors": ["src/global/local.rs: State::resize", "src/global/sync.rs: State::resize"]}
{"id": "C46", "title": "Global allocators: memory is returned to where it came from", "statement": "In every history that switches modes as documented, memory obtained in direct mode is only ever passed to the underlying allocator and blink memory never is; live blocks are disjoint and keep their contents.", "quantifier": "every documented-legal history of modes, alloc, dealloc, realloc", "why_tests_cant": "a test fixes one sequence of layouts and one underlying allocator; the claim is about all of them", "anchors": ["src/global/local.rs", "src/global/sync.rs"]}
{"id": "C47", "title": "Global allocators: leak check before reset", "statement": "With debug assertions on, the counter equals the number of blink-mode blocks not yet deallocated, so reset and direct_mode panic exactly when a blink-mode block is still live, before invalidating anything.", "quantifier": "every documented-legal history", "why_tests_cant": "a test fixes one sequence of layouts and one underlying allocator; the claim is about all of them", "anchors": ["src/global/local.rs: allocations", "src/global/sync.rs: allocations"]}
{"id": "C48", "title": "Send and Sync markers", "statement": "A Blink, being marked Send, may be moved to another thread at any moment: no thread ever runs the destructor of a value that another thread put in (the values need not be Send).", "quantifier": "all programs of any number of threads that use one Blink in turn", "why_tests_cant": "depends on what earlier threads did; no test observes the thread of a destructor", "anchors": ["src/blink.rs: unsafe impl Send for Blink", "src/arena/sync.rs: unsafe impl Send for Inner"]}
{"id": "C49", "title": "The cache's array for concurrent pushes is never used", "statement": "push_array stays empty for ever, so push never stores an allocator under the shared lock (its lock-free path is dead code) and pop never takes the exclusive lock.", "quantifier": "every schedule and number of threads", "why_tests_cant": "absence of an event over all schedules", "anchors": ["src/cache.rs: push, pop, flush"]}
{"id": "C50", "title": "A panicking closure leaves nothing behind", "statement": "If the closure passed to with / try_with / with_fallible panics, nothing is registered for dropping and no reference is handed out for it; what its body put in stays registered.", "quantifier": "every state, every closure including ones that use the Blink", "why_tests_cant": "all crash points", "anchors": ["src/blink.rs: _try_emplace_drop, _try_emplace_no_drop"]}
{"id": "C51", "title": "No allocation on a thread-local proxy panics", "statement": "Allocating through a LocalBlinkAlloc returns a block or an error; it never panics.", "quantifier": "every history over one shared allocator and any number of proxies", "why_tests_cant": "a test fixes one sequence of layouts and one underlying allocator; the claim is about all of them", "anchors": ["src/sync.rs: LocalBlinkAlloc::allocate", "src/arena/mod.rs: alloc_slow, init_chunk"]}
{"id": "C52", "title": "The memory of proxies is reclaimed by the shared allocator", "statement": "Proxies leak their chunks into the shared allocator when reset or dropped; once no proxy is left, reset_final of the shared allocator returns every byte obtained from the underlying allocator.", "quantifier": "every history over one shared allocator and any number of proxies", "why_tests_cant": "a test fixes one sequence of layouts and one underlying allocator; the claim is about all of them", "anchors": ["src/sync.rs: LocalBlinkAlloc, reset_final", "src/arena/mod.rs: reset_leak, reset"]}
{"id": "C53", "title": "One call of update_max_local_alloc disables every later proxy", "statement": "update_max_local_alloc is public, safe and never lowers the recorded size: after one call with a size that does not fit into the address space no proxy created later ever has a block.", "quantifier": "every history after the call", "why_tests_cant": "a test fixes one sequence of layouts and one underlying allocator; the claim is about all of them", "anchors": ["src/sync.rs: update_max_local_alloc, local"]}
{"id": "C54", "title": "SendBlink hands over an empty Blink", "statement": "When a Blink passes between threads inside SendBlink, every thread drops only values it put in itself, and, if no destructor panics, all of them before the Blink moves on.", "quantifier": "all programs of any number of threads that use one Blink in turn", "why_tests_cant": "a test fixes one sequence of layouts and one underlying allocator; the claim is about all of them", "anchors": ["src/blink.rs: SendBlink::new, SendBlink::into_inner"]}
{"id": "C55", "title": "Concurrent use of the arena never causes a data race", "statement": "Of any two accesses of the same memory by the arena or by clients using their blocks, at least one of them a write and not both atomic, the first happens before the second, given only what the read-write lock and the clients' own hand-over of blocks order (all cursor accesses taken as Relaxed).", "quantifier": "every number of threads, every schedule including spurious failures, old values of loads and reset_unchecked", "why_tests_cant": "depends on orders that hardware and compiler may choose; no test sees all of them", "anchors": ["src/arena/sync.rs: alloc, resize, dealloc, reset", "src/arena/mod.rs: ChunkHeader::alloc, resize, dealloc"]}
{"id": "C56", "title": "The concurrent arena coexists with other users of its underlying allocator", "statement": "While others allocate, free and write blocks of the same underlying allocator between any two steps of the threads, all blocks of both sides stay disjoint, each side sees its own contents unchanged by the other, and the arena's calls stay legal.", "quantifier": "every number of threads, every schedule, every legal behaviour of the others", "why_tests_cant": "all interleavings and all upstream answers", "anchors": ["src/arena/sync.rs: alloc, resize, dealloc, reset", "src/sync.rs: SyncBlinkAlloc"]}
{"id": "C57", "title": "The global allocator is safe for any number of threads", "statement": "While threads call alloc, alloc_zeroed, dealloc, realloc and reset on one GlobalBlinkAlloc, modes are switched between calls and others use the underlying allocator, all blocks are valid, aligned and disjoint, contents are kept, zeroed blocks are zero when returned, and no schedule ends in undefined behaviour or a deadlocked step.", "quantifier": "every number of threads, every schedule, every legal behaviour of the others", "why_tests_cant": "all interleavings and all upstream answers", "anchors": ["src/global/sync.rs: GlobalAlloc for GlobalBlinkAlloc, reset, blink_mode, direct_mode"]}
{"id": "C58", "title": "The leak check of debug builds is exact", "statement": "In debug builds reset and direct_mode of GlobalBlinkAlloc panic exactly when a block obtained in blink mode has not been given back.", "quantifier": "every number of threads, every schedule", "why_tests_cant": "the check and the counter updates are separate steps; all interleavings", "anchors": ["src/global/sync.rs: reset, alloc, alloc_zeroed, dealloc, allocations"]}
{"id": "C59", "title": "A shared allocator and its thread-local proxies used by many threads at once", "statement": "While any number of threads allocate from one SyncBlinkAlloc and from LocalBlinkAlloc proxies of it, with chunk requests of proxies interleaved with the steps of other threads, no step is undefined behaviour; all blocks, whether of the shared allocator or of a proxy, stay inside memory obtained from the underlying allocator, aligned, disjoint and intact; every thread can finish; and once all proxies are gone reset_final returns everything.", "quantifier": "every number of threads and proxies, every schedule including spurious failures and old values of loads, every behaviour of the underlying allocator", "why_tests_cant": "no test explores all interleavings", "anchors": ["src/sync.rs: local, LocalBlinkAlloc, update_max_local_alloc", "src/arena/sync.rs: alloc, resize, dealloc, reset", "src/arena/mod.rs: alloc_slow, reset_leak"]}
{"id": "C60", "title": "Calls of the cache finish", "statement": "Every call of push or pop on BlinkAllocCache takes at most nine steps of its own; a thread that waits for the lock waits for another one that is inside a call and does not wait, so from any point all running calls can be finished, as long as a Vec can hold what is pushed.", "quantifier": "every number of threads, every schedule", "why_tests_cant": "a deadlock needs one particular interleaving", "anchors": ["src/cache.rs: pop, push, flush"]}
{"id": "C61", "title": "No two threads access the same slot of the cache", "statement": "While the shared lock is held different threads take values out of different slots of the array, and while one thread holds the exclusive lock no other is inside.", "quantifier": "every number of threads, every schedule, wherever the counter is reset", "why_tests_cant": "a data race shows only under one interleaving, and only sometimes then", "anchors": ["src/cache.rs: pop, push, flush"]}
{"id": "C62", "title": "A concurrent request fails only when it must", "statement": "An allocation or resize by one of many threads fails only in the step in which the underlying allocator has refused a chunk of the usual size, or when no usize can hold that size; and the threads together make at most one request to the underlying allocator per call.", "quantifier": "every number of threads, every schedule including spurious failures and old values of loads, every behaviour of the underlying allocator", "why_tests_cant": "lost races may lead to failures or repeated requests only in rare interleavings", "anchors": ["src/arena/sync.rs: alloc, resize", "src/arena/mod.rs: alloc_slow, ChunkHeader::alloc, ChunkHeader::resize"]}
{"id": "C63", "title": "The shared arena asks for memory only when there is no room", "statement": "A thread requests a new chunk from the underlying allocator only when the newest chunk has no room for its allocation.", "quantifier": "every number of threads, every schedule including spurious failures and old values of loads", "why_tests_cant": "the wasted chunk appears only when threads run out of room at the same time", "anchors": ["src/arena/sync.rs: alloc, resize (the step from the read lock to the write lock)", "src/arena/mod.rs: alloc_slow"]}
{"id": "C64", "title": "Memory in proportion to the requests, chunks to their logarithm", "statement": "Since the last reset a BlinkAlloc holds, besides its newest chunk, at most twice the bytes requested (with worst padding); what it asks for is bounded by a fixed multiple of them; and the number of chunks, hence of calls to the underlying allocator, is logarithmic in them.", "quantifier": "every history, every answer of the underlying allocator, also one that returns more than asked for or refuses", "why_tests_cant": "amortised bound over unbounded histories", "anchors": ["src/arena/mod.rs: alloc_slow, ChunkHeader, reset", "src/local.rs: BlinkAlloc"]}
{"id": "C65", "title": "Dropping a Blink returns all its memory", "statement": "When a Blink that owns its BlinkAlloc is dropped, every byte is returned to the underlying allocator, also when a destructor of a value panics; when it borrows the allocator, the allocator is left as it is.", "quantifier": "every program run on the Blink before, every set of panicking destructors, every answer of the underlying allocator", "why_tests_cant": "a test fixes one sequence of layouts and one underlying allocator; the claim is about all of them", "anchors": ["src/blink.rs: Drop for Blink, drop_all", "src/local.rs: Drop for BlinkAlloc", "src/drop_list.rs: reset"]}
{"id": "C66", "title": "Warmed up, a proxy serves its work from one chunk", "statement": "When the size a SyncBlinkAlloc has recorded covers what is asked of a proxy made then, the proxy never takes a second chunk; when it does take one, the end of the proxy raises the recorded size, so that of repeated rounds of bounded work, each on a new proxy, only boundedly many take a second chunk.", "quantifier": "every history before, between and during the rounds, every answer of the underlying allocator", "why_tests_cant": "convergence over unboundedly many rounds", "anchors": ["src/sync.rs: local, update_max_local_alloc, LocalBlinkAlloc (reset, Drop)", "src/arena/local.rs: with_chunk_size, last_chunk_size, reset_leak", "src/arena/mod.rs: alloc_slow"]}
{"id": "C67", "title": "Free slots for concurrent pushes would be used safely", "statement": "If push_array of the cache had free slots - the code never creates any (C49) - the wait-free push would never lose, duplicate or overwrite an allocator, no slot would be read before it is initialised, and pop would fail only if the cache is empty; but the cache would not be a FIFO queue any more.", "quantifier": "every schedule of any number of threads, every number of slots", "why_tests_cant": "the path is unreachable from the public interface, and its interleavings are unbounded", "anchors": ["src/cache.rs: push, pop, flush, prevent_overflow"]}
{"id": "C68", "title": "Concurrent use of the cache never causes a data race", "statement": "While any number of threads push to and pop from one BlinkAllocCache, every two accesses of which one is a non-atomic write - to the vectors, the counters or the slots - are ordered by the lock, so what one thread stores in a slot is completely visible to the thread that takes it out; this needs no ordering stronger than Relaxed of the counters.", "quantifier": "every schedule of any number of threads, also with slots for concurrent pushes", "why_tests_cant": "a data race shows only under one interleaving, and only on some hardware", "anchors": ["src/cache.rs: pop, push, flush, prevent_overflow, unsafe impl Sync for Inner"]}
{"id": "C69", "title": "A Blink among other users of its allocator", "statement": "While a Blink works on a shared reference to an allocator, others may allocate, resize, free and write between any two calls it makes to the allocator: nothing the Blink promises changes - no undefined behaviour, references keep their values, destructors run as the history calls for - and the others find their own blocks untouched.", "quantifier": "every program run on the Blink, everything others do at every call, every answer of the underlying allocator", "why_tests_cant": "the others' actions at each point of each operation are unbounded", "anchors": ["src/api.rs: BlinkAllocator for &A", "src/blink.rs: Blink, Emplace, SendBlink", "src/local.rs: Allocator for &BlinkAlloc", "src/sync.rs: Allocator for &SyncBlinkAlloc"]}
{"id": "C70", "title": "Several Blinks on one allocator", "statement": "Any number of Blinks can share one allocator by reference, be created, used, reset and dropped in any order: no reference of one ever shares a byte with one of another, each keeps its values whatever happens to the others, and each runs its own destructors, exactly once.", "quantifier": "every interleaving of operations of any number of Blinks, every answer of the underlying allocator", "why_tests_cant": "a test fixes one sequence of layouts and one underlying allocator; the claim is about all of them", "anchors": ["src/api.rs: BlinkAllocator for &A", "src/blink.rs: Blink, reset, Drop for Blink", "src/drop_list.rs"]}
{"id": "C71", "title": "A global allocator and its thread-local proxies", "statement": "Proxies made by GlobalBlinkAlloc::local can be used in both modes next to GlobalAlloc calls: all blocks - direct-mode, blink-mode and those of proxies - are valid, disjoint and keep their contents; the leak check of debug builds counts the blink-mode blocks of GlobalAlloc calls and nothing of the proxies; given that proxies are dropped before reset and direct_mode.", "quantifier": "every history of GlobalAlloc calls, mode switches, resets, and operations of any number of proxies, every answer of the underlying allocator", "why_tests_cant": "a test fixes one sequence of layouts and one underlying allocator; the claim is about all of them", "anchors": ["src/global/sync.rs: local, reset, direct_mode, GlobalAlloc for GlobalBlinkAlloc", "src/sync.rs: local, LocalBlinkAlloc"]}
{"id": "C72", "title": "The safety contract of GlobalBlinkAlloc::reset is sufficient when there are proxies", "statement": "If memory allocated before a reset is not used after it, reset and direct_mode of GlobalBlinkAlloc are safe, also when proxies made by the safe function local exist.", "quantifier": "every history whose client keeps the stated contract", "why_tests_cant": "needs a proxy that outlives a reset and is used again", "anchors": ["src/global/sync.rs: reset (# Safety), direct_mode, local"]}
{"id": "C73", "title": "A Blink among threads", "statement": "While a Blink works on a reference to a SyncBlinkAlloc, other threads may be in the middle of calls of theirs at every step of every call it makes: nothing the Blink promises changes - no undefined behaviour, every call returns, references keep their values, destructors run as the history calls for - and the other threads find in their blocks what they wrote, wherever the Blink starts.", "quantifier": "every program run on the Blink, every schedule of any number of other threads including spurious failures and old values of loads, every moment at which the Blink is created, every answer of the underlying allocator", "why_tests_cant": "interleavings within calls, at each point of each operation of the Blink, are unbounded", "anchors": ["src/api.rs: BlinkAllocator for &A", "src/blink.rs: Blink, Emplace", "src/sync.rs: Allocator for &SyncBlinkAlloc", "src/arena/sync.rs: alloc, resize, dealloc"]}
{"id": "C74", "title": "Several BlinkAllocs on one underlying allocator, and unwrapping one", "statement": "Any number of BlinkAllocs can take their chunks from one allocator, next to direct users of it, and be created, used, reset, dropped and unwrapped in any order: all blocks are disjoint and keep their contents, every chunk belongs to exactly one of them, and all calls to the underlying allocator are legal. into_inner calls nothing; it leaks the chunks for ever, so blocks remain valid, and after reset_final there is nothing to leak.", "quantifier": "every history of actions, every chunk size, every answer of the underlying allocator", "why_tests_cant": "a test fixes one sequence of layouts and one underlying allocator; the claim is about all of them", "anchors": ["src/local.rs: new_in, with_chunk_size_in, into_inner, reset_final, Drop for BlinkAlloc", "src/sync.rs: into_inner"]}
{"id": "C75", "title": "Tasks taking BlinkAllocs from the cache and returning them", "statement": "Threads that create BlinkAllocs, use them, hand them over through a BlinkAllocCache and take them out of it - with calls of push and pop interleaved step by step - observe what they would with independent buffers and a FIFO queue. All blocks, also of BlinkAllocs in the cache or on the way, are disjoint and keep their contents; a BlinkAlloc comes out as warm as it went in: its chunks and what is left in them are as they were, and it serves what fits without a call to the underlying allocator. What is left in the cache when it is dropped is leaked, nothing else is.", "quantifier": "every schedule of any number of threads, every history of actions on the BlinkAllocs and on the underlying allocator, every answer of the underlying allocator", "why_tests_cant": "interleavings and histories are unbounded", "anchors": ["README.md: task based parallelism", "src/cache.rs: pop, push, flush", "src/local.rs: BlinkAlloc (Allocator, reset, Drop)", "src/arena/local.rs"]}
{"id": "C76", "title": "What a thread builds on a shared allocator that others use at the same time", "statement": "While other threads are in the middle of calls of theirs on a SyncBlinkAlloc, a thread can make proxies of it, use, reset (also with reset_unchecked) and drop them, use the shared allocator directly, wrap it in a BlinkAlloc of its own, and put a Blink on top of any of these: everything returns, all its blocks are disjoint and keep their contents, the others find in theirs what they wrote, every call takes effect once between its beginning and its return, a Blink keeps all its promises, and a BlinkAlloc gives every chunk back when dropped.", "quantifier": "every history of the thread with any number of proxies, every schedule of any number of other threads including spurious failures and old values of loads, every moment at which it begins, every answer of the underlying allocator", "why_tests_cant": "interleavings within calls, at each point of each operation, are unbounded", "anchors": ["src/sync.rs: local, LocalBlinkAlloc (allocate, resize, deallocate, reset, reset_unchecked, Drop)", "src/local.rs: BlinkAlloc", "src/api.rs: BlinkAllocator", "src/blink.rs: Blink", "src/arena/sync.rs: alloc, resize, dealloc"]}
{"id": "C77", "title": "A BlinkAlloc is exactly the bump allocator it is described as", "statement": "Every address and every length a BlinkAlloc answers, every failure, every call it makes to the underlying allocator with its layout, and every chunk and cursor are those of the described scheme - round the cursor up, take the block if it fits, otherwise request a chunk whose size is computed from the request and the older chunks; grow at the cursor in place, stay when not growing, otherwise move; reset keeps the newest chunk and returns the others, newest first. So they do not depend on the build, on the addresses of the platform or on what is written into the blocks.", "quantifier": "every history of operations, every chunk size, every answer of the underlying allocator", "why_tests_cant": "tests compare single runs; a wasteful or misplaced choice that stays within the contract is invisible to them", "anchors": ["README.md: Design", "src/arena/mod.rs: ChunkHeader (alloc, resize, reset, dealloc), alloc_slow, resize_slow, reset", "src/arena/local.rs", "src/local.rs: BlinkAlloc"]}
{"id": "C78", "title": "No stray writes", "statement": "Nothing is ever written outside of what the underlying allocator has handed out: a byte that belongs to no outstanding block of it keeps what it held, and a byte of a chunk that was given back is not touched again - by headers of chunks, copies of resized blocks, zeroing, values a Blink puts in place, drop lists, proxies, or threads in the middle of calls.", "quantifier": "every history of a BlinkAlloc, a tower of them, a Blink on any allocator, proxies, the global allocators and proxies of them, threads in every schedule (on the shared allocator, on proxies of it, on the global one, among other users of the underlying allocator), and what a thread builds among others; every two moments, every initial contents of memory for a BlinkAlloc, every answer of the underlying allocator", "why_tests_cant": "a stray write shows only if somebody later reads that byte; sanitizers see single runs", "anchors": ["src/arena/mod.rs: ChunkHeader, alloc_slow, resize_slow, reset", "src/arena/local.rs", "src/arena/sync.rs", "src/local.rs", "src/sync.rs", "src/blink.rs", "src/drop_list.rs", "src/global/local.rs", "src/global/sync.rs"]}
{"id": "C79", "title": "What a Blink asks of its allocator", "statement": "Placing a value makes one request for its layout and takes it back if the closure fails; copying a slice and uninit make one request of exactly their size; writing through references, reset and drop_all make none. Collecting n elements of an iterator whose size_hint is true uses one block that is enlarged at most once for every doubling of n, never asks for room for more than 2n+16 elements and gives nothing back; if the first lower bound is the length there is at most one request; an empty iterator makes none, and zero-sized elements need at most one header.", "quantifier": "every allocator, every state, every type, every iterator that does not use the Blink in next and whose size_hint is true, however the operation ends", "why_tests_cant": "a growth policy that is too slow or too greedy still gives correct results; tests do not count requests for every length and every sequence of hints", "anchors": ["src/blink.rs: _try_emplace_drop, _try_emplace_no_drop, _try_copy_slice, _try_emplace_drop_from_iter, _try_emplace_no_drop_from_iter, size_hint_and_one, FASTER_START, uninit, reset, drop_all"]}
{"id": "C80", "title": "What unwritten memory contains never matters", "statement": "Fresh memory, memory that was given back, and memory a BlinkAlloc hands out again may contain anything, at every level of a tower of BlinkAllocs: results, references, values read through them, destructors, chunks and calls to the underlying allocator are the same as if reading such memory before writing it were undefined behaviour, and are never affected by it.", "quantifier": "every contents of memory, also depending on all that happened before; every history of clients of a tower, proxies and the global allocators, every program with a Blink, owning or sharing its allocator; every answer of the underlying allocator", "why_tests_cant": "a read of uninitialised memory goes unnoticed when it happens to contain something harmless, zeroes above all", "anchors": ["src/arena/mod.rs: ChunkHeader, init, alloc, resize", "src/local.rs: BlinkAlloc", "src/sync.rs: LocalBlinkAlloc", "src/global/local.rs", "src/global/sync.rs", "src/blink.rs: Blink (emplace, from_iter, uninit)", "src/drop_list.rs"]}
{"id": "C81", "title": "Every byte is accounted for", "statement": "After any history every byte of memory is exactly what the documentation makes it: undefined where memory is fresh from the underlying allocator or given back, what the client wrote, zero in zeroed blocks, and in a block that moved the bytes it keeps - as many as the smaller size - and nothing copied from beyond the old block; the headers of chunks hold the numbers of the described scheme. One operation changes nothing else.", "quantifier": "every history of operations, every chunk size, every answer of the underlying allocator, every address", "why_tests_cant": "reading or copying too much, or touching memory between blocks, changes no result and is invisible to tests", "anchors": ["src/arena/mod.rs: ChunkHeader (alloc, resize, reset, dealloc), init_chunk, alloc_slow, resize_slow, reset", "src/arena/local.rs", "src/local.rs: BlinkAlloc", "src/sync.rs: SyncBlinkAlloc (one thread)"]}
{"id": "C82", "title": "Out-of-memory errors that unwind", "statement": "In builds where handle_alloc_error panics instead of aborting, running out of memory in a method of Blink that does not return errors leaves the Blink as it was: a value that found no room is dropped exactly once, whatever method was to put it in; of the elements of an iterator the one at hand is dropped and those collected before stay owned, registered for dropping if they are to be dropped; copies leave no trace. The Blink can be used as before.", "quantifier": "every type, every method, every history that stays clear of the memory errors described by C36-C38, every moment at which memory runs out", "why_tests_cant": "such builds and such moments are hardly ever tested", "anchors": ["src/oom.rs", "src/blink.rs: Emplace (value, with, with_fallible, from_iter), copy_slice, copy_str, uninit, Guard::flush"]}
{"id": "C83", "title": "The vector of the documentation grows in place the second time", "statement": "'Proxy will allocate enough memory to grow vec without reallocating on 2nd iteration and later.' After the proxy of a vector was dropped or reset, a vector on any later proxy that does not outgrow the first never moves, whatever the alignment of its elements, and its proxy takes one chunk only, while others use the shared allocator and their proxies in any way; unless its very first request is turned down, none is.", "quantifier": "every history before, between and besides the two vectors, every sequence of sizes, every alignment, every chunk size, every answer of the underlying allocator", "why_tests_cant": "the sizes, alignments and interleavings are unbounded; whether a vector moved is not visible in results", "anchors": ["src/sync.rs: local, LocalBlinkAlloc (example in its documentation), Drop, reset", "src/global/sync.rs: local", "src/arena/mod.rs: last_chunk_size, alloc_slow, next_chunk_size, ChunkHeader::resize", "src/arena/local.rs"]}
{"id": "C84", "title": "What destructors may use", "statement": "'User must guarantee that values won't attempt to access memory allocated by the blink allocator later in their Drop::drop.' Destructors that keep to this - they read and write values put in before their own, also ones to be dropped, or not dropped at all, and use the allocator - never meet a dead value or anybody else's memory during reset, drop_all or drop: each registered value is dropped once, the newest first, with the value put in or last written to it by the program or by another destructor, and sees the same in others. If one panics, the remaining elements of its slice are dropped and older values leak; a second panic aborts. Afterwards the Blink is empty and can be used. Values without references, as put and emplace demand, need not care about anything. One that looks at a later value finds it dropped.", "quantifier": "every program, every type, every behaviour of destructors, every allocator", "why_tests_cant": "destructors that touch other values are not tested, and reading a dropped value goes unnoticed", "anchors": ["src/blink.rs: emplace_unchecked, put, emplace, reset, drop_all, Drop for Blink", "src/drop_list.rs: DropList::reset, Drops::drop, drop_from_item"]}
{"id": "C85", "title": "A Blink on a BlinkAlloc is exactly on paper, too", "statement": "Everything a Blink does to the BlinkAlloc it owns or has a reference to can be worked out from the list of its calls with the arithmetic of the described scheme: every address it gets, every chunk, every header, every request to the underlying allocator and every reset. In particular a value for which the newest chunk has room is at the next multiple of its alignment without any request, and collecting n elements whose number is not known in advance grows in place, without moving and without any request, when the newest chunk has room for 2n+16 of them.", "quantifier": "every program, every type, every iterator and closure, owning or sharing the BlinkAlloc, every history of its clients before, every chunk size, every answer of the underlying allocator", "why_tests_cant": "where values are and whether a growing slice was moved shows in no result", "anchors": ["src/blink.rs: Blink, Emplace (from_iter, Guard)", "src/api.rs: BlinkAllocator for BlinkAlloc and &A", "src/local.rs: BlinkAlloc", "src/arena/local.rs", "src/arena/mod.rs: ChunkHeader (alloc, resize, reset), alloc_slow, resize_slow, reset", "src/tests.rs: test_bad_iter"]}
{"id": "C86", "title": "A shared allocator and its proxies on paper", "statement": "A SyncBlinkAlloc and its LocalBlinkAllocs do exactly what the described scheme says: every answer, every block, every chunk of every proxy and of the shared allocator with its cursor, the capacity recorded for later proxies, every call to the underlying allocator with its layout, and in a debug build every panic, can be worked out with the arithmetic of C77 at both levels. In particular an operation of a proxy means one request to the underlying allocator at most and gives nothing back, and while the newest chunk of a proxy has room its blocks come from there without anybody else noticing.", "quantifier": "every history of any number of proxies and of the shared allocator in any order, every chunk size, every answer of the underlying allocator, debug and release builds", "why_tests_cant": "a proxy that takes chunks too often, of the wrong size or in the wrong place stays within the contract of Allocator and shows in no result", "anchors": ["src/sync.rs: local, update_max_local_alloc, LocalBlinkAlloc (allocate, resize, deallocate, reset, reset_unchecked, Drop), SyncBlinkAlloc", "src/arena/local.rs: ArenaLocal", "src/arena/mod.rs: ChunkHeader, alloc_slow, init_chunk, resize_slow, reset, reset_leak, last_chunk_size"]}
{"id": "C87", "title": "BlinkAllocs on top of each other on paper", "statement": "A BlinkAlloc can be the underlying allocator of another one, to any depth, and then every level does exactly what the described scheme says: every answer, every block, every chunk of every level with its cursor, and every call to the allocator at the bottom can be worked out with the arithmetic of C77 at each level. In particular one operation means one request to the allocator at the bottom at most, however many levels there are; while the newest chunk at the top has room the levels below do not notice; and a reset gives nothing back to the allocator at the bottom unless the BlinkAlloc lies directly on it.", "quantifier": "every number of levels with any chunk sizes, every history of the client at the top, every answer of the allocator at the bottom, debug and release builds", "why_tests_cant": "stacked allocators are not tested at all, and where memory comes from shows in no result", "anchors": ["src/local.rs: BlinkAlloc::new_in, impl Allocator for BlinkAlloc", "src/arena/local.rs: ArenaLocal", "src/arena/mod.rs: ChunkHeader, alloc_slow, resize_slow, reset, dealloc_chunk"]}
{"id": "C88", "title": "The global allocators on paper", "statement": "UnsafeGlobalBlinkAlloc and GlobalBlinkAlloc do exactly what the described scheme says: every address answered, every panic of reset and direct_mode, the mode, every chunk with its cursor and every call to the underlying allocator can be worked out from the list of operations - with the arithmetic of C77 in blink mode, and one call for one operation in direct mode. In particular both types answer the same, blink mode makes one request at most for an operation and gives nothing back before a reset, and the chunk that direct_mode keeps is untouched until the next blink mode uses it.", "quantifier": "every documented-legal history in both modes, both types, every chunk size, every answer of the underlying allocator, debug and release builds", "why_tests_cant": "which address is answered and what is asked of the system shows in no result; the mode switches multiply the histories", "anchors": ["src/global/local.rs: State, UnsafeGlobalBlinkAlloc (reset, blink_mode, direct_mode, GlobalAlloc)", "src/global/sync.rs: State, GlobalBlinkAlloc", "src/arena/mod.rs: ChunkHeader, alloc_slow, resize_slow, reset", "src/local.rs: BlinkAlloc"]}
{"id": "C89", "title": "Threads sharing a SyncBlinkAlloc on paper", "statement": "Whatever any number of threads do with one SyncBlinkAlloc, and however their steps interleave, there is a sequence of simple moves, at most one for each step, that explains it completely: calls get the next multiple of their alignment in the newest chunk, the last block grows where it is, a call that found no room gets a chunk of the described size, calls return. The answers, their order, the chunks with their cursors, the blocks and the calls to the underlying allocator are those of the moves; locks, compare-exchanges, retries and old values of loads leave no other trace. Conversely every sequence of moves happens under some schedule. In particular threads that ask for no more than what is left of the newest chunk are all served from it, whatever the schedule, and the underlying allocator is not called.", "quantifier": "every number of threads, every schedule with every spurious failure and every old value of a load, every chunk size, every answer of the underlying allocator", "why_tests_cant": "interleavings are unbounded, and a block that is wasted or a chunk that is requested needlessly in one of them shows in no result", "anchors": ["src/arena/sync.rs: alloc, alloc_slow, resize, resize_slow, dealloc, reset, reset_unchecked", "src/arena/mod.rs: CasPtr, ChunkHeader (alloc, resize), alloc_slow, resize_slow, reset", "src/sync.rs: SyncBlinkAlloc"]}
{"id": "C90", "title": "Threads sharing a SyncBlinkAlloc, among other users of its underlying allocator, on paper", "statement": "When others use the underlying allocator of a SyncBlinkAlloc at the same time, the threads on the SyncBlinkAlloc still do exactly what the simple moves of C89 say: all that the others change is which addresses the underlying allocator answers. Every answer on both sides, every block, every chunk with its cursor and the order of all calls to the underlying allocator are those of a sequence of moves, at most one for each step, and every such sequence happens under some schedule.", "quantifier": "every number of threads, every schedule including calls of others between any two steps, every spurious failure and every old value of a load, every chunk size, every answer of the underlying allocator", "why_tests_cant": "where the chunks end up depends on who asks the system first; interleavings are unbounded and no test has other users of the underlying allocator", "anchors": ["src/arena/sync.rs: alloc, alloc_slow, resize, resize_slow, dealloc, reset", "src/arena/mod.rs: CasPtr, ChunkHeader, alloc_slow, init_chunk, resize_slow, reset", "src/sync.rs: SyncBlinkAlloc"]}
{"id": "C91", "title": "Threads on a GlobalBlinkAlloc on paper", "statement": "Whatever any number of threads do with a GlobalBlinkAlloc in both modes, and however their steps interleave, a sequence of simple moves, at most one for each step, explains it completely: calls that go straight to the underlying allocator in direct mode, the moves of C89 in blink mode, zeroing and counting afterwards, the check of reset and the reset after it, the mode switches and their panics. The answers, the counter, the chunks with their cursors and the calls to the underlying allocator are those of the moves, and every sequence of moves happens under some schedule.", "quantifier": "every number of threads, every schedule with every spurious failure and every old value of a load, both modes, every chunk size, every answer of the underlying allocator, debug and release builds", "why_tests_cant": "a global allocator is used by all threads at once, the steps of reset and of the counter interleave with those of other calls, and the effects show in no result", "anchors": ["src/global/sync.rs: State, GlobalBlinkAlloc (reset, reset_unchecked, blink_mode, direct_mode, GlobalAlloc)", "src/sync.rs: SyncBlinkAlloc", "src/arena/sync.rs"]}
{"id": "C92", "title": "Threads on a SyncBlinkAlloc and its proxies, on paper", "statement": "Whatever any number of threads do with a SyncBlinkAlloc and the LocalBlinkAllocs made from it, and however their steps interleave, a sequence of simple moves, at most one for each step, explains it completely: calls of the shared allocator as in C89; proxies made with the capacity recorded at the time or an older one; operations on a proxy, which are worked out at once or, when a chunk is needed, ask the shared allocator and are worked out with its answer while others move in between; resets and drops of proxies, which record what they used. All answers, all chunks and cursors of the shared allocator and of every proxy, the recorded capacity and the calls to the underlying allocator are those of the moves, and every sequence of moves happens under some schedule.", "quantifier": "every number of threads and proxies, every schedule with every spurious failure and every old value of a load, proxies sent between threads, every chunk size, every answer of the underlying allocator, debug and release builds", "why_tests_cant": "how the chunks of the proxies and the blocks of the shared allocator lie in its chunks depends on the interleaving; tests see a few of them and no cursor", "anchors": ["src/sync.rs: SyncBlinkAlloc (local, update, reset, Allocator), LocalBlinkAlloc (allocate, shrink, grow, deallocate, reset, Drop)", "src/arena/sync.rs", "src/arena/local.rs", "src/arena/mod.rs"]}
{"id": "C93", "title": "A GlobalBlinkAlloc together with its proxies, on paper", "statement": "Whatever the client of a GlobalBlinkAlloc and the clients of the LocalBlinkAllocs made by its local method do, in any order and in both modes, the outcome is that of a simple calculation: every answer and panic, the mode, the blocks of every client, the chunks of the global allocator and of every proxy with their cursors, the chunk size new proxies start with, and every call to the underlying allocator. The proxies take their chunks from the same chunks as the blink-mode blocks, whatever the mode, and do not see the mode at all. (Clients drop the proxies they have used before reset and direct_mode, see C72.)", "quantifier": "every history of both kinds of operations, every chunk size, every answer of the underlying allocator, debug and release builds", "why_tests_cant": "how blocks and proxies' chunks share the chunks of the global allocator, what a mode switch leaves behind for proxies and what is asked of the system show in no result", "anchors": ["src/global/sync.rs: GlobalBlinkAlloc (local, reset, blink_mode, direct_mode, GlobalAlloc)", "src/sync.rs: LocalBlinkAlloc, SyncBlinkAlloc::local", "src/arena/local.rs", "src/arena/mod.rs"]}
{"id": "C94", "title": "The first chunk and the initial chunk size", "statement": "'With this method you can specify initial chunk size.' Making an allocator asks for nothing; new is with_chunk_size(256). The first allocation requests one chunk, whose size is the header, room for alignments above 8 and the configured size (or the size asked for, if that is more), rounded up to a power of two below 16 KB and to a multiple of 16 KB above - so never the configured size itself: 32 bytes to 8 KB, given as a power of two, become twice as much. It is the room that is promised: clients that ask for no more than the configured size in all, with the worst padding, get at most one chunk, and once there is one nothing they ask for fails or means another request. Threads sharing a SyncBlinkAlloc that ask for no more than that together get at most one chunk each.", "quantifier": "every number of threads and interleaving, every configured size, every layout of the first request, every history without reset, every answer of the underlying allocator (also refusals before the first chunk), debug and release builds", "why_tests_cant": "tests do not look at what is requested; the size of the first chunk depends on 2^64 configurations and on the first layout", "anchors": ["src/local.rs: new, with_chunk_size, new_in, with_chunk_size_in, Default", "src/sync.rs: new, new_in, with_chunk_size_in, Default", "src/arena/local.rs: new, with_chunk_size", "src/arena/sync.rs: new, with_chunk_size", "src/arena/mod.rs: CHUNK_START_SIZE, CHUNK_POWER_OF_TWO_THRESHOLD, alloc_slow, alloc_chunk"]}
{"id": "C95", "title": "Chunks and memory of an allocator shared by threads", "statement": "Since it was made or reset, n threads sharing a SyncBlinkAlloc make it obtain at most n chunks before there is one and n chunks each time room runs out, and room runs out only as often as the logarithm of what the threads ask for (32 * 2^(m/2) <= requested + 32 for m times). The memory taken is at least exponential in the number of chunks, as every chunk is as large as all but the newest together. As threads that find no room at the same time each create a chunk (C63), memory is therefore not in proportion to the requests, unlike for one user (C64): any number n of threads asking for anything at the same time can take memory exponential in n; 32 threads asking for one byte each can take 5.2 GB.", "quantifier": "every number of threads, every interleaving, every request size and alignment, every answer of the underlying allocator, debug and release builds", "why_tests_cant": "a stampede of many threads at one instant is not something a test can arrange; the logarithmic bound ranges over all interleavings", "anchors": ["src/arena/sync.rs: alloc_slow, resize_slow", "src/arena/mod.rs: alloc_slow, CHUNK_MIN_GROW_STEP", "src/sync.rs: allocate, resize"]}
