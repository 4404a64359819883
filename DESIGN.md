# Formal model of blink-alloc in Rocq (Coq 8.16.1)

## Approach

The model is a set of executable Gallina functions over a byte-addressed memory
`mem := Z -> cell`, written function by function after the Rust source. Every model function cites
the file and lines it models, and states its simplifications there.

* **Machine integers.** `usize` is `Z` in `0 .. 2^64-1`. `checked_add`, wrapping arithmetic and
  the debug-build overflow panic of `+`/`-` are explicit. Bit tricks (`& !mask`) are modelled with
  `Z.land` and proved equal to arithmetic.
* **Outcomes.** A call returns `ORet`, `OPanic` (Rust panic, with the state at that point),
  `OAbort` (`handle_alloc_error` when it aborts, or a panic while panicking), or `OUB` (wild header read,
  `unwrap_unchecked(None)`, overlapping `copy_nonoverlapping`, breach of the underlying
  allocator's contract, a destructor run on bytes that are no such value, or an exhausted loop
  bound). "Never `OUB`" is therefore a safety *and* termination statement.
* **Debug assertions** are modelled: functions take `dbg : bool`.
* **Chunk headers live in memory** (`cursor`, `end`, `prev`, `cumulative_size` at offsets 0, 8, 16,
  24 of the chunk), as do the intrusive drop-list nodes; so "client writes cannot corrupt the
  allocator" has content.
* **The underlying allocator** is a record of functions over an arbitrary state type `W` (the Rust
  generic `A: Allocator`). Its *contract* is a separate specification. At the bottom of a stack
  sits `base`, an adversary: an arbitrary function from the history of calls to the answer,
  restricted only by the `Allocator` contract (fresh, aligned, disjoint, may fail at any time).
* **Clients** are arbitrary histories of API calls and of writes inside blocks they own. For
  `Blink`, closures and iterators are arbitrary programs that may use the same `Blink` and panic.
* **Concurrency** is modelled as step machines at the granularity of one atomic access, one lock
  operation or one byte of a copy. A schedule is an arbitrary list of (thread, choice). Weak
  compare-exchange may fail spuriously. In the arena a load of a cursor may also return an old
  value (`Stale`: any value the cursor has had since the chunk was published). Data races are
  defined by happens-before on the list of accesses of a run (Race.v).

## Files

| files | content |
|---|---|
| Base, BaseFacts | integers, layouts, outcomes, memory |
| Alloc, AllocFacts | the `Allocator` trait, its contract, the adversarial bottom allocator |
| Arena, BlinkAlloc | src/arena/mod.rs, src/arena/local.rs, src/local.rs; src/sync.rs used by one thread |
| ArenaFacts, ArenaInv, ArenaOps, BlinkFacts, Frame | representation invariant and its preservation |
| History, HistoryFacts | arbitrary clients of any allocator; refinement to independent buffers |
| Setup*, AllocProps, Tower, Steady, SteadyBound, Concrete | reachable states of a `BlinkAlloc`; C01-C21 |
| Paper* | the same allocator as plain arithmetic on addresses, and that the model of the code equals it; C77 |
| PaperMem* | the contents of memory on paper, byte by byte, and that the model of the code equals it; C81 |
| Stray* | what the calls of the underlying allocator determine about memory, and that all of it holds: nothing else is written; C78 |
| Param, BlinkParam | everything built on an allocator sees it only through its answers (relational): arenas, clients, proxies, global allocators, Blinks; used by C79, C80 |
| Asks* | an allocator that takes notes of the calls a Blink makes; C79 |
| Dirty* | memory that contains anything where nothing was written (the environment, no code of the crate); C80 |
| Growth | how much it takes from the underlying allocator; C64 |
| Conc* | src/arena/sync.rs and src/sync.rs used by many threads; C24-C26, C62, C63 |
| Race* | accesses and synchronisation of the same runs; C55 |
| Shared* | the same, with other users of the underlying allocator; C56 |
| GConc* | src/global/sync.rs used by many threads; C57, C58 |
| PConc* | `SyncBlinkAlloc` and its proxies used by many threads; C59 |
| Cache* | src/cache.rs; C27-C30, C49, C60, C61; with CacheSlots C67, with CacheRace C68 |
| Blink, Blink*, UnwindDemo | src/drop_list.rs, src/blink.rs; C31-C44, C50, C65, C82 |
| Among*, Crowd* | `Blink`s on a shared reference, with other users of the allocator at work; C69, C70 |
| Threaded* | a `Blink` on a `SyncBlinkAlloc`, its calls interleaved step by step with those of other threads; C73 |
| ThreadProxy* | proxies, `BlinkAlloc`s and `Blink`s of one thread on a `SyncBlinkAlloc`, interleaved in the same way; C76 |
| Wraps* | several `BlinkAlloc`s on one underlying allocator, `into_inner`; C74 |
| Tasks* | threads that use `BlinkAlloc`s and pass them on through the cache; C75 |
| GLocal* | the global allocator with the proxies of `GlobalBlinkAlloc::local`; C71, C72 |
| Drain, DrainBlink, ZstTwice | `saturating_drain_iter` for iterators of any length; C41, C40 for all iterators |
| Dtor* | destructors that use references and the allocator; C84 |
| ProxyPaper* | a shared allocator and its proxies as plain arithmetic, at both levels; C86 |
| Layered* | BlinkAllocs on top of each other (Tower.v) as plain arithmetic at every level; C87 |
| GlobalPaper* | the global allocators (Global.v) as plain arithmetic; C88 |
| ConcPaper* | threads sharing one allocator (Conc.v) as moves without locks, loads or compare-exchanges; C89 |
| SharedPaper* | the same next to other users of the underlying allocator (Shared.v); C90 |
| GConcPaper* | threads on the global allocator (GConc.v) as moves; C91 |
| PConcPaper* | threads on a shared allocator and its proxies (PConc.v) as moves; C92 |
| GLocalPaper* | a global allocator with its proxies (GLocal.v) on paper; C93 |
| Initial*, ConcInitial* | constructors, and what the first chunk is for; C94 |
| ConcGrowth*, ConcStampede | how often threads ask for chunks, and how much they take; C95 |
| Diary* | a diary of what a Blink does to its BlinkAlloc, worked out with Paper.v; C85 |
| Global* | src/global/local.rs, src/global/sync.rs; C45-C47 |
| Proxy* | `SyncBlinkAlloc::local`, `LocalBlinkAlloc`; C22, C23, C51-C53; with ProxyWarm C66; with ProxyVec C83 |
| Send | the `Send` marker of `Blink`, `SendBlink`; C48, C54 |
| RepoTests | src/tests.rs, examples/global.rs and examples of the documentation, run in the model |
| Properties_*.v | the theorems, each closed by `exact`, with `Print Assumptions` and examples |

## Properties and how each is treated

| property | model | proof |
|---|---|---|
| C01 C02 C03 C04 C05 C11 C12 C20 | arena + BlinkAlloc + history machine | invariant by induction on histories; refinement to "independent buffers" |
| C06 C08 C09 | arena functions at reachable states | case analysis under the invariant |
| C07 C10 | same | refuted by witness; proved: C06, a larger alignment means allocate and copy, and a shrink never changes the allocator |
| C13 C14 | reset + upstream trace | invariant, induction on the layout sequence |
| C15 | reset cycles of a fixed workload | convergence refuted for every number of cycles; proved: memory bounded independently of the number of cycles, and one large enough chunk serves all later cycles |
| C64 | the same histories, cut at the last reset | each chunk exceeds all but the one before it together; an abandoned chunk is smaller than what it holds and what did not fit |
| C77 | arena + BlinkAlloc + history machine, and an independent machine on numbers (Paper.v) | simulation: equal answers, blocks, chunks, cursors and calls after every operation |
| C78 | arena + BlinkAlloc, tower, Blink on any allocator, proxies, threads, a thread among others, the global allocators with proxies, threads on them, among other users, and with proxies | the ownership predicate of the underlying allocator strengthened by what is known of memory; every proof that uses only the contract carries it along; step invariant for the threads |
| C79 | Blink on any allocator | notes taken by a wrapper, erased by parametricity; effect logic for what an operation adds to them; invariant of the collecting loop relating requests made to elements stored |
| C80 | towers of BlinkAllocs, Blinks, proxies, global allocators | refinement from the run in which unwritten memory is Undef, which is never undefined behaviour, to the run on any memory |
| C81 | arena + BlinkAlloc + history machine, Paper.v, and an independent account of bytes (PaperMem.v) | what each function does to memory (no preconditions needed), combined with C77 |
| C84 | Dtor.v: the drop list run with destructors that are programs | invariant of Blink.v kept by every step of a destructor; the items reached so far are the dead ones; simulation with Blink.v for destructors that do nothing |
| C85 | Blink on a BlinkAlloc | diary kept by a wrapper, erased by parametricity; ownership strengthened by "the diary is what the paper says" is still a contract, so the invariant of Blink.v carries it; C79 for which requests collecting makes |
| C86 | proxies over a shared allocator (Proxy.v), Paper.v at both levels (ProxyPaper.v) | an arena over any allocator of which it is known what it answers does what the paper says; the shared allocator carries its books as a ghost (a contract again), erased by parametricity; the others' chunks are framed |
| C87 | BlinkAllocs stacked to any depth (Tower.v), Paper.v at every level (Layered.v) | induction over the levels: a BlinkAlloc over an allocator of which it is known what it answers is, with its chunks as a ghost, such an allocator again; the ghosts are erased by parametricity |
| C88 | histories of the global allocators in both modes (Global.v), Paper.v in blink mode (GlobalPaper.v) | the invariant of C46 with the chunks in view; the operations of C86's proxies, with the blocks of direct mode as a frame |
| C89 | the interleaving machine (Conc.v), moves on paper (ConcPaper.v) | forward simulation: each step of a thread is a move or none; a compare-exchange succeeds only on the newest cursor, which only grows, so a block worked out from an old value is not handed out; conversely, from a state between moves each move has a schedule (ConcPaperAll.v), and the step that makes it is pinned by the forward simulation |
| C90 | threads and other users of the underlying allocator (Shared.v), moves on paper (SharedPaper.v) | the simulations of C89, made relative to blocks that are not the arena's and to a trace that others extend |
| C91 | threads on the global allocator (GConc.v), moves on paper (GConcPaper.v) | the simulations of C90 with the mode, the counter and what each thread has left to do; one move in the allocator may take many steps, and what is left to do after them is what is left after all their events |
| C92 | threads on a shared allocator and its proxies (PConc.v), moves on paper (PConcPaper.v) | the simulations of C86 and C89 together: each proxy owns the chunks whose headers show in memory, an operation that asks for a chunk is worked out twice, once to find the request and once with the answer |
| C93 | a global allocator and its proxies (GLocal.v) on paper (GLocalPaper.v) | global operations: the step lemma of C88, and the frame of C71 for the chunks of the proxies; operations of proxies: the step of C86, once more for any shared allocator that hands out chunks by the rules of Paper.v, applied to the blink allocator of C87 with its chunks as a ghost and the direct-mode blocks as a frame, then without the ghost |
| C94 | start of Setup.v, and `brand_new` for `new` (Initial.v) | on paper (C77): an invariant that there is at most one chunk, with room for what is left of the configured size; threads on the moves of C89, where a chunk is asked for by threads that found none |
| C95 | the machine of C24 | on the moves of C89: for every chunk, how many chunks there were when the thread that asked for it found no room; each number occurs once per thread at most, and belongs to a chunk that ran out of room; sizes as in C64 |
| C82 | Blink.v | instance of the Hoare-style proof of all operations, whose panic postconditions say what is left |
| C16 C17 C18 C19 | alloc_slow, whole histories | arithmetic, invariant; extreme sizes refuted |
| C21 | allocator record built from blink state | contract implies contract, to any depth |
| C22 C23 C51 C52 C53 | shared allocator and any number of proxies | invariant over histories; C51 refuted in debug builds |
| C83 | a vector on a proxy of its own | invariant: the vector begins the newest chunk and ends at its cursor; others leave the proxy's chunks untouched |
| C66 | rounds of work on proxies | the recorded size only grows, by at least 64 bytes per outgrown round |
| C24 C25 C26 | concurrent step machine | invariant over all schedules |
| C62 C63 | the same machine, counting requests to the underlying allocator | invariants on what each call in progress has asked and seen; C63 refuted |
| C55 | the same runs with their accesses | every conflicting pair of accesses is ordered, by an invariant on who knows of which access |
| C56 | the same machine with other users of the underlying allocator | the invariant relative to what others hold |
| C57 C58 | the same, plus the steps of the global allocator | invariant over all schedules; C58 refuted when calls overlap a reset |
| C59 | the same machine, plus proxies whose chunk requests run in it | invariant over all schedules, on the invariants of C24 and C22 |
| C27 C28 C30 C49 | cache step machine | invariant over all schedules; FIFO refinement |
| C60 C61 | the same machine | a falling measure of the work left; an invariant that indices being taken are distinct |
| C67 | the same machine, started with free slots in `push_array` | an invariant that every acquired slot belongs to one pushing thread; refinement of a bag |
| C68 | the runs of the cache with their accesses | every conflicting pair of accesses is ordered by the lock, by an invariant on who knows of which access |
| C29 | cache of modelled allocators | refuted by witness; dropping the cache never frees anything |
| C31-C36 C42 C43 C44 C50 C65 | drop list in memory + Blink | invariant over programs; C33, parts of C32 and C36 refuted |
| C69 | the allocator of a Blink, with others acting around each call | the contract of `Allocator` holds with the others' blocks framed, so every theorem about Blink applies |
| C70 | a list of Blinks on one allocator state | each is framed by the blocks of the rest |
| C73 | calls of a Blink as sequences of steps of Conc.v, with steps of the others in between | rely-guarantee: steps of others leave its blocks alone; the calls keep the contract of `Allocator` |
| C76 | Proxy.v, BlinkAlloc.v and Blink.v over the allocator of C73 | their theorems are about any allocator that keeps the contract |
| C74 | a list of arenas over one allocator state, each alive, unwrapped or dropped | each is framed by the chunks of the rest |
| C75 | Wraps.v for each thread, Cache.v with `BlinkAlloc`s as its values | the invariant of C74 over all of them, wherever they are, is invariant under permutation; refinement of buffers and a FIFO queue |
| C71 | Global.v and Proxy.v on one `SyncBlinkAlloc` | direct-mode blocks framed for the proxies, the proxies' chunks framed for the global allocator |
| C72 | the same, with a client that keeps the stated contract only | refuted by a proxy that outlives a reset |
| C37-C40 | from_iter guards, scripted iterators | induction on the script; C37, C38, C40 refuted in part |
| C41 | drain loop over an arbitrary iterator | induction on what is left; refuted for vague hints |
| C45 C46 C47 | global allocator state machine | invariant over legal histories; C45 refuted |
| C48 C54 | programs handed from thread to thread | C48 refuted; C54 for all programs |

A property whose statement is false of the code has status `partial` in MANIFEST.json: the
refutation is a theorem `_refuted`, what is true of it (if anything) a theorem `_partial` or another
property.

## Where the code breaks a property

| property | what the code does |
|---|---|
| C07 | `shrink` with a larger alignment moves an already aligned block if the remaining size does not suffice, and can fail |
| C10 | `deallocate` and `shrink` never move the cursor back |
| C15 | a workload whose chunk sizes alternate needs upstream calls in every cycle |
| C16 | the new chunk need not be larger than the last (README says it is) |
| C18 C19 | a layout of `isize::MAX` bytes leads to a layout above `isize::MAX` for the underlying allocator; chunk sizes of 0 and close to `usize::MAX` panic in debug builds |
| C29 | `Inner` keeps `BlinkAlloc`s in `MaybeUninit`: dropping the cache leaks them |
| C32 C40 | `from_iter` drops zero-sized elements while counting them, then registers them for dropping again |
| C33 | `emplace_shared` passes `no_drop = true` |
| C36 | fallible emplacement without dropping allocates `T` but writes a `Result<T, E>` |
| C37 C38 | with dropping, the capacity of the block (over-allocating allocator) or the count of an iterator that resumes after `None` is used as the number of elements |
| C41 | `saturating_drain_iter` overflows when the hint is 0 and `usize::MAX` elements have been counted |
| C45 | direct-mode `realloc` calls `grow` to reduce and `shrink` to enlarge |
| C48 | `Blink` is `Send` whatever was put into it |
| C51 | the first allocation of a proxy panics in debug builds if it is zero-sized and nothing has been recorded |
| C53 | one call of the public `update_max_local_alloc` with a huge value makes every later proxy fail |
| C58 | the leak check of `GlobalBlinkAlloc` and the reset are separate steps, and so are allocating and counting: a block allocated in between is destroyed unnoticed and leaves the count wrong for ever; a block given back but not yet counted makes `reset` panic |
| C63 | `alloc_slow` of arena/sync.rs does not look for room again after taking the write lock: threads that run out of room together each create a chunk |
| C95 | the same, and every chunk is as large as all but the newest together: 32 threads asking for one byte each at the same moment can take 5.2 GB |
| C72 | nothing in the contract of `GlobalBlinkAlloc::reset` (or its check) covers proxies made by the safe `local`: one that outlives a reset hands out memory a second time |

## Trusted base

* The Coq 8.16.1 kernel (with `vm_compute`).
* **Axioms.** `Print Assumptions` of every theorem in the Properties files prints "Closed under the
  global context". The development declares no axioms. (Seven constants of
  `Coq.ssr.ssrunder.Under_rel` appear among the loaded library axioms because `Lia`/`Zify` loads
  that file; no theorem depends on them.)
* **The model is a faithful reading of the source.** There is no mechanical link to /repo. RepoTests.v
  runs the crate's own tests in the model. The rest
  of this section says what is modelled and what is not.
* **The definitions used in the statements**: `contract`, `legal`, `honest` (Alloc.v), `step`,
  `ispec` (History.v), `reached` (Setup.v), `crun` (Conc.v), `orun` (Shared.v), `mrun` (GConc.v),
  `rrun` (PConc.v), `linked`, `race_free` (Race.v), `qrun`
  (Cache.v), `arrives`, `sound` (Blink files), `proxy_run`, `strict_run`, `lenient_run`, `both_run`, `relay`.
  Each has an example beside the theorems showing that it can be met.

### Modelled

* src/arena/mod.rs, src/arena/local.rs, src/arena/sync.rs: all functions.
* src/local.rs, src/sync.rs: all constructors, `allocate`, `resize` (`grow`, `shrink`),
  `grow_zeroed`, `allocate_zeroed`, `deallocate`, `reset`, `reset_unchecked`, `reset_final`, `Drop`,
  `into_inner`, `local`, `update_max_local_alloc`, `LocalBlinkAlloc`.
* src/cache.rs: `new`, `pop`, `push`, `flush`, `prevent_overflow`, and the (missing) `Drop`.
* src/drop_list.rs, src/blink.rs: `Blink`, `Emplace`, `put*`, `emplace*`, `copy_slice`, `copy_str`,
  `from_iter` with its guards, `saturating_drain_iter`, `reset`, `drop_all`, `Drop`, `SendBlink`.
* src/global/*.rs: `blink_mode`, `direct_mode`, `reset`, `alloc`, `alloc_zeroed`, `dealloc`,
  `realloc` of `GlobalAlloc`, `local`, for histories by one thread (both files) and by many (sync.rs).
* src/api.rs: `reset` of `&A`, `&mut A` and of the allocators.
* Panics (including panics in destructors, closures and iterators, and aborts), allocation failure,
  debug assertions and overflow checks.

### Not modelled, or simplified

* Platform: 64 bits; `usize` has 64 bits. Feature switches are not modelled; the code for all features
  is. Each operation of a `Blink` that does not return errors says whether `handle_alloc_error` aborts
  or unwinds (`Aborts`, `Unwinds` of Blink.v).
* Pointer provenance and aliasing rules (Stacked/Tree Borrows); `offset_from` is subtraction.
  Padding bytes of values are not distinguished from value bytes.
* An underlying allocator answers a zero-sized request with a block of zero length. Its
  `allocate_zeroed`, `grow`, `shrink` keep the contract; nothing else is assumed of it.
* A value in `Blink` is its type and an integer; its destructor reads them from memory and may
  panic. Destructors do not use the `Blink` (whoever runs destructors has `&mut Blink`); in Dtor.v (C84) they read and write
  other values and use the allocator, elsewhere they do not. The discriminant of a stored `Result` is not laid out:
  only its size and alignment count.
* Iterators in `from_iter`: every call of `size_hint` and `next` may panic (a panicking `size_hint` is the lower
  bound `PANICS`), `next` may use the `Blink`, `size_hint` may not; `nth` is the default one (Drain.v treats
  arbitrary `nth`).
* Memory orderings in the arena: `Stale` lets loads of cursors return old values, and C55 treats all
  accesses of cursors as `Relaxed`; ordering comes only from the lock and from clients handing over
  blocks. In the cache C68 treats the accesses of the counters as `Relaxed` too. Its machine lets the
  one load (cache.rs 91, of `next_push`) return the newest value; that counter is always 0 when the
  cache comes from `new` (C49). Everything else done to a counter is a read-modify-write, or the
  store in `prevent_overflow`, so it acts on the newest value anyway.
* C26: progress assumes that a thread running alone eventually sees the newest value of a cursor
  (fresh loads).
* parking_lot's `RwLock` is a reader-writer lock without poisoning; fairness is not modelled (any
  grant order is allowed).
* Proxies: in C22, C23, C51-C53, C66, C83 they and the shared allocator are interleaved at the granularity of
  whole operations. In C59 what a proxy does between two uses of the shared allocator is one step;
  its uses of the shared allocator are interleaved like those of any thread. `reset_unchecked` of a
  proxy is not in that machine; C76 has it, seen from the thread that calls it.
* C73: accesses of the `Blink` to its own blocks between two calls are not steps of the machine
  (nobody else accesses these blocks; C55 covers data races). When the given schedule ends in the
  middle of a call, the threads that hold the lock finish and the call runs to its end, so that the
  contract of `Allocator` can be stated as total. A call that names a block by address and layout
  may fit several empty blocks at one address; the model then takes an empty one, which the code
  cannot tell apart.
* C75: an action of a thread on a `BlinkAlloc` of its own is one step; calls of the underlying allocator
  are atomic.
* `GlobalBlinkAlloc` used by many threads: its modes are switched while no thread is in a call (the
  documentation asks for that); its counter is sequentially consistent, as in the code; `local` is
  not part of that machine; calls of the underlying allocator are atomic.
* Trait impls that only forward (`Default`, `IteratorExt`, `From`), formatting, and `unsafe impl`
  markers other than those of `Blink`/`SendBlink` are not modelled.

## Mutation testing

/verif/seeded/LOG.jsonl records wrong programs (edits of model definitions in a scratch copy), what
they break, which theorems failed to prove, and which theorems were tightened when one survived.
