(** Model of src/arena/mod.rs, src/arena/local.rs and (sequentially)
    src/arena/sync.rs: the chunked arena.

    The chunk headers live in the memory handed out by the underlying
    allocator [A], at the beginning of each chunk, and are read and written
    through [mload]/[mstore], so a stray write of anybody into a header is
    visible to the model.

    [dbg] says whether debug assertions and overflow checks are compiled in.

    The two instantiations of the macro [with_cursor!] (src/arena/mod.rs
    171-579) differ in the cursor type only: [Cell<*mut u8>] and
    [AtomicPtr<u8>].  Run by one thread they compute the same, except that the
    [Cell] version of [compare_exchange_weak] has a debug assertion; this file
    models the [Cell] version.  The interleaved execution of the atomic version
    is modelled in Conc.v on top of [alloc_attempt] below. *)
From Verif Require Import Base Alloc.

(** src/arena/mod.rs 163, 166, 169. *)
Definition CHUNK_START_SIZE : Z := 256.
Definition CHUNK_POWER_OF_TWO_THRESHOLD : Z := 2 ^ 14.
Definition CHUNK_MIN_GROW_STEP : Z := 64.

(** src/arena/mod.rs 173-179: [#[repr(C)] struct ChunkHeader { cursor, end,
    prev, cumulative_size }] on a 64-bit target: four words. *)
Definition HDR : Z := 32.          (* size_of::<ChunkHeader>() *)
Definition HDR_ALIGN : Z := 8.     (* align_of::<ChunkHeader>() *)
Definition CURSOR : Z := 0.
Definition END : Z := 8.
Definition PREV : Z := 16.         (* 0 encodes None: Option<NonNull<_>> *)
Definition CUM : Z := 24.

Section Arena.
  Context {W : Type}.
  Variable A : Allocator W.
  Variable dbg : bool.

  Notation "'word' a" := (mload A a 8) (at level 10).
  Notation "'set_word' a v" := (mstore A a 8 v) (at level 10, a at level 9, v at level 9).

  (** Decoding of [Option<NonNull<ChunkHeader>>]. *)
  Definition opt_ptr (z : Z) : option Z := if z =? 0 then None else Some z.
  Definition ptr_opt (o : option Z) : Z := match o with None => 0 | Some p => p end.

  (** src/arena/mod.rs 44-47 [layout_sum]. *)
  Definition layout_sum (l : Layout) : M W Z :=
    add_usize dbg (l_size l) (l_align l - 1).

  (** src/arena/mod.rs 260-262 [base]. *)
  Definition chunk_base (chunk : Z) : Z := chunk + HDR.

  (** src/arena/mod.rs 269-279 [offset_from_end], [cap].  ([offset_from] is
      modelled as plain subtraction.) *)
  Definition chunk_cap (chunk : Z) : M W Z :=
    e <- word (chunk + END) ;; ret (e - chunk_base chunk).

  (** src/arena/mod.rs 225-257 [init_chunk]. *)
  Definition init_chunk (slice : block) (prev : option Z) : M W Z :=
    let len := b_len slice in
    let ptr := b_ptr slice in
    debug_assert dbg (is_aligned_to ptr HDR_ALIGN) ;;;
    debug_assert dbg (HDR <? len) ;;;
    e <- ptr_add ptr len ;;
    base <- ptr_add ptr HDR ;;
    cum <- match prev with
           | None => ret 0
           | Some p =>
               c <- chunk_cap p ;;
               s <- word (p + CUM) ;;
               add_usize dbg c s
           end ;;
    set_word (ptr + CURSOR) base ;;;
    set_word (ptr + END) e ;;;
    set_word (ptr + PREV) (ptr_opt prev) ;;;
    set_word (ptr + CUM) cum ;;;
    ret ptr.

  (** src/arena/mod.rs 183-198 [alloc_chunk]. *)
  Definition alloc_chunk (size : Z) (prev : option Z) : M W (option Z) :=
    match align_up size HDR_ALIGN with
    | None => ret None
    | Some size =>
        r <- al_allocate A (mkLayout size HDR_ALIGN) ;;
        match r with
        | None => ret None
        | Some slice => c <- init_chunk slice prev ;; ret (Some c)
        end
    end.

  (** src/arena/mod.rs 201-216 [dealloc_chunk]. *)
  Definition dealloc_chunk (chunk : Z) : M W (option Z) :=
    prev <- word (chunk + PREV) ;;
    e <- word (chunk + END) ;;
    al_deallocate A chunk (mkLayout (e - chunk) HDR_ALIGN) ;;;
    ret (opt_ptr prev).

  (** src/arena/mod.rs 289-314, the body of the loop of [ChunkHeader::alloc] up
      to the compare-exchange: from the value of the cursor and the end of the
      chunk compute the aligned start of the block and the new cursor.  [None]
      is the early return. *)
  Definition alloc_attempt (l : Layout) (cursor end_ : Z) : M W (option (Z * Z)) :=
    sum <- layout_sum l ;;
    match checked_add cursor sum with
    | None => ret None
    | Some unaligned =>
        u <- sub_usize dbg unaligned (l_size l) ;;
        let aligned := align_down u (l_align l) in
        debug_assert dbg (cursor <=? aligned) ;;;
        d <- sub_usize dbg aligned cursor ;;
        debug_assert dbg (d <? l_align l) ;;;
        next <- add_usize dbg aligned (l_size l) ;;
        if end_ <? next then ret None
        else
          a <- ptr_add cursor d ;;
          n <- ptr_add a (l_size l) ;;
          ret (Some (a, n))
    end.

  (** src/arena/mod.rs 104-118, [CasPtr::compare_exchange_weak] for [Cell]. *)
  Definition cell_cas_weak (p old new : Z) : M W unit :=
    cur <- word p ;;
    debug_assert dbg (old =? cur) ;;;
    set_word p new.

  (** src/arena/mod.rs 88-101, [CasPtr::compare_exchange] for [Cell]. *)
  Definition cell_cas (p old new : Z) : M W bool :=
    cur <- word p ;;
    if old =? cur then (set_word p new ;;; ret true) else ret false.

  (** src/arena/mod.rs 283-341 [ChunkHeader::alloc]. *)
  Definition chunk_alloc (chunk : Z) (l : Layout) : M W (option block) :=
    cursor <- word (chunk + CURSOR) ;;
    e <- word (chunk + END) ;;
    r <- alloc_attempt l cursor e ;;
    match r with
    | None => ret None
    | Some (aligned, next) =>
        cell_cas_weak (chunk + CURSOR) cursor next ;;;
        len <- sub_usize dbg next aligned ;;
        debug_assert dbg (l_size l <=? len) ;;;
        debug_assert dbg (aligned mod l_align l =? 0) ;;;
        ret (Some (mkBlock aligned len))
    end.

  (** src/arena/mod.rs 410-422, the last part of [ChunkHeader::resize]:
      reallocate within the chunk. *)
  Definition chunk_realloc (chunk ptr : Z) (old new : Layout) : M W (option block) :=
    r <- chunk_alloc chunk new ;;
    match r with
    | None => ret None
    | Some b =>
        mcopy A ptr (b_ptr b) (Z.min (l_size new) (l_size old)) ;;;
        ret (Some b)
    end.

  (** src/arena/mod.rs 356-423 [ChunkHeader::resize]. *)
  Definition chunk_resize (chunk ptr : Z) (old new : Layout) : M W (option block) :=
    if l_align new <=? l_align old then
      if l_size new <=? l_size old then
        ret (Some (mkBlock ptr (l_size old)))
      else
        old_end <- ptr_add ptr (l_size old) ;;
        cursor <- word (chunk + CURSOR) ;;
        if cursor =? old_end then
          match checked_add ptr (l_size new) with
          | None => ret None
          | Some next =>
              e <- word (chunk + END) ;;
              if e <? next then ret None
              else
                next' <- ptr_add ptr (l_size new) ;;
                ok <- cell_cas (chunk + CURSOR) cursor next' ;;
                if (ok : bool) then
                  len <- sub_usize dbg next ptr ;;
                  debug_assert dbg (l_size new <=? len) ;;;
                  ret (Some (mkBlock ptr len))
                else chunk_realloc chunk ptr old new
          end
        else chunk_realloc chunk ptr old new
    else chunk_realloc chunk ptr old new.

  (** src/arena/mod.rs 427-433 [ChunkHeader::reset]. *)
  Definition chunk_reset (chunk : Z) : M W (option Z) :=
    e <- word (chunk + END) ;;
    cap <- chunk_cap chunk ;;
    set_word (chunk + CURSOR) (e - cap) ;;;
    set_word (chunk + CUM) 0 ;;;
    prev <- word (chunk + PREV) ;;
    set_word (chunk + PREV) 0 ;;;
    ret (opt_ptr prev).

  (** src/arena/mod.rs 439-456 [ChunkHeader::dealloc]. *)
  Definition chunk_dealloc (chunk ptr size : Z) : M W unit :=
    new <- ptr_add ptr size ;;
    _ok <- cell_cas (chunk + CURSOR) ptr new ;;
    ret tt.

  (** src/arena/mod.rs 466-489, the size computation of [alloc_slow].  [cum] is
      the [cumulative_size] of the current root chunk, if there is one. *)
  Definition next_chunk_size (cum : option Z) (min : Z) (l : Layout) : option Z :=
    let s1 := match cum with
              | Some c => checked_add (Z.max min c) (Z.max (l_size l) CHUNK_MIN_GROW_STEP)
              | None => Some (Z.max min (l_size l))
              end in
    match s1 with
    | None => None
    | Some s1 =>
        let s2 := if HDR_ALIGN <? l_align l then checked_add s1 (l_align l) else Some s1 in
        match s2 with
        | None => None
        | Some s2 =>
            match checked_add s2 HDR with
            | None => None
            | Some s3 =>
                Some (if s3 <? CHUNK_POWER_OF_TWO_THRESHOLD then next_power_of_two s3
                      else match align_up s3 CHUNK_POWER_OF_TWO_THRESHOLD with
                           | Some s => s
                           | None => s3
                           end)
            end
        end
    end.

  (** src/arena/mod.rs 460-499 [alloc_slow]; the new root is part of the
      result.  [unwrap_unchecked] on [None] is undefined behaviour. *)
  Definition alloc_slow (root : option Z) (min : Z) (l : Layout) : M W (option (block * Z)) :=
    cum <- match root with
           | Some r => c <- word (r + CUM) ;; ret (Some c)
           | None => ret None
           end ;;
    match next_chunk_size cum min l with
    | None => ret None
    | Some size =>
        debug_assert dbg (size mod HDR_ALIGN =? 0) ;;;
        r <- alloc_chunk size root ;;
        match r with
        | None => ret None
        | Some chunk =>
            p <- chunk_alloc chunk l ;;
            match p with
            | None => ub
            | Some b => ret (Some (b, chunk))
            end
        end
    end.

  (** src/arena/mod.rs 502-518 [resize_slow]. *)
  Definition resize_slow (root : option Z) (min ptr : Z) (old new : Layout)
    : M W (option (block * Z)) :=
    r <- alloc_slow root min new ;;
    match r with
    | None => ret None
    | Some (b, chunk) =>
        mcopy A ptr (b_ptr b) (Z.min (l_size new) (l_size old)) ;;;
        ret (Some (b, chunk))
    end.

  (** src/arena/mod.rs 521-530 [dealloc]. *)
  Definition arena_dealloc (root : option Z) (ptr size : Z) : M W unit :=
    match root with
    | Some r => chunk_dealloc r ptr size
    | None => ret tt
    end.

  (** src/arena/mod.rs 554-558, the loop of [reset].  [n] bounds the number of
      iterations (exhausting it counts as undefined behaviour). *)
  Fixpoint free_chain (n : nat) (chunk : option Z) : M W unit :=
    match chunk with
    | None => ret tt
    | Some c =>
        match n with
        | O => ub
        | S n' => prev <- dealloc_chunk c ;; free_chain n' prev
        end
    end.

  (** ** The arena *)

  (** src/arena/local.rs 6-9 [ArenaLocal], src/arena/sync.rs 5-8 [Inner].
      [ar_depth] is a ghost: the number of chunks, used as the loop bound of
      [reset] only. *)
  Record Arena := mkArena { ar_root : option Z; ar_min : Z; ar_depth : nat }.

  (** src/arena/local.rs 26-31 [new]; src/arena/sync.rs 30-37. *)
  Definition arena_new : Arena := mkArena None CHUNK_START_SIZE 0.
  (** src/arena/local.rs 34-39 [with_chunk_size]; src/arena/sync.rs 40-47. *)
  Definition arena_with_chunk_size (n : Z) : Arena := mkArena None n 0.

  (** State of code working on an arena: the arena and the allocator below. *)
  Definition AW : Type := (Arena * W)%type.

  Definition with_aw {B} (f : Arena -> M W (B * Arena)) : M AW B :=
    fun aw => match f (fst aw) (snd aw) with
              | ORet (b, ar') w' => ORet b (ar', w')
              | OPanic w' => OPanic (fst aw, w')
              | OAbort => OAbort
              | OUB => OUB
              end.

  (** src/arena/local.rs 43-51 [last_chunk_size]. *)
  Definition last_chunk_size : M AW Z :=
    with_aw (fun ar =>
      match ar_root ar with
      | None => ret (0, ar)
      | Some r => c <- chunk_cap r ;; ret (c, ar)
      end).

  (** src/arena/local.rs 54-59 [alloc_fast]; src/arena/sync.rs 50-58. *)
  Definition alloc_fast (l : Layout) : M AW (option block) :=
    with_aw (fun ar =>
      match ar_root ar with
      | Some r => b <- chunk_alloc r l ;; ret (b, ar)
      | None => ret (None, ar)
      end).

  (** src/arena/local.rs 62-68 [alloc_slow]; src/arena/sync.rs 61-75. *)
  Definition arena_alloc_slow (l : Layout) : M AW (option block) :=
    with_aw (fun ar =>
      r <- alloc_slow (ar_root ar) (ar_min ar) l ;;
      match r with
      | None => ret (None, ar)
      | Some (b, c) => ret (Some b, mkArena (Some c) (ar_min ar) (S (ar_depth ar)))
      end).

  (** src/arena/local.rs 71-81 [resize_fast]; src/arena/sync.rs 78-90. *)
  Definition resize_fast (ptr : Z) (old new : Layout) : M AW (option block) :=
    with_aw (fun ar =>
      match ar_root ar with
      | Some r => b <- chunk_resize r ptr old new ;; ret (b, ar)
      | None => ret (None, ar)
      end).

  (** src/arena/local.rs 84-99 [resize_slow]; src/arena/sync.rs 93-111. *)
  Definition arena_resize_slow (ptr : Z) (old new : Layout) : M AW (option block) :=
    with_aw (fun ar =>
      r <- resize_slow (ar_root ar) (ar_min ar) ptr old new ;;
      match r with
      | None => ret (None, ar)
      | Some (b, c) => ret (Some b, mkArena (Some c) (ar_min ar) (S (ar_depth ar)))
      end).

  (** src/arena/local.rs 102-104 [dealloc]; src/arena/sync.rs 114-116. *)
  Definition dealloc (ptr size : Z) : M AW unit :=
    with_aw (fun ar => arena_dealloc (ar_root ar) ptr size ;;; ret (tt, ar)).

  (** src/arena/mod.rs 535-559 [reset], with src/arena/local.rs 107-114 and
      src/arena/sync.rs 119-133 ([reset], [reset_unchecked]). *)
  Definition arena_reset (keep_last : bool) : M AW unit :=
    with_aw (fun ar =>
      if keep_last then
        match ar_root ar with
        | None => ret (tt, ar)
        | Some r =>
            prev <- chunk_reset r ;;
            free_chain (ar_depth ar) prev ;;;
            ret (tt, mkArena (Some r) (ar_min ar) 1)
        end
      else
        free_chain (ar_depth ar) (ar_root ar) ;;;
        ret (tt, mkArena None (ar_min ar) 0)).

  (** src/arena/mod.rs 563-577 [reset_leak], src/arena/local.rs 118-120. *)
  Definition arena_reset_leak (keep_last : bool) : M AW unit :=
    with_aw (fun ar =>
      if keep_last then
        match ar_root ar with
        | None => ret (tt, ar)
        | Some r => _p <- chunk_reset r ;; ret (tt, mkArena (Some r) (ar_min ar) 1)
        end
      else ret (tt, mkArena None (ar_min ar) 0)).
End Arena.
