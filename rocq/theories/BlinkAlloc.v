(** Model of src/local.rs, [BlinkAlloc<A>], and of the sequential behaviour of
    [SyncBlinkAlloc<A>] in src/sync.rs (whose methods have the same bodies).
    [allocate]: src/local.rs 178-185, src/sync.rs 232-239;
    [resize]: src/local.rs 200-217, src/sync.rs 254-271;
    [deallocate]: src/local.rs 231-237, src/sync.rs 285-291. *)
From Verif Require Import Base Alloc Arena.

Section BlinkAlloc.
  Context {W : Type}.
  Variable A : Allocator W.
  Variable dbg : bool.

  (** src/local.rs 178-185 [allocate]. *)
  Definition blink_allocate (l : Layout) : M (AW (W := W)) (option block) :=
    r <- alloc_fast A dbg l ;;
    match r with
    | Some b => ret (Some b)
    | None => arena_alloc_slow A dbg l
    end.

  (** src/local.rs 200-217 [resize]. *)
  Definition blink_resize (ptr : Z) (old new : Layout) : M (AW (W := W)) (option block) :=
    r <- resize_fast A dbg ptr old new ;;
    match r with
    | Some b => ret (Some b)
    | None => arena_resize_slow A dbg ptr old new
    end.

  (** src/local.rs 231-237 [deallocate]. *)
  Definition blink_deallocate (ptr size : Z) : M (AW (W := W)) unit :=
    dealloc A ptr size.

  (** src/local.rs 244-250 [reset], 275-281 [reset_unchecked]; src/sync.rs
      298-304, 329-335. *)
  Definition blink_reset : M (AW (W := W)) unit := arena_reset A true.
  (** src/local.rs 254-260 [reset_final], src/sync.rs 308-314. *)
  Definition blink_reset_final : M (AW (W := W)) unit := arena_reset A false.
  (** src/local.rs 93-105 [Drop for BlinkAlloc], then src/arena/local.rs 14-22
      [Drop for ArenaLocal]; src/sync.rs 107-113 with src/arena/sync.rs 18-26. *)
  Definition blink_drop : M (AW (W := W)) unit :=
    arena_reset A false ;;;
    fun aw => debug_assert dbg (match ar_root (fst aw) with None => true | Some _ => false end) aw.

  (** src/local.rs 293-326 [impl Allocator for BlinkAlloc<A>], 328-366 (for
      [&mut BlinkAlloc<A>]), and src/sync.rs 359-432. *)
  Definition blink : Allocator (AW (W := W)) :=
    mkAllocator _
      (fun aw => al_mem A (snd aw))
      (fun aw m => (fst aw, al_set_mem A (snd aw) m))
      blink_allocate
      (fun ptr l => blink_deallocate ptr (l_size l))
      blink_resize
      blink_resize.

  (** src/local.rs 157-159 [inner], src/sync.rs 165-167: calls to the underlying
      allocator itself. *)
  Definition inner {B} (m : M W B) : M (AW (W := W)) B := with_aw (fun ar => b <- m ;; ret (b, ar)).
End BlinkAlloc.
