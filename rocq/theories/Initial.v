(** Making an allocator, and its first chunk: vocabulary of C94. *)
From Verif Require Import Base Alloc Arena BlinkAlloc History Setup.

(** What [BlinkAlloc::new], [new_in] and [default] make (src/local.rs 111-126,
    148-153; the arena: src/arena/local.rs 26-31), and [SyncBlinkAlloc]'s (src/sync.rs 128-143,
    155-161; src/arena/sync.rs 30-37).  [start] of Setup.v is what [with_chunk_size] and
    [with_chunk_size_in] make (src/local.rs 134-136, 167-172; src/sync.rs 175-181). *)
Definition brand_new : cst (AW (W := bworld)) := mkCst [] (arena_new, bworld0).

(** A request the underlying allocator refused. *)
Definition refused (e : uevent) : Prop := exists l, e = EvAlloc l None.
