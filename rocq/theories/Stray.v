(** What is known about memory from the calls of the underlying allocator alone: the bytes
    that nobody was given keep what they had, the bytes that were given back keep what the
    underlying allocator left there.

    Nothing in this file is code of blink-alloc: it is the vocabulary of C78. *)
From Verif Require Import Base Alloc Arena BlinkAlloc History Setup.

(** [x] is a byte of the [n] bytes at [p]. *)
Definition lies (p n x : Z) : bool := (p <=? x) && (x <? p + n).

(** Memory had the contents [m0] when the blocks [held] were allocated; [new] are the calls
    since then, the most recent one first.  [known m0 held new x]: what the byte at [x] must
    hold now if only allocated blocks are ever written to; [None] if that cannot be told,
    because [x] is allocated (or lies in the slack after what was given back of a block:
    [deallocate] is told a size between the one requested and the one obtained). *)
Fixpoint known (m0 : mem) (held : list ublock) (new : list uevent) (x : Z) : option cell :=
  match new with
  | [] => if existsb (fun u => lies (u_ptr u) (u_len u) x) held then None else Some (m0 x)
  | EvAlloc _ (Some b) :: new' => if lies (b_ptr b) (b_len b) x then None else known m0 held new' x
  | EvDealloc p l :: new' => if lies p (l_size l) x then Some Undef else known m0 held new' x
  | EvResize p old _ (Some b) :: new' =>
      if lies (b_ptr b) (b_len b) x then None
      else if lies p (l_size old) x then Some Undef else known m0 held new' x
  | _ :: new' => known m0 held new' x
  end.

(** Between the states [w] and [w'] of the underlying allocator calls were added, and every
    byte whose contents these calls determine has these contents. *)
Definition no_stray (w w' : bworld) : Prop :=
  exists new, bw_trace w' = new ++ bw_trace w /\
    forall x c, known (bw_mem w) (outstanding (bw_trace w)) new x = Some c -> bw_mem w' x = c.

(** A history that starts with memory full of something else: [start] of Setup.v with memory
    [m0] (a fresh [BlinkAlloc], nothing allocated). *)
Definition start_in (m0 : mem) (su : setup) : cst (AW (W := bworld)) :=
  mkCst [] (arena_with_chunk_size (su_min su), mkB m0 []).
