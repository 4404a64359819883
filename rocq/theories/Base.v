(** Machine integers, layouts, outcomes and memory used by the whole model.

    Target modelled: a 64-bit platform ([usize] is 64 bits wide). *)
From Coq Require Export ZArith List Bool Lia.
From Coq Require Export ZifyBool.
Export ListNotations.
Open Scope Z_scope.

(** ** usize / isize (64-bit target) *)

Definition USIZE_MAX : Z := 2 ^ 64 - 1.
Definition ISIZE_MAX : Z := 2 ^ 63 - 1.

(** [usize::checked_add]. *)
Definition checked_add (a b : Z) : option Z :=
  if a + b <=? USIZE_MAX then Some (a + b) else None.

(** Two's complement wrap-around of a mathematical integer to [usize]. *)
Definition wrap (z : Z) : Z := z mod 2 ^ 64.

(** [!x] on [usize]. *)
Definition not_usize (x : Z) : Z := USIZE_MAX - x.

(** [usize::next_power_of_two] (core); the code calls it only below 16 KB, so
    its overflow case is not modelled. *)
Definition next_power_of_two (n : Z) : Z := 2 ^ Z.log2_up n.

(** ** core::alloc::Layout *)

Record Layout := mkLayout { l_size : Z; l_align : Z }.

(** [usize::is_power_of_two]. *)
Definition is_pow2 (a : Z) : bool := (0 <? a) && (a =? 2 ^ Z.log2 a).

(** Validity of a [Layout] as checked by [Layout::from_size_align]: the
    alignment is a power of two (that fits a usize) and the size, rounded up to
    the alignment, does not exceed [isize::MAX]. *)
Definition layout_okb (l : Layout) : bool :=
  is_pow2 (l_align l) && (l_align l <=? 2 ^ 63)
  && (0 <=? l_size l) && (l_size l <=? ISIZE_MAX - (l_align l - 1)).

Definition layout_ok (l : Layout) : Prop := layout_okb l = true.

(** ** Alignment arithmetic: src/arena/mod.rs 21-47 *)

(** src/arena/mod.rs 22-26 [is_aligned_to] (its own debug_assert on the
    alignment being a power of two holds for every valid layout). *)
Definition is_aligned_to (value align : Z) : bool :=
  Z.land value (align - 1) =? 0.

(** src/arena/mod.rs 29-33 [align_up]. *)
Definition align_up (value align : Z) : option Z :=
  let mask := align - 1 in
  match checked_add value mask with
  | None => None
  | Some s => Some (Z.land s (not_usize mask))
  end.

(** src/arena/mod.rs 36-40 [align_down]. *)
Definition align_down (value align : Z) : Z :=
  Z.land value (not_usize (align - 1)).

(** ** Outcomes of running a piece of Rust code on a state [W] *)

Inductive outcome (W A : Type) : Type :=
| ORet (a : A) (w : W)   (* normal return *)
| OPanic (w : W)         (* a Rust panic; [w] is the state when it was raised *)
| OAbort                 (* the process is terminated: handle_alloc_error *)
| OUB.                   (* undefined behaviour, or a loop bound was exhausted *)
Arguments ORet {W A} a w.
Arguments OPanic {W A} w.
Arguments OAbort {W A}.
Arguments OUB {W A}.

Definition M (W A : Type) : Type := W -> outcome W A.

Definition ret {W A} (a : A) : M W A := fun w => ORet a w.
Definition bind {W A B} (m : M W A) (f : A -> M W B) : M W B :=
  fun w =>
    match m w with
    | ORet a w' => f a w'
    | OPanic w' => OPanic w'
    | OAbort => OAbort
    | OUB => OUB
    end.
Definition ub {W A} : M W A := fun _ => OUB.
Definition abort {W A} : M W A := fun _ => OAbort.
Definition panic {W A} : M W A := fun w => OPanic w.

Notation "x <- m ;; f" := (bind m (fun x => f))
  (at level 61, m at next level, right associativity).
Notation "m ;;; f" := (bind m (fun _ => f))
  (at level 61, right associativity).

(** [debug_assert!]: active only when the crate is built with debug assertions. *)
Definition debug_assert {W} (dbg b : bool) : M W unit :=
  if dbg && negb b then panic else ret tt.

(** Plain [+] on usize: panics on overflow when overflow checks are on
    (debug builds), wraps otherwise. *)
Definition add_usize {W} (dbg : bool) (a b : Z) : M W Z :=
  if a + b <=? USIZE_MAX then ret (a + b)
  else if dbg then panic else ret (wrap (a + b)).

(** Plain [-] on usize. *)
Definition sub_usize {W} (dbg : bool) (a b : Z) : M W Z :=
  if b <=? a then ret (a - b)
  else if dbg then panic else ret (wrap (a - b)).

(** [ptr.add(n)]: running past the end of the address space is undefined. *)
Definition ptr_add {W} (p n : Z) : M W Z :=
  if p + n <=? USIZE_MAX then ret (p + n) else ub.

(** ** Memory *)

(** One byte of memory.  A multi-byte object (a header word, a value of some
    type) occupies one [Head] cell carrying its payload followed by [Tail]
    cells, so that overwriting any of its bytes is visible. *)
Inductive cell :=
| Undef
| Byte (b : Z)
| Head (v : Z)
| Tail.

Definition mem := Z -> cell.

(** Store an object of [n] bytes with payload [v] at [a]. *)
Definition store (m : mem) (a n v : Z) : mem :=
  fun x => if (a <=? x) && (x <? a + n)
           then (if x =? a then Head v else Tail)
           else m x.

(** All cells of [a, a+n) satisfy [f]. *)
Fixpoint all_cells (f : cell -> bool) (m : mem) (a : Z) (n : nat) : bool :=
  match n with
  | O => true
  | S k => f (m a) && all_cells f m (a + 1) k
  end.

Definition is_tail (c : cell) : bool :=
  match c with Tail => true | _ => false end.

(** Load an object of [n] bytes at [a]; [None] if the bytes there are not an
    intact object of that size. *)
Definition load (m : mem) (a n : Z) : option Z :=
  match m a with
  | Head v => if all_cells is_tail m (a + 1) (Z.to_nat (n - 1)) then Some v else None
  | _ => None
  end.

(** Copy [n] bytes from [src] to [dst] (memory semantics of
    [ptr::copy_nonoverlapping]). *)
Definition copy (m : mem) (src dst n : Z) : mem :=
  fun x => if (dst <=? x) && (x <? dst + n) then m (src + (x - dst)) else m x.

(** Fill [n] bytes at [a] with the cell [c] ([ptr::write_bytes] for a byte). *)
Definition fill (m : mem) (a n : Z) (c : cell) : mem :=
  fun x => if (a <=? x) && (x <? a + n) then c else m x.

(** Write a list of cells at consecutive addresses. *)
Definition write_cells (m : mem) (a : Z) (cs : list cell) : mem :=
  fun x => if (a <=? x) && (x <? a + Z.of_nat (length cs))
           then nth (Z.to_nat (x - a)) cs Undef
           else m x.

(** ** Memory blocks *)

(** A [NonNull<[u8]>]: address and length. *)
Record block := mkBlock { b_ptr : Z; b_len : Z }.

Definition in_block (x : Z) (b : block) : Prop :=
  b_ptr b <= x < b_ptr b + b_len b.
