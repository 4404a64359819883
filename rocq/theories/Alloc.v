(** The [Allocator] trait (allocator_api2 / core::alloc::Allocator) as a record
    of functions over a state type, its contract, and an adversarial allocator
    that sits at the bottom of every stack of allocators in this development.

    Nothing in this file is code of blink-alloc: it is the environment. *)
From Coq Require Import Permutation.
From Verif Require Import Base.

(** [A: Allocator] as used by the crate.  [W] is the state the allocator works
    on, which contains the memory. *)
Record Allocator (W : Type) := mkAllocator {
  al_mem : W -> mem;
  al_set_mem : W -> mem -> W;
  al_allocate : Layout -> M W (option block);                  (* None = Err(AllocError) *)
  al_deallocate : Z -> Layout -> M W unit;
  al_grow : Z -> Layout -> Layout -> M W (option block);
  al_shrink : Z -> Layout -> Layout -> M W (option block)
}.
Arguments al_mem {W} a w.
Arguments al_set_mem {W} a w m.
Arguments al_allocate {W} a l.
Arguments al_deallocate {W} a p l.
Arguments al_grow {W} a p old new.
Arguments al_shrink {W} a p old new.

(** Memory accesses of code running over an allocator state. *)
Definition mload {W} (A : Allocator W) (a n : Z) : M W Z :=
  fun w => match load (al_mem A w) a n with Some v => ORet v w | None => OUB end.
Definition mstore {W} (A : Allocator W) (a n v : Z) : M W unit :=
  fun w => ORet tt (al_set_mem A w (store (al_mem A w) a n v)).
(** [ptr::copy_nonoverlapping]: overlapping ranges are undefined behaviour. *)
Definition mcopy {W} (A : Allocator W) (src dst n : Z) : M W unit :=
  fun w =>
    if (n =? 0) || (src + n <=? dst) || (dst + n <=? src)
    then ORet tt (al_set_mem A w (copy (al_mem A w) src dst n))
    else OUB.
Definition mfill {W} (A : Allocator W) (a n : Z) (c : cell) : M W unit :=
  fun w => ORet tt (al_set_mem A w (fill (al_mem A w) a n c)).

(** Default method [Allocator::allocate_zeroed] of the trait (allocator_api2):
    allocate, then [write_bytes(0, ptr.len())]. *)
Definition al_allocate_zeroed {W} (A : Allocator W) (l : Layout) : M W (option block) :=
  r <- al_allocate A l ;;
  match r with
  | None => ret None
  | Some b => mfill A (b_ptr b) (b_len b) (Byte 0) ;;; ret (Some b)
  end.

(** Default method [Allocator::grow_zeroed] of the trait: allocate zeroed, copy
    the old contents, deallocate the old block. *)
Definition al_grow_zeroed {W} (A : Allocator W) (p : Z) (old new : Layout) : M W (option block) :=
  r <- al_allocate_zeroed A new ;;
  match r with
  | None => ret None
  | Some b =>
      mcopy A p (b_ptr b) (l_size old) ;;;
      al_deallocate A p old ;;;
      ret (Some b)
  end.

(** ** The contract of [Allocator] *)

(** A block currently allocated: its address, the length of the returned slice
    and the layout it was requested with. *)
Record ublock := mkU { u_ptr : Z; u_len : Z; u_layout : Layout }.

Definition ublk (u : ublock) : block := mkBlock (u_ptr u) (u_len u).
Definition in_u (x : Z) (u : ublock) : Prop := u_ptr u <= x < u_ptr u + u_len u.

(** A layout [l] "fits" a block: same alignment, and a size between the
    requested one and the returned length (core::alloc::Allocator docs). *)
Definition fits (l : Layout) (u : ublock) : Prop :=
  l_align l = l_align (u_layout u) /\ l_size (u_layout u) <= l_size l <= u_len u.

Definition fitsb (l : Layout) (u : ublock) : bool :=
  (l_align l =? l_align (u_layout u)) && (l_size (u_layout u) <=? l_size l)
  && (l_size l <=? u_len u).

(** What a successful allocation for layout [l] must look like; [amax] is the
    highest address the platform hands out ([USIZE_MAX] for no restriction). *)
Definition good_block (amax : Z) (l : Layout) (b : block) : Prop :=
  0 < b_ptr b /\ b_ptr b mod l_align l = 0 /\
  l_size l <= b_len b /\ b_ptr b + b_len b <= amax.

Definition u_ok (amax : Z) (u : ublock) : Prop :=
  good_block amax (u_layout u) (ublk u) /\ is_pow2 (l_align (u_layout u)) = true /\
  0 <= l_size (u_layout u).

(** No byte in common (zero-length blocks are disjoint from everything). *)
Definition disjoint_u (u v : ublock) : Prop := forall x, in_u x u -> in_u x v -> False.

Fixpoint pairwise {A} (R : A -> A -> Prop) (l : list A) : Prop :=
  match l with
  | [] => True
  | x :: l' => Forall (R x) l' /\ pairwise R l'
  end.

(** Memory agrees on all bytes of the given blocks. *)
Definition same_on (us : list ublock) (m m' : mem) : Prop :=
  forall u x, In u us -> in_u x u -> m' x = m x.

(** The layouts an allocator is asked to handle: the alignment is a power of
    two and the size rounded up to the alignment is at most [smax].  With
    [smax = ISIZE_MAX] this is exactly the validity of [Layout] (lemma
    [req_ok_layout]).  blink-alloc builds chunk layouts with
    [from_size_align_unchecked], so the validity of what it requests is not
    for free: see property C18. *)
Definition req_okb (smax : Z) (l : Layout) : bool :=
  is_pow2 (l_align l) && (0 <=? l_size l) && (l_size l + (l_align l - 1) <=? smax).
Definition req_ok (smax : Z) (l : Layout) : Prop := req_okb smax l = true.

(** Running [m] from [w] returns normally, in a state satisfying [Q]. *)
Definition wp {W A} (m : M W A) (w : W) (Q : A -> W -> Prop) : Prop :=
  match m w with
  | ORet a w' => Q a w'
  | _ => False
  end.

(** [contract amax smax A own]: the allocator [A] meets the [Allocator] contract
    for requests up to [smax], where [own w us] says that in state [w] exactly
    the blocks [us] are allocated (and belong to the client that relies on the
    contract). *)
Record contract {W} (amax smax : Z) (A : Allocator W) (own : W -> list ublock -> Prop) : Prop :=
mkContract {
  ct_perm : forall w us us', own w us -> Permutation us us' -> own w us';
  ct_wf : forall w us, own w us -> Forall (u_ok amax) us /\ pairwise disjoint_u us;
  ct_mem : forall w m, al_mem A (al_set_mem A w m) = m;
  (* clients may write inside their blocks *)
  ct_write : forall w us m, own w us ->
    (forall x, (forall u, In u us -> ~ in_u x u) -> m x = al_mem A w x) ->
    own (al_set_mem A w m) us;
  ct_allocate : forall w us l, own w us -> req_ok smax l ->
    wp (al_allocate A l) w (fun r w' =>
      same_on us (al_mem A w) (al_mem A w') /\
      match r with
      | None => own w' us
      | Some b => good_block amax l b /\ own w' (mkU (b_ptr b) (b_len b) l :: us)
      end);
  ct_deallocate : forall w us u l, own w (u :: us) -> fits l u ->
    wp (al_deallocate A (u_ptr u) l) w (fun _ w' =>
      same_on us (al_mem A w) (al_mem A w') /\ own w' us);
  ct_grow : forall w us u old new, own w (u :: us) -> fits old u -> req_ok smax new ->
    l_size old <= l_size new ->
    wp (al_grow A (u_ptr u) old new) w (fun r w' =>
      same_on us (al_mem A w) (al_mem A w') /\
      match r with
      | None => same_on [u] (al_mem A w) (al_mem A w') /\ own w' (u :: us)
      | Some b =>
          good_block amax new b /\ own w' (mkU (b_ptr b) (b_len b) new :: us) /\
          forall i, 0 <= i < l_size old ->
            al_mem A w' (b_ptr b + i) = al_mem A w (u_ptr u + i)
      end);
  ct_shrink : forall w us u old new, own w (u :: us) -> fits old u -> req_ok smax new ->
    l_size new <= l_size old ->
    wp (al_shrink A (u_ptr u) old new) w (fun r w' =>
      same_on us (al_mem A w) (al_mem A w') /\
      match r with
      | None => same_on [u] (al_mem A w) (al_mem A w') /\ own w' (u :: us)
      | Some b =>
          good_block amax new b /\ own w' (mkU (b_ptr b) (b_len b) new :: us) /\
          forall i, 0 <= i < l_size new ->
            al_mem A w' (b_ptr b + i) = al_mem A w (u_ptr u + i)
      end)
}.

(** ** The bottom allocator: an adversary bound only by the contract *)

Inductive uevent :=
| EvAlloc (l : Layout) (r : option block)
| EvDealloc (p : Z) (l : Layout)
| EvResize (p : Z) (old new : Layout) (r : option block).

(** How the bottom allocator answers, given everything that happened so far
    (most recent event first). *)
Record strategy := mkStrategy {
  st_alloc : list uevent -> Layout -> option block;
  st_resize : list uevent -> Z -> Layout -> Layout -> option block
}.

Record bworld := mkB { bw_mem : mem; bw_trace : list uevent }.

(** Remove the first block at address [p] that [l] fits. *)
Fixpoint remove_fit (p : Z) (l : Layout) (us : list ublock) : option (list ublock) :=
  match us with
  | [] => None
  | u :: us' =>
      if (u_ptr u =? p) && fitsb l u then Some us'
      else match remove_fit p l us' with None => None | Some r => Some (u :: r) end
  end.

(** Blocks allocated and not yet freed, according to a trace. *)
Fixpoint outstanding (tr : list uevent) : list ublock :=
  match tr with
  | [] => []
  | EvAlloc l (Some b) :: tr' => mkU (b_ptr b) (b_len b) l :: outstanding tr'
  | EvAlloc l None :: tr' => outstanding tr'
  | EvDealloc p l :: tr' =>
      match remove_fit p l (outstanding tr') with Some us => us | None => outstanding tr' end
  | EvResize p old new (Some b) :: tr' =>
      match remove_fit p old (outstanding tr') with
      | Some us => mkU (b_ptr b) (b_len b) new :: us
      | None => outstanding tr'
      end
  | EvResize p old new None :: tr' => outstanding tr'
  end.

(** The calls of a trace respect the caller's side of the contract: only
    acceptable layouts, and only blocks that are allocated at that moment are
    freed or resized, with a layout that fits. *)
Definition fits_outstanding (tr : list uevent) (p : Z) (l : Layout) : Prop :=
  exists u, In u (outstanding tr) /\ u_ptr u = p /\ fits l u.
Fixpoint legal (smax : Z) (tr : list uevent) : Prop :=
  match tr with
  | [] => True
  | e :: tr' =>
      legal smax tr' /\
      match e with
      | EvAlloc l _ => req_ok smax l
      | EvDealloc p l => req_ok smax l /\ fits_outstanding tr' p l
      | EvResize p old new _ => req_ok smax old /\ req_ok smax new /\ fits_outstanding tr' p old
      end
  end.

(** An honest strategy: every answer is a well-formed block for the requested
    layout that overlaps no block currently allocated.  It may refuse any
    request.  (Zero-sized requests get zero-length answers.) *)
Definition honest (amax : Z) (S : strategy) : Prop :=
  (forall tr l b, st_alloc S tr l = Some b ->
     good_block amax l b /\ (l_size l = 0 -> b_len b = 0) /\
     Forall (disjoint_u (mkU (b_ptr b) (b_len b) l)) (outstanding tr)) /\
  (forall tr p old new b us, st_resize S tr p old new = Some b ->
     remove_fit p old (outstanding tr) = Some us ->
     good_block amax new b /\ (l_size new = 0 -> b_len b = 0) /\
     Forall (disjoint_u (mkU (b_ptr b) (b_len b) new)) us).

Section Bottom.
  Variable smax : Z.
  Variable S : strategy.

  (** A request with a layout that is not acceptable is undefined behaviour. *)
  Definition base_allocate (l : Layout) : M bworld (option block) :=
    fun w =>
      if negb (req_okb smax l) then OUB else
      let r := st_alloc S (bw_trace w) l in
      let m := match r with
               | Some b => fill (bw_mem w) (b_ptr b) (b_len b) Undef  (* fresh memory is uninitialised *)
               | None => bw_mem w
               end in
      ORet r (mkB m (EvAlloc l r :: bw_trace w)).

  (** Freeing something that is not allocated, or with a layout that does not
      fit, is undefined behaviour.  The freed memory loses its contents, so a
      use after free is visible. *)
  Definition base_deallocate (p : Z) (l : Layout) : M bworld unit :=
    fun w =>
      if negb (req_okb smax l) then OUB else
      match remove_fit p l (outstanding (bw_trace w)) with
      | None => OUB
      | Some _ => ORet tt (mkB (fill (bw_mem w) p (l_size l) Undef) (EvDealloc p l :: bw_trace w))
      end.

  (** [grow] and [shrink] move [n] bytes to the (possibly identical) new place;
      what is left of the old one loses its contents. *)
  Definition base_resize (p : Z) (old new : Layout) (n : Z) : M bworld (option block) :=
    fun w =>
      if negb (req_okb smax old && req_okb smax new) then OUB else
      match remove_fit p old (outstanding (bw_trace w)) with
      | None => OUB
      | Some _ =>
          let r := st_resize S (bw_trace w) p old new in
          let m := match r with
                   | Some b => fun x =>
                       if (b_ptr b <=? x) && (x <? b_ptr b + b_len b)
                       then (if x <? b_ptr b + n then bw_mem w (p + (x - b_ptr b)) else Undef)
                       else fill (bw_mem w) p (l_size old) Undef x
                   | None => bw_mem w
                   end in
          ORet r (mkB m (EvResize p old new r :: bw_trace w))
      end.

  (** [grow] requires [new.size >= old.size], [shrink] the converse: violating
      this is undefined behaviour (core::alloc::Allocator docs). *)
  Definition base_grow (p : Z) (old new : Layout) : M bworld (option block) :=
    if l_size old <=? l_size new then base_resize p old new (l_size old) else ub.
  Definition base_shrink (p : Z) (old new : Layout) : M bworld (option block) :=
    if l_size new <=? l_size old then base_resize p old new (l_size new) else ub.

  Definition base : Allocator bworld :=
    mkAllocator bworld bw_mem (fun w m => mkB m (bw_trace w))
      base_allocate base_deallocate base_grow base_shrink.
End Bottom.

(** Initial state of the bottom allocator: nothing allocated. *)
Definition bworld0 : bworld := mkB (fun _ => Undef) [].
