(** What a [Blink] asks of its allocator: an allocator that takes notes (C79).

    Nothing in this file is code of blink-alloc: [noted] passes every call on to the allocator
    that the [Blink] works with, and writes it down together with the answer. *)
From Verif Require Import Base Alloc Blink BlinkInv BlinkIter BlinkEnv.

Section Noted.
  Context {W : Type}.
  Variable A : Allocator W.

  (** A call and the note about it, the most recent note first. *)
  Definition note {B} (m : M W B) (ev : B -> uevent) : M (W * list uevent) B :=
    fun s => match m (fst s) with
             | ORet b w => ORet b (w, ev b :: snd s)
             | OPanic w => OPanic (w, snd s)
             | OAbort => OAbort
             | OUB => OUB
             end.

  Definition noted : Allocator (W * list uevent) :=
    mkAllocator _
      (fun s => al_mem A (fst s))
      (fun s m => (al_set_mem A (fst s) m, snd s))
      (fun l => note (al_allocate A l) (EvAlloc l))
      (fun p l => note (al_deallocate A p l) (fun _ => EvDealloc p l))
      (fun p old new => note (al_grow A p old new) (EvResize p old new))
      (fun p old new => note (al_shrink A p old new) (EvResize p old new)).

  (** [BlinkAllocator::reset] is not a method of [Allocator] (api.rs 13-23). *)
  Definition unnoted (m : M W unit) : M (W * list uevent) unit :=
    fun s => match m (fst s) with
             | ORet b w => ORet b (w, snd s)
             | OPanic w => OPanic (w, snd s)
             | OAbort => OAbort
             | OUB => OUB
             end.
End Noted.

(** The same environment with notes. *)
Definition noting (E : env) : env :=
  mkEnv (e_W E * list uevent) (noted (e_A E)) (fun s us => e_own E (fst s) us) (unnoted (e_reset E))
    (e_amax E) (e_smax E) (e_dbg E) (e_bomb E) (e_exact E) (e_shared E).

(** The notes. *)
Definition notes {W} (s : bl (W * list uevent)) : list uevent := snd (bl_w s).

(** ** Iterators whose [size_hint] is true *)

(** How many elements it is going to yield, as long as it does not return [None] or panic. *)
Fixpoint lead (it : script) : nat :=
  match it with
  | SNext _ _ _ (NSome _) rest => S (lead rest)
  | _ => O
  end.

Definition between (lo : Z) (n : nat) (up : option Z) : bool :=
  (lo <=? Z.of_nat n) && match up with Some u => Z.of_nat n <=? u | None => true end.

(** At every point the number of elements to come is between the bounds, and nothing comes
    after [None]. *)
Fixpoint truthful (it : script) : bool :=
  match it with
  | SEnd lo up => between lo 0 up
  | SNext lo up _ out rest =>
      between lo (lead it) up && match out with NSome _ => true | _ => ended rest end && truthful rest
  end.

(** The first lower bound: that of an [ExactSizeIterator] is [lead]. *)
Definition lower (it : script) : Z := match it with SEnd lo _ => lo | SNext lo _ _ _ _ => lo end.

(** ** What is asked for *)

(** How many bytes. *)
Definition wanted (ev : uevent) : Z :=
  match ev with EvAlloc l _ => l_size l | EvDealloc _ l => l_size l | EvResize _ _ l _ => l_size l end.

(** With which alignment. *)
Definition wanted_align (ev : uevent) : Z :=
  match ev with EvAlloc l _ => l_align l | EvDealloc _ l => l_align l | EvResize _ _ l _ => l_align l end.
(** The alignment of an array with elements of type [T], with a header or without (blink.rs 487-493, 668). *)
Definition array_align (header : bool) (T : ty) : Z := if header then Z.max 8 (t_align T) else t_align T.

(** Only [allocate] and [grow], in this order: each [grow] is told the block and the layout that the
    request before it was answered with, and asks for more. *)
Fixpoint one_block (evs : list uevent) : Prop :=
  match evs with
  | [] => True
  | [EvAlloc _ _] => True
  | EvResize p old new _ :: ((EvAlloc l (Some b) :: _) as evs') => p = b_ptr b /\ old = l /\ l_size old < l_size new /\ one_block evs'
  | EvResize p old new _ :: ((EvResize _ _ l (Some b) :: _) as evs') => p = b_ptr b /\ old = l /\ l_size old < l_size new /\ one_block evs'
  | _ => False
  end.

(** ** Running *)

(** An operation ends, normally or by unwinding. *)
Definition ends {W} (o : outcome W unit) (s' : W) : Prop := o = ORet tt s' \/ o = OPanic s'.

(** Without the notes. *)
Definition strip {W} (s : bl (W * list uevent)) : bl W := mkBl (fst (bl_w s)) (bl_root s) (bl_tab s) (bl_log s).
Definition omap {W W' B} (f : W -> W') (o : outcome W B) : outcome W' B :=
  match o with ORet b w => ORet b (f w) | OPanic w => OPanic (f w) | OAbort => OAbort | OUB => OUB end.

(** The layout of one value: [DropItem<Result<T, E>>] (blink.rs 326) or [T] alone (360). *)
Definition placed_lay (k : entry) (T : ty) (e : res) : Layout :=
  if dropping k T then item_layout (r_size e) (r_align e) else mkLayout (t_size T) (t_align T).
(** One request; the block is given back if the closure returns [Err] (342-348, 373-378). *)
Definition placing (lay : Layout) (out : closure_end) (new : list uevent) : Prop :=
  exists a, new = match a, out with Some b, CErr _ => [EvDealloc (b_ptr b) lay; EvAlloc lay a] | _, _ => [EvAlloc lay a] end.
Definition at_most (lay : Layout) (new : list uevent) : Prop := new = [] \/ exists a, new = [EvAlloc lay a].
