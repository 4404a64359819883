(** Model of src/drop_list.rs and src/blink.rs: [Blink<A>] over any allocator.

    A value of a Rust type is an object in memory (Base.v: [store]/[load]) with an
    integer payload that identifies it; running its destructor reads the payload
    from memory, so a destructor run on clobbered or moved-away memory is visible
    (it is undefined behaviour).  Values of zero-sized types occupy no memory and
    all have payload 0.

    Closures and iterators of the client are programs: before producing a result
    they may themselves use the same [Blink] (they can hold a shared reference to
    it), to any depth.  They may panic.  A client catches panics and goes on.

    The state records what happened in a log that no computation depends on. *)
From Verif Require Import Base Alloc History.

(** ** Types *)

(** What the code depends on of a Rust type: size, alignment, whether it needs
    drop, and whether [Option<T>] has the layout of [T].  [t_id] names it. *)
Record ty := mkTy { t_id : Z; t_size : Z; t_align : Z; t_drop : bool; t_niche : bool }.

(** Where the compiler puts the [Ok] payload of a [Result<T, ManuallyDrop<G>>]
    ([EmplaceType], blink.rs 29-30): size and alignment of the [Result], offset of
    the payload.  The rest (discriminant, padding) is not modelled as separate
    bytes: writing a [Result] makes the whole area undefined, then stores the
    payload.  That the discriminant read by [is_ok] and by drop is the one written
    is taken for granted. *)
Record res := mkRes { r_size : Z; r_align : Z; r_off : Z }.

Definition round_up (n a : Z) : Z := (n + a - 1) / a * a.

(** drop_list.rs 13-22 [Drops], placed as: count at 0, drop at 8, next at 16;
    35-39 [DropItem<X>] is [repr(C)]: the value follows at its alignment. *)
Definition DROPS : Z := 24.
Definition item_off (xalign : Z) : Z := round_up DROPS xalign.
Definition item_align (xalign : Z) : Z := Z.max 8 xalign.
Definition item_layout (xsize xalign : Z) : Layout :=
  mkLayout (round_up (item_off xalign + xsize) (item_align xalign)) (item_align xalign).

(** drop_list.rs 125-129 [drop_from_item::<X>]: what the function pointer stands
    for.  [X] has this size and alignment and holds a value of the type named
    [g_id] of size [g_tsize] at offset [g_off]. *)
Record glue := mkGlue { g_id : Z; g_tsize : Z; g_xsize : Z; g_xalign : Z; g_xoff : Z }.

(** A function pointer is a number. *)
Definition fn_ptr (g : glue) : Z :=
  g_id g + 2 ^ 64 * (g_tsize g + 2 ^ 64 * (g_xsize g + 2 ^ 64 * (g_xalign g + 2 ^ 64 * g_xoff g))).
Definition fn_of (p : Z) : glue :=
  mkGlue (p mod 2 ^ 64) (p / 2 ^ 64 mod 2 ^ 64) (p / 2 ^ 128 mod 2 ^ 64) (p / 2 ^ 192 mod 2 ^ 64) (p / 2 ^ 256).

(** ** Programs of the client *)

(** How a closure ends; how a call of [Iterator::next] ends. *)
Inductive closure_end := COk (v : Z) | CErr (e : Z) | CPanic.
Inductive next_end := NSome (v : Z) | NNone | NPanic.

(** The ways to put values in: blink.rs 1040 [put], 1084 [put_no_drop], 1214
    [emplace], 1263 [emplace_no_drop], 1315 [emplace_shared], 1373
    [emplace_unchecked], with the flag [no_drop] each passes on, and whether the
    reference given out is mutable. *)
Inductive entry := Put | PutNoDrop | Emplace | EmplaceNoDrop | EmplaceShared | EmplaceUnchecked.
Definition no_drop (k : entry) : bool :=
  match k with
  | Put => false
  | PutNoDrop => true
  | Emplace => false
  | EmplaceNoDrop => true
  | EmplaceShared => true
  | EmplaceUnchecked => false
  end.
Definition mutable (k : entry) : bool := match k with EmplaceShared => false | _ => true end.

(** In place of a lower bound: [size_hint] panics. *)
Definition PANICS : Z := -1.

(** What a call does when memory is exhausted.  A [try_] method reports it.  The
    others call [handle_alloc_error] (oom.rs 3-12).  With the standard library that
    aborts.  Without feature "alloc", without the standard library, or with an
    error hook that panics, it unwinds. *)
Inductive oom := Try | Aborts | Unwinds.
Definition tries (tr : oom) : bool := match tr with Try => true | _ => false end.

Inductive bop :=
| BEmplace (k : entry) (tr : oom) (T : ty) (r e : res) (body : bops) (out : closure_end)
    (* value, with, with_fallible, put...: [r] is the [Result] stored, [e] the one
       whose layout is allocated on the dropping path (blink.rs 326) *)
| BCopy (tr : oom) (T : ty) (vs : list Z)
| BUninit (tr : oom) (T : ty)
| BFromIter (k : entry) (tr : oom) (T : ty) (it : script)
| BSet (h i : nat) (v : Z)             (* write through a reference handed out *)
| BReset                               (* [Blink::reset] *)
| BDropAll                             (* [Blink::drop_all], [Drop for Blink] *)
with bops := BNil | BCons (o : bop) (os : bops)
(** What an iterator does, call by call of [next]; [lo]/[up] is what [size_hint]
    returns before that call, [lo = PANICS] if it panics instead.  At the end the
    iterator returns [None] forever. *)
with script :=
| SEnd (lo : Z) (up : option Z)
| SNext (lo : Z) (up : option Z) (body : bops) (out : next_end) (rest : script).

(** ** State *)

(** A reference handed out: the block it points into (none for dangling
    pointers), address, type, number of elements, and how it is registered. *)
Record handle := mkH {
  h_blks : list ublock; h_ptr : Z; h_id : Z; h_size : Z; h_align : Z; h_cnt : Z;
  h_item : option glue; h_mut : bool }.

(** The log. *)
Inductive bev :=
| ENew (reg : bool) (id : Z) (vals : list (option Z))
    (* values came under the care of the [Blink]; [reg]: to be dropped by it *)
| ESet (h i : nat) (v : Z)
| EReset                        (* reset / drop_all / drop begins *)
| EDrop (id v : Z)              (* ... and runs this destructor *)
| EYield (id v : Z)             (* an iterator yielded this *)
| EBack (id v : Z)              (* given back to the caller *)
| EEarly (id v : Z)             (* destructor run while collecting *)
| EErr (e : Z)                  (* error of a closure returned to the caller *)
| EFail.                        (* allocation failure reported to the caller *)

Record bl (W : Type) := mkBl { bl_w : W; bl_root : option Z; bl_tab : list (option handle); bl_log : list bev }.
Arguments mkBl {W}. Arguments bl_w {W}. Arguments bl_root {W}. Arguments bl_tab {W}. Arguments bl_log {W}.

Section Blink.
  Context {W : Type}.
  Variable A : Allocator W.
  Variable alloc_reset : M W unit.       (* [BlinkAllocator::reset] of [A] *)
  Variable dbg : bool.
  Variable bomb : Z -> Z -> bool.        (* does this destructor panic? *)

  Definition on_alloc {B} (m : M W B) : M (bl W) B :=
    fun s => match m (bl_w s) with
             | ORet b w => ORet b (mkBl w (bl_root s) (bl_tab s) (bl_log s))
             | OPanic w => OPanic (mkBl w (bl_root s) (bl_tab s) (bl_log s))
             | OAbort => OAbort
             | OUB => OUB
             end.
  Definition log (e : bev) : M (bl W) unit :=
    fun s => ORet tt (mkBl (bl_w s) (bl_root s) (bl_tab s) (bl_log s ++ [e])).
  Definition get_root : M (bl W) (option Z) := fun s => ORet (bl_root s) s.
  Definition set_root (r : option Z) : M (bl W) unit :=
    fun s => ORet tt (mkBl (bl_w s) r (bl_tab s) (bl_log s)).
  (** Hand out a reference to new contents. *)
  Definition hand_out (h : handle) (vals : list (option Z)) : M (bl W) unit :=
    fun s => ORet tt (mkBl (bl_w s) (bl_root s) (bl_tab s ++ [Some h])
                           (bl_log s ++ [ENew (match h_item h with Some _ => true | None => false end) (h_id h) vals])).
  (** Run [h] when [m] unwinds; a panic while unwinding aborts. *)
  Definition on_unwind {B} (m : M (bl W) B) (h : M (bl W) unit) : M (bl W) B :=
    fun s => match m s with
             | OPanic s' => match h s' with ORet _ s'' => OPanic s'' | OPanic _ => OAbort | OAbort => OAbort | OUB => OUB end
             | r => r
             end.

  (** ** Memory accesses: misaligned ones are undefined *)
  Definition load_at (a n align : Z) : M (bl W) Z :=
    if a mod align =? 0 then on_alloc (mload A a n) else ub.
  Definition store_at (a n align v : Z) : M (bl W) unit :=
    if a mod align =? 0 then on_alloc (mstore A a n v) else ub.
  (** Move a value of type [T] into memory. *)
  Definition write_value (T : ty) (a v : Z) : M (bl W) unit := store_at a (t_size T) (t_align T) v.
  (** Move a [Result] holding [v] (if [Ok]) into memory. *)
  Definition write_result (T : ty) (r : res) (a : Z) (o : option Z) : M (bl W) unit :=
    if a mod r_align r =? 0 then
      on_alloc (mfill A a (r_size r) Undef) ;;;
      match o with Some v => write_value T (a + r_off r) v | None => ret tt end
    else ub.

  (** ** drop_list.rs *)

  (** [Option<NonNull<Drops>>]: null is [None]. *)
  Definition link (p : option Z) : Z := match p with Some a => a | None => 0 end.
  Definition unlink (a : Z) : option Z := if a =? 0 then None else Some a.

  (** Writing a [Drops] (48-55, 70-77). *)
  Definition write_drops (p cnt : Z) (g : glue) (next : option Z) : M (bl W) unit :=
    store_at p 8 8 cnt ;;; store_at (p + 8) 8 8 (fn_ptr g) ;;; store_at (p + 16) 8 8 (link next).

  (** 103-108 [DropList::add]. *)
  Definition drop_list_add (p : Z) : M (bl W) unit :=
    r <- get_root ;;
    set_root None ;;;
    store_at (p + 16) 8 8 (link r) ;;;
    set_root (Some p).

  (** Destructor of the value at [a]. *)
  Definition read_value (size a : Z) : M (bl W) Z :=
    if size =? 0 then ret 0 else on_alloc (mload A a size).

  (** [drop_in_place] of a slice: elements in order; when a destructor panics the
      others are still dropped, a second panic aborts.  Returns whether one
      panicked. *)
  Fixpoint drop_elems (g : glue) (a : Z) (n : nat) (panicking : bool) : M (bl W) bool :=
    match n with
    | O => ret panicking
    | S n' =>
        v <- read_value (g_tsize g) (a + g_xoff g) ;;
        log (EDrop (g_id g) v) ;;;
        if bomb (g_id g) v then
          if panicking then abort else drop_elems g (a + g_xsize g) n' true
        else drop_elems g (a + g_xsize g) n' panicking
    end.

  (** 24-32 [Drops::drop] with 125-129 [drop_from_item]. *)
  Definition drops_drop (p : Z) : M (bl W) (option Z) :=
    cnt <- load_at p 8 8 ;;
    f <- load_at (p + 8) 8 8 ;;
    n <- load_at (p + 16) 8 8 ;;
    let g := fn_of f in
    bad <- drop_elems g (p + item_off (g_xalign g)) (Z.to_nat cnt) false ;;
    if bad : bool then panic else ret (unlink n).

  (** 111-121 [DropList::reset], the loop.  There are at most as many items as
      references were handed out. *)
  Fixpoint drop_loop (fuel : nat) (p : option Z) : M (bl W) unit :=
    match p with
    | None => ret tt
    | Some a =>
        match fuel with
        | O => ub
        | S fuel' => n <- drops_drop a ;; drop_loop fuel' n
        end
    end.

  (** All references are dead from here on: the borrow checker sees [&mut self]. *)
  Definition invalidate : M (bl W) nat :=
    fun s => ORet (length (bl_tab s)) (mkBl (bl_w s) (bl_root s) (map (fun _ => None) (bl_tab s)) (bl_log s ++ [EReset])).

  Definition drop_list_reset : M (bl W) unit :=
    n <- invalidate ;;
    r <- get_root ;;
    set_root None ;;;
    drop_loop n r.

  (** blink.rs 281-283 [drop_all] (also 194-199 [Drop for Blink]), 291-294 [reset]
      (also 1414-1417 [SendBlink::new]). *)
  Definition blink_drop_all : M (bl W) unit := drop_list_reset.
  Definition blink_reset_all : M (bl W) unit := drop_list_reset ;;; on_alloc alloc_reset.

  (** ** blink.rs: emplacing a value *)

  (** The closure: runs its body, then ends one way or another. *)
  Definition closure (body : M (bl W) unit) (out : closure_end) : M (bl W) (option Z + Z) :=
    body ;;;
    match out with
    | COk v => ret (inl (Some v))
    | CErr e => ret (inr e)
    | CPanic => panic
    end.

  (** A local that holds [v] goes out of scope during unwinding; a second panic
      aborts. *)
  Definition drop_unwinding (T : ty) (v : Z) : M (bl W) unit :=
    if t_drop T then log (EEarly (t_id T) v) ;;; (if bomb (t_id T) v then abort else ret tt) else ret tt.

  (** [handle_alloc_error], or the error of a [try_] method, which gives [back] what
      it was given.  Unwinding drops that ([lost]). *)
  Definition alloc_failed (tr : oom) (back lost : M (bl W) unit) : M (bl W) unit :=
    match tr with
    | Try => log EFail ;;; back
    | Aborts => abort
    | Unwinds => lost ;;; panic
    end.

  (** Lines 319-351 [_try_emplace_drop]; drop_list.rs 41-60 [init_value]. *)
  Definition emplace_drop (k : entry) (tr : oom) (T : ty) (r e : res) (f : M (bl W) (option Z + Z)) (back lost : M (bl W) unit)
    : M (bl W) unit :=
    let lay := item_layout (r_size e) (r_align e) in
    b <- on_alloc (al_allocate A lay) ;;
    match b with
    | None => alloc_failed tr back lost
    | Some b =>
        let p := b_ptr b in
        let val := p + item_off (r_align r) in
        let g := mkGlue (t_id T) (t_size T) (r_size r) (r_align r) (r_off r) in
        o <- f ;;
        write_result T r val (match o with inl o => o | inr _ => None end) ;;;
        write_drops p 1 g None ;;;
        match o with
        | inl (Some v) =>
            drop_list_add p ;;;
            hand_out (mkH [mkU p (b_len b) lay] (val + r_off r) (t_id T) (t_size T) (t_align T) 1 (Some g) (mutable k)) [Some v]
        | inl None => ub
        | inr err =>
            on_alloc (al_deallocate A p lay) ;;;
            log (EErr err)
        end
    end.

  (** Lines 353-381 [_try_emplace_no_drop]. *)
  Definition emplace_no_drop (k : entry) (tr : oom) (T : ty) (r : res) (f : M (bl W) (option Z + Z)) (back lost : M (bl W) unit)
    : M (bl W) unit :=
    let lay := mkLayout (t_size T) (t_align T) in
    b <- on_alloc (al_allocate A lay) ;;
    match b with
    | None => alloc_failed tr back lost
    | Some b =>
        let p := b_ptr b in
        o <- f ;;
        write_result T r p (match o with inl o => o | inr _ => None end) ;;;
        match o with
        | inl (Some v) =>
            hand_out (mkH [mkU p (b_len b) lay] (p + r_off r) (t_id T) (t_size T) (t_align T) 1 None (mutable k)) [Some v]
        | inl None => ub
        | inr err =>
            on_alloc (al_deallocate A p lay) ;;;
            log (EErr err)
        end
    end.

  (** Lines 389-402 [_try_emplace].  On allocation failure the [try_] methods give
      back the closure, or, for [try_value], the value itself; the others drop it
      while unwinding (846, 895, 946, 1049, 1093), also those that promise not to
      drop what they store.  A closure is taken to hold the value it returns. *)
  Definition emplace (k : entry) (tr : oom) (T : ty) (r e : res) (body : M (bl W) unit) (out : closure_end)
    : M (bl W) unit :=
    let back := match out with COk v => log (EBack (t_id T) v) | _ => ret tt end in
    let lost := match out with COk v => drop_unwinding T v | _ => ret tt end in
    if negb (t_drop T) || no_drop k
    then emplace_no_drop k tr T r (closure body out) back lost
    else emplace_drop k tr T r e (closure body out) back lost.

  (** ** Lines 301-317 [_try_copy_slice], 1103-1129 [uninit] *)
  Fixpoint write_all (T : ty) (a : Z) (vs : list Z) : M (bl W) unit :=
    match vs with
    | [] => ret tt
    | v :: vs' => write_value T a v ;;; write_all T (a + t_size T) vs'
    end.

  Definition copy_slice (tr : oom) (T : ty) (vs : list Z) : M (bl W) unit :=
    let n := Z.of_nat (length vs) in
    let lay := mkLayout (n * t_size T) (t_align T) in
    b <- on_alloc (al_allocate A lay) ;;
    match b with
    | None => alloc_failed tr (ret tt) (ret tt)
    | Some b =>
        write_all T (b_ptr b) vs ;;;
        hand_out (mkH [mkU (b_ptr b) (b_len b) lay] (b_ptr b) (t_id T) (t_size T) (t_align T) n None true) (map Some vs)
    end.

  Definition uninit (tr : oom) (T : ty) : M (bl W) unit :=
    let lay := mkLayout (t_size T) (t_align T) in
    b <- on_alloc (al_allocate A lay) ;;
    match b with
    | None => alloc_failed tr (ret tt) (ret tt)
    | Some b =>
        hand_out (mkH [mkU (b_ptr b) (b_len b) lay] (b_ptr b) (t_id T) (t_size T) (t_align T) 1 None true) [None]
    end.

  (** ** Collecting an iterator *)

  (** An iterator: at every position the hint, and the call of [next]. *)
  Definition iter : Type := (list (Z * option Z * M (bl W) (option Z)) * (Z * option Z))%type.
  Definition hint (it : iter) : Z * option Z :=
    match fst it with (h, _) :: _ => h | [] => snd it end.
  (** A call of [size_hint] (573, 588, 741, 756, 1455): user code, it may panic. *)
  Definition ask_hint (it : iter) : M (bl W) unit := if fst (hint it) =? PANICS then panic else ret tt.
  (** [next]: what it returns (logged) and the rest. *)
  Definition next (T : ty) (it : iter) : M (bl W) (option Z * iter) :=
    match fst it with
    | [] => ret (None, it)
    | (_, m) :: rest =>
        o <- m ;;
        match o with
        | Some v => log (EYield (t_id T) v) ;;; ret (Some v, (rest, snd it))
        | None => ret (None, (rest, snd it))
        end
    end.

  (** Lines 1435-1449 [size_hint_and_one]. *)
  Definition FASTER_START : Z := 8.
  Definition size_hint_and_one (lower : Z) (upper : option Z) (count : Z) : option Z :=
    let up := match upper with Some u => Z.min u count | None => count end in
    match checked_add (Z.max lower up) 1 with
    | None => None
    | Some s => checked_add count s
    end.

  (** [Layout::array::<T>(n)]; [Layout::extend] of the item header (439-445 of core
      semantics): [None] is [LayoutError]. *)
  Definition array_layout (T : ty) (n : Z) : option Layout :=
    if n * t_size T <=? ISIZE_MAX - (t_align T - 1) then Some (mkLayout (n * t_size T) (t_align T)) else None.
  (** [DropItem<[T; 0]>]. *)
  Definition head_layout (T : ty) : Layout := item_layout 0 (t_align T).
  Definition full_layout (T : ty) (n : Z) : option Layout :=
    match array_layout T n with
    | None => None
    | Some arr =>
        let l := mkLayout (l_size (head_layout T) + l_size arr) (Z.max (l_align (head_layout T)) (l_align arr)) in
        if layout_okb l then Some l else None
    end.

  (** The guard: 425-432 (dropping) and 624-630 (not dropping; [gu_drop] tells).
      [gu_vals]: the elements stored so far, for the log only. *)
  Record guard := mkGu { gu_ptr : option ublock; gu_count : Z; gu_cap : Z; gu_lay : Layout; gu_vals : list Z }.

  (** Which of the two functions is used (786-792). *)
  Definition dropping (k : entry) (T : ty) : bool := negb (negb (t_drop T) || no_drop k).

  (** Where the elements start: behind [DropItem<[T; 0]>], or at once. *)
  Definition array_off (d : bool) (T : ty) : Z := if d then l_size (head_layout T) else 0.

  (** 62-80 [init_slice]. *)
  Definition init_slice (T : ty) (p count : Z) : M (bl W) unit :=
    debug_assert dbg (negb (count =? 0)) ;;;
    write_drops p count (mkGlue (t_id T) (t_size T) (t_size T) (t_align T) 0) None.

  (** 448-481, 637-662 [Guard::flush]: the collected slice becomes a reference
      ([give]: the caller gets it), an empty one is given back to the allocator. *)
  Definition flush_guard (k : entry) (T : ty) (g : guard) (give : bool) : M (bl W) unit :=
    let zero := mkH [] (t_align T) (t_id T) (t_size T) (t_align T) 0 None (mutable k) in
    match gu_ptr g with
    | None => if give then hand_out zero [] else ret tt
    | Some u =>
        if gu_count g =? 0 then
          on_alloc (al_deallocate A (u_ptr u) (gu_lay g)) ;;;
          (if give then hand_out zero [] else ret tt)
        else if dropping k T then
          init_slice T (u_ptr u) (gu_count g) ;;;
          drop_list_add (u_ptr u) ;;;
          hand_out (mkH [u] (u_ptr u + array_off (dropping k T) T) (t_id T) (t_size T) (t_align T) (gu_count g)
                        (Some (mkGlue (t_id T) (t_size T) (t_size T) (t_align T) 0)) (give && mutable k))
                   (map Some (gu_vals g))
        else
          hand_out (mkH [u] (u_ptr u) (t_id T) (t_size T) (t_align T) (gu_count g) None (give && mutable k)) (map Some (gu_vals g))
    end.

  (** A panic of the iterator: only the dropping guard implements [Drop]
      (434-442). *)
  Definition guarded {B} (k : entry) (T : ty) (g : guard) (m : M (bl W) B) : M (bl W) B :=
    on_unwind m (if dropping k T then flush_guard k T g false else ret tt).

  (** The loop in [fill] (532-552, 703-722), up to index [lim]. *)
  Fixpoint fill_loop (k : entry) (T : ty) (a lim : Z) (its : list (Z * option Z * M (bl W) (option Z)))
    (last : Z * option Z) (g : guard) : M (bl W) (guard * iter) :=
    if gu_count g <? lim then
      match its with
      | [] =>
          (* 541: in place, [None] is written into the free slot *)
          (if t_niche T then on_alloc (mfill A (a + gu_count g * t_size T) (t_size T) Undef) else ret tt) ;;;
          ret (g, ([], last))
      | x :: its' =>
          o <- guarded k T g (next T (x :: its', last)) ;;
          match fst o with
          | None =>
              (if t_niche T then on_alloc (mfill A (a + gu_count g * t_size T) (t_size T) Undef) else ret tt) ;;;
              ret (g, (its', last))
          | Some v =>
              write_value T (a + gu_count g * t_size T) v ;;;
              fill_loop k T a lim its' last
                (mkGu (gu_ptr g) (gu_count g + 1) (gu_cap g) (gu_lay g) (gu_vals g ++ [v]))
          end
      end
    else ret (g, (its, last)).

  (** [fill] (484-555, 664-727).  Returns the guard, the iterator, the extra
      element if it was not taken, and [false] on failure with whether a layout
      was involved. *)
  Definition fill_guard (k : entry) (T : ty) (size_hint : Z) (one : option Z) (it : iter) (g : guard)
    : M (bl W) (guard * iter * option Z * option (option Layout)) :=
    match (if dropping k T then full_layout T size_hint else array_layout T size_hint) with
    | None => ret (g, it, one, Some None)
    | Some lay =>
        b <- on_alloc (match gu_ptr g with
                       | None => al_allocate A lay
                       | Some u => al_grow A (u_ptr u) (gu_lay g) lay
                       end) ;;
        match b with
        | None => ret (g, it, one, Some (Some lay))
        | Some b =>
            let u := mkU (b_ptr b) (b_len b) lay in
            let a := b_ptr b + array_off (dropping k T) T in
            (if l_size lay <? b_len b then ret tt else debug_assert dbg (b_len b =? l_size lay)) ;;;
            let cap := if l_size lay <? b_len b then (b_len b - array_off (dropping k T) T) / t_size T else size_hint in
            let g := mkGu (Some u) (gu_count g) cap lay (gu_vals g) in
            g <- match one with
                 | None => ret g
                 | Some v =>
                     debug_assert dbg (gu_count g <? cap) ;;;
                     write_value T (a + gu_count g * t_size T) v ;;;
                     ret (mkGu (gu_ptr g) (gu_count g + 1) cap lay (gu_vals g ++ [v]))
                 end ;;
            r <- fill_loop k T a (if dropping k T then cap else size_hint) (fst it) (snd it) g ;;
            ret (fst r, snd r, None, None)
        end
    end.

  (** Failure: 982-1005.  [try_from_iter] returns the slice and the element;
      [from_iter] calls [handle_alloc_error] if memory is exhausted and panics if
      the size overflows; unwinding drops the element. *)
  Definition from_iter_failed (k : entry) (tr : oom) (T : ty) (g : guard) (one : option Z) (why : option Layout)
    : M (bl W) unit :=
    if tries tr then
      flush_guard k T g true ;;;
      log EFail ;;;
      match one with Some v => log (EBack (t_id T) v) | None => ret tt end
    else
      flush_guard k T g false ;;;
      match why, tr with
      | Some _, Aborts => abort
      | _, _ => match one with Some v => drop_unwinding T v | None => ret tt end ;;; panic
      end.

  (** The loop 587-602, 755-770, after an element [one] was taken.  It is in
      [one_more], which is declared after the guard and so goes first if
      [size_hint] panics. *)
  Fixpoint from_iter_loop (fuel : nat) (k : entry) (tr : oom) (T : ty) (one : Z) (it : iter) (g : guard) : M (bl W) unit :=
    match fuel with
    | O => ub
    | S fuel' =>
        guarded k T g (on_unwind (ask_hint it) (drop_unwinding T one)) ;;;
        match size_hint_and_one (fst (hint it)) (snd (hint it)) (Z.max (gu_count g) FASTER_START) with
        | None => from_iter_failed k tr T g (Some one) None
        | Some size =>
            r <- fill_guard k T size (Some one) it g ;;
            let '(g, it, one, e) := r in
            match e with
            | Some why => from_iter_failed k tr T g one why
            | None =>
                o <- guarded k T g (next T it) ;;
                match fst o with
                | None => flush_guard k T g true
                | Some v => from_iter_loop fuel' k tr T v (snd o) g
                end
            end
        end
    end.

  (** 564-603, 733-771. *)
  Definition from_iter_sized (k : entry) (tr : oom) (T : ty) (it : iter) : M (bl W) unit :=
    let fuel := S (length (fst it)) in
    let g := mkGu None 0 0 (if dropping k T then mkLayout 0 1 else mkLayout (t_size T) (t_align T)) [] in
    guarded k T g (ask_hint it) ;;;
    r <- (if fst (hint it) =? 0 then ret (g, it, None, None)
          else fill_guard k T (Z.max (fst (hint it)) FASTER_START) None it g) ;;
    let '(g, it, one, e) := r in
    match e with
    | Some why => from_iter_failed k tr T g None why
    | None =>
        o <- guarded k T g (next T it) ;;
        match fst o with
        | None => flush_guard k T g true
        | Some v => from_iter_loop fuel k tr T v (snd o) g
        end
    end.

  (** ** Zero-sized elements *)

  (** A drained element is dropped on the spot. *)
  Definition drop_early (T : ty) (v : Z) : M (bl W) unit :=
    if t_drop T then log (EEarly (t_id T) v) ;;; (if bomb (t_id T) v then panic else ret tt) else ret tt.

  (** [Iterator::nth] (default): up to [n + 1] calls of [next], dropping all but the
      last result; here the last one is dropped too (1474 [Some(_)]). *)
  Fixpoint drain_nth (T : ty) (n : Z) (its : list (Z * option Z * M (bl W) (option Z))) (last : Z * option Z)
    : M (bl W) (bool * iter) :=
    match its with
    | [] => ret (false, ([], last))
    | x :: its' =>
        o <- next T (x :: its', last) ;;
        match fst o with
        | None => ret (false, (its', last))
        | Some v => drop_early T v ;;; if n <=? 0 then ret (true, (its', last)) else drain_nth T (n - 1) its' last
        end
    end.

  (** Lines 1452-1480 [saturating_drain_iter]. *)
  Fixpoint drain (fuel : nat) (T : ty) (drained : Z) (it : iter) : M (bl W) Z :=
    match fuel with
    | O => ub
    | S fuel' =>
        ask_hint it ;;;
        let lower := fst (hint it) in
        if lower =? 0 then
          o <- next T it ;;
          match fst o with
          | None => ret drained
          | Some v =>
              drop_early T v ;;;
              d <- add_usize dbg drained 1 ;;
              drain fuel' T d (snd o)
          end
        else
          let lower := Z.min lower (USIZE_MAX - drained) in
          k <- sub_usize dbg lower 1 ;;
          o <- drain_nth T k (fst it) (snd it) ;;
          if fst o then
            d <- add_usize dbg drained lower ;;
            if d =? USIZE_MAX then ret USIZE_MAX else drain fuel' T d (snd o)
          else ret drained
    end.

  (** 412-425, 613-621. *)
  Definition from_iter_zst (k : entry) (tr : oom) (T : ty) (it : iter) : M (bl W) unit :=
    let fuel := S (length (fst it)) in
    if dropping k T then
      b <- on_alloc (al_allocate A (head_layout T)) ;;
      match b with
      | None =>
          match tr with
          | Try => hand_out (mkH [] (t_align T) (t_id T) (t_size T) (t_align T) 0 None (mutable k)) [] ;;; log EFail
          | Aborts => abort
          | Unwinds => panic
          end
      | Some b =>
          n <- drain fuel T 0 it ;;
          init_slice T (b_ptr b) n ;;;
          drop_list_add (b_ptr b) ;;;
          hand_out (mkH [mkU (b_ptr b) (b_len b) (head_layout T)] (b_ptr b + array_off true T) (t_id T) (t_size T) (t_align T) n
                        (Some (mkGlue (t_id T) (t_size T) (t_size T) (t_align T) 0)) (mutable k))
                   (repeat (Some 0) (Z.to_nat n))
      end
    else
      n <- drain fuel T 0 it ;;
      hand_out (mkH [] (t_align T) (t_id T) (t_size T) (t_align T) n None (mutable k)) (repeat (Some 0) (Z.to_nat n)).

  (** 779-793 [_try_emplace_from_iter]. *)
  Definition from_iter (k : entry) (tr : oom) (T : ty) (it : iter) : M (bl W) unit :=
    if t_size T =? 0 then from_iter_zst k tr T it else from_iter_sized k tr T it.

  (** ** Running programs *)

  (** Writing through a reference; skipped unless the reference is live and the
      element exists. *)
  Definition set_elem (h i : nat) (v : Z) : M (bl W) unit :=
    fun s =>
      match get h (bl_tab s) with
      | Some x =>
          if h_mut x && (Z.of_nat i <? h_cnt x) && (negb (h_size x =? 0) || (v =? 0)) then
            ((if h_size x =? 0 then ret tt
              else store_at (h_ptr x + Z.of_nat i * h_size x) (h_size x) (h_align x) v) ;;;
             log (ESet h i v)) s
          else ORet tt s
      | None => ORet tt s
      end.

  (** Legal descriptions of Rust types: a power-of-two alignment below 2^32, a
      size that is a multiple of it, and all layouts within [isize::MAX]. *)
  Definition ty_okb (T : ty) : bool :=
    (0 <=? t_id T) && (t_id T <? 2 ^ 64) && is_pow2 (t_align T) && (t_align T <=? 2 ^ 32) && (0 <=? t_size T)
    && (t_size T mod t_align T =? 0) && (t_size T <=? 2 ^ 62).
  Definition res_okb (T : ty) (r : res) : bool :=
    is_pow2 (r_align r) && (r_align r <=? 2 ^ 32) && (t_align T <=? r_align r) && (r_size r mod r_align r =? 0)
    && (0 <=? r_off r) && (r_off r mod t_align T =? 0) && (r_off r + t_size T <=? r_size r) && (r_size r <=? 2 ^ 62).
  Definition value_okb (T : ty) (v : Z) : bool := negb (t_size T =? 0) || (v =? 0).
  Definition hint_okb (lo : Z) (up : option Z) : bool :=
    ((lo =? PANICS) || (0 <=? lo)) && (lo <=? USIZE_MAX) && match up with Some u => (0 <=? u) && (u <=? USIZE_MAX) | None => true end.
  Fixpoint script_okb (T : ty) (it : script) : bool :=
    match it with
    | SEnd lo up => hint_okb lo up
    | SNext lo up _ out rest =>
        hint_okb lo up && match out with NSome v => value_okb T v | _ => true end && script_okb T rest
    end.

  (** Illegal operations cannot be written in Rust; they are skipped. *)
  Fixpoint bstep (nested : bool) (o : bop) : M (bl W) unit :=
    match o with
    | BEmplace k tr T r e body out =>
        if ty_okb T && res_okb T r && res_okb T e && match out with COk v => value_okb T v | _ => true end then
          emplace k tr T r e (brun body) out
        else ret tt
    | BCopy tr T vs =>
        if ty_okb T && negb (t_drop T) && forallb (value_okb T) vs
           && (Z.of_nat (length vs) * t_size T + t_align T <=? 2 ^ 63) then copy_slice tr T vs else ret tt
    | BUninit tr T => if ty_okb T then uninit tr T else ret tt
    | BFromIter k tr T it =>
        if ty_okb T && script_okb T it then from_iter k tr T (biter it) else ret tt
    | BSet h i v => set_elem h i v
    (* resetting needs [&mut self]: impossible inside closures and iterators *)
    | BReset => if nested then ret tt else blink_reset_all
    | BDropAll => if nested then ret tt else blink_drop_all
    end
  with brun (os : bops) : M (bl W) unit :=
    match os with
    | BNil => ret tt
    | BCons o os' => bstep true o ;;; brun os'
    end
  with biter (it : script) : iter :=
    match it with
    | SEnd lo up => ([], (lo, up))
    | SNext lo up body out rest =>
        let r := biter rest in
        ((lo, up, (brun body ;;;
                   match out with NSome v => ret (Some v) | NNone => ret None | NPanic => panic end)) :: fst r, snd r)
    end.

  (** The client catches panics. *)
  Definition caught (m : M (bl W) unit) : M (bl W) unit :=
    fun s => match m s with OPanic s' => ORet tt s' | r => r end.

  Fixpoint bmain (os : list bop) : M (bl W) unit :=
    match os with
    | [] => ret tt
    | o :: os' => caught (bstep false o) ;;; bmain os'
    end.

  (** [Blink::new_in]. *)
  Definition bl_new (w : W) : bl W := mkBl w None [] [].
End Blink.

(** ** Programs for which the code is right *)

(** On the dropping path the [Result] whose layout is allocated must hold the one
    that is stored; on the other path the stored [Result] must not be larger than
    [T].  Property C36 tells what happens otherwise. *)
Definition fits_allocated (k : entry) (T : ty) (r e : res) : bool :=
  if negb (t_drop T) || no_drop k
  then (r_size r <=? t_size T) && (r_align r <=? t_align T)
  else (r_size r <=? r_size e) && (r_align r <=? r_align e).

(** Once [None], always [None]. *)
Fixpoint ended (it : script) : bool :=
  match it with
  | SEnd _ _ => true
  | SNext _ _ _ (NSome _) _ => false
  | SNext _ _ _ _ rest => ended rest
  end.
Fixpoint fused (it : script) : bool :=
  match it with
  | SEnd _ _ => true
  | SNext _ _ _ NNone rest => ended rest
  | SNext _ _ _ _ rest => fused rest
  end.

(** [exact]: the allocator returns blocks of exactly the size asked for, and its
    [grow] can also shrink, as the allocators of this crate. *)
Fixpoint sound (exact : bool) (o : bop) : bool :=
  match o with
  | BEmplace k _ T r e body _ => fits_allocated k T r e && sounds exact body
  | BFromIter k _ T it =>
      sound_script exact it &&
      ((t_size T =? 0) || (if dropping k T then exact && fused it else exact || fused it))
  | _ => true
  end
with sounds (exact : bool) (os : bops) : bool :=
  match os with
  | BNil => true
  | BCons o os' => sound exact o && sounds exact os'
  end
with sound_script (exact : bool) (it : script) : bool :=
  match it with
  | SEnd _ _ => true
  | SNext _ _ body _ rest => sounds exact body && sound_script exact rest
  end.

(** ** What is expected *)

(** One entry per reference handed out: to be dropped or not, type, contents. *)
Definition sval : Type := (bool * Z * list (option Z))%type.

(** Dropping one entry: its elements in order; whether one panics, whether two do. *)
Definition entry_drops (e : sval) : list (Z * Z) :=
  let '(reg, id, vs) := e in
  if reg then flat_map (fun v => match v with Some v => [(id, v)] | None => [] end) vs else [].

Section Expected.
  Variable bomb : Z -> Z -> bool.
  Definition bad (d : Z * Z) : bool := bomb (fst d) (snd d).
  (** Entries newest first; a panic loses the older ones. *)
  Fixpoint expected_drops (es : list sval) : list (Z * Z) :=
    match es with
    | [] => []
    | e :: es' => entry_drops e ++ (if existsb bad (entry_drops e) then [] else expected_drops es')
    end.

  Fixpoint live_entries (s : list (option sval)) : list sval :=
    match s with
    | [] => []
    | Some e :: s' => e :: live_entries s'
    | None :: s' => live_entries s'
    end.

  Definition entry_set (i : nat) (v : Z) (e : sval) : sval :=
    let '(reg, id, vs) := e in (reg, id, set_nth i (Some v) vs).

  (** State after an event, and what must be dropped by it. *)
  Definition espec (s : list (option sval)) (e : bev) : list (option sval) * list (Z * Z) :=
    match e with
    | ENew reg id vs => (s ++ [Some (reg, id, vs)], [])
    | ESet h i v => (match get h s with Some x => set_nth h (Some (entry_set i v x)) s | None => s end, [])
    | EReset => (map (fun _ => None) s, expected_drops (rev (live_entries s)))
    | _ => (s, [])
    end.

  Fixpoint especs (s : list (option sval)) (es : list bev) : list (option sval) * list (Z * Z) :=
    match es with
    | [] => (s, [])
    | e :: es' =>
        let '(s1, d1) := espec s e in
        let '(s2, d2) := especs s1 es' in (s2, d1 ++ d2)
    end.
End Expected.

Definition drops_of (es : list bev) : list (Z * Z) :=
  flat_map (fun e => match e with EDrop id v => [(id, v)] | _ => [] end) es.
