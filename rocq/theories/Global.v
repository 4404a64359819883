(** Model of src/global/local.rs, [UnsafeGlobalBlinkAlloc<A>], and of the
    sequential behaviour of src/global/sync.rs, [GlobalBlinkAlloc<A>].  The two files
    differ in the counter ([sync]) and in the type of [blink], whose sequential
    behaviour is the same (BlinkAlloc.v). *)
From Verif Require Import Base Alloc Arena BlinkAlloc History.

Definition U64_MAX : Z := 2 ^ 64 - 1.

Section Global.
  Context {W : Type}.
  Variable A : Allocator W.
  Variable dbg sync : bool.     (* [dbg]: debug assertions and overflow checks are compiled in *)

  (** src/global/local.rs 14-17 [State] and 74-81, src/global/sync.rs 14-17 and
      72-92.  Without debug assertions there is no counter; it stays 0 here. *)
  Record gst := mkG { g_on : bool; g_count : Z; g_aw : AW (W := W) }.

  (** local.rs 21-29, sync.rs 21-29 [State::allocate]. *)
  Definition st_allocate (on : bool) (l : Layout) : M (AW (W := W)) (option block) :=
    if on then al_allocate (blink A dbg) l else inner (al_allocate A l).
  (** local.rs 32-40, sync.rs 32-40 [State::allocate_zeroed].  The allocators have the
      default [allocate_zeroed] of the trait; so has, we assume, the underlying one. *)
  Definition st_allocate_zeroed (on : bool) (l : Layout) : M (AW (W := W)) (option block) :=
    if on then al_allocate_zeroed (blink A dbg) l else inner (al_allocate_zeroed A l).
  (** local.rs 43-60, sync.rs 43-60 [State::resize]. *)
  Definition st_resize (on : bool) (p : Z) (old new : Layout) : M (AW (W := W)) (option block) :=
    if on then blink_resize A dbg p old new
    else inner (if l_size new <=? l_size old then al_grow A p old new else al_shrink A p old new).
  (** local.rs 63-71, sync.rs 63-71 [State::deallocate]. *)
  Definition st_deallocate (on : bool) (p : Z) (l : Layout) : M (AW (W := W)) unit :=
    if on then blink_deallocate A p (l_size l) else inner (al_deallocate A p l).

  Definition on_aw {B} (m : M (AW (W := W)) B) : M gst B :=
    fun s => match m (g_aw s) with
             | ORet b aw => ORet b (mkG (g_on s) (g_count s) aw)
             | OPanic aw => OPanic (mkG (g_on s) (g_count s) aw)
             | OAbort => OAbort
             | OUB => OUB
             end.

  (** local.rs 330-332 ([+ 1] panics on overflow), sync.rs 352-354 ([fetch_add] wraps). *)
  Definition count_up : M gst unit :=
    fun s =>
      if dbg && g_on s then
        if sync then ORet tt (mkG (g_on s) (wrap (g_count s + 1)) (g_aw s))
        else if g_count s + 1 <=? U64_MAX then ORet tt (mkG (g_on s) (g_count s + 1) (g_aw s))
        else OPanic s
      else ORet tt s.
  (** local.rs 343-347 ([saturating_sub]), sync.rs 365-370 ([fetch_sub] wraps). *)
  Definition count_down : M gst unit :=
    fun s =>
      if dbg && g_on s then
        ORet tt (mkG (g_on s) (if sync then wrap (g_count s - 1) else Z.max 0 (g_count s - 1)) (g_aw s))
      else ORet tt s.

  (** local.rs 326-337, sync.rs 348-359 [alloc]; local.rs 351-362, sync.rs 374-385
      [alloc_zeroed].  [None] is the null pointer; the length in the result is thrown
      away by the code (it is used to describe clients below). *)
  Definition g_alloc (z : bool) (l : Layout) : M gst (option block) :=
    fun s =>
      (r <- on_aw (if z then st_allocate_zeroed (g_on s) l else st_allocate (g_on s) l) ;;
       match r with
       | Some b => count_up ;;; ret (Some b)
       | None => ret None
       end) s.
  (** local.rs 340-348, sync.rs 362-371 [dealloc]. *)
  Definition g_dealloc (p : Z) (l : Layout) : M gst unit :=
    fun s => (on_aw (st_deallocate (g_on s) p l) ;;; count_down) s.
  (** local.rs 365-384, sync.rs 388-407 [realloc]. *)
  Definition g_realloc (p : Z) (l : Layout) (new_size : Z) : M gst (option block) :=
    fun s =>
      let new := mkLayout new_size (l_align l) in
      if layout_okb new then
        on_aw (if p =? 0 then st_allocate (g_on s) new else st_resize (g_on s) p l new) s
      else ORet None s.

  (** local.rs 274-281, sync.rs 247-258 [reset]. *)
  Definition g_reset : M gst unit :=
    fun s =>
      if dbg && negb (g_count s =? 0) then OPanic s
      else on_aw (blink_reset A) s.
  (** local.rs 297-299, sync.rs 274-276 [blink_mode]. *)
  Definition g_blink_mode : M gst unit := fun s => ORet tt (mkG true (g_count s) (g_aw s)).
  (** local.rs 315-318, sync.rs 292-295 [direct_mode]. *)
  Definition g_direct_mode : M gst unit :=
    g_reset ;;; fun s => ORet tt (mkG false (g_count s) (g_aw s)).

  (** local.rs 185-194, 228-237; sync.rs 164-173, 196-205: [new_in] and
      [with_chunk_size_in]. *)
  Definition g_new (min : Z) (w : W) : gst := mkG false 0 (arena_with_chunk_size min, w).

  (** ** Clients *)

  (** Operations of a client that follows the documentation, on the blocks it owns.
      A block remembers the mode it was allocated in. *)
  Inductive gop :=
  | GAlloc (l : Layout) (z : bool)
  | GDealloc (h : nat)
  | GRealloc (h : nat) (n : Z)
  | GWrite (h : nat) (off : Z) (cs : list cell)
  | GReset
  | GBlink
  | GDirect.
  Inductive gres := GPtr (p : Z) | GNull | GDone | GPanicked | GSkipped.

  Record gcst := mkGc { gc_tab : list (option (bool * ublock)); gc_st : gst }.

  (** Panics are caught by the client. *)
  Definition gcall {B} (m : M gst B) (f : B -> list (option (bool * ublock)) -> list (option (bool * ublock)))
    (res : B -> gres) : M gcst gres :=
    fun c => match m (gc_st c) with
             | ORet b s => ORet (res b) (mkGc (f b (gc_tab c)) s)
             | OPanic s => ORet GPanicked (mkGc (gc_tab c) s)
             | OAbort => OAbort
             | OUB => OUB
             end.
  Definition got (r : option block) : gres := match r with Some b => GPtr (b_ptr b) | None => GNull end.

  (** What is left of the client's blocks after a reset. *)
  Definition not_blink (o : option (bool * ublock)) : option (bool * ublock) :=
    match o with Some (false, u) => Some (false, u) | _ => None end.

  (** The largest request of the client (all valid layouts if this is [ISIZE_MAX]), and
      which old and new sizes it passes to [realloc] in direct mode. *)
  Variable smax : Z.
  Variable may : Z -> Z -> bool.

  Definition gstep_at (o : gop) (on : bool) (t : list (option (bool * ublock))) : M gcst gres :=
    match o with
    | GAlloc l z =>
        if layout_okb l && req_okb smax l && (1 <=? l_size l) then
          gcall (g_alloc z l)
                (fun r t => match r with Some b => t ++ [Some (on, mkU (b_ptr b) (b_len b) l)] | None => t end) got
        else ret GSkipped
    | GDealloc h =>
        match get h t with
        | Some (bk, u) =>
            if Bool.eqb bk on then gcall (g_dealloc (u_ptr u) (u_layout u)) (fun _ => set_nth h None) (fun _ => GDone)
            else ret GSkipped
        | None => ret GSkipped
        end
    | GRealloc h n =>
        match get h t with
        | Some (bk, u) =>
            let new := mkLayout n (l_align (u_layout u)) in
            if Bool.eqb bk on && (1 <=? n) && (n <=? USIZE_MAX) && (req_okb smax new || negb (layout_okb new))
               && (on || may (l_size (u_layout u)) n) then
              gcall (g_realloc (u_ptr u) (u_layout u) n)
                    (fun r t => match r with
                                | Some b => set_nth h (Some (on, mkU (b_ptr b) (b_len b) new)) t
                                | None => t
                                end) got
            else ret GSkipped
        | None => ret GSkipped
        end
    | GWrite h off cs =>
        match get h t with
        | Some (bk, u) =>
            if (0 <=? off) && (off + Z.of_nat (length cs) <=? l_size (u_layout u)) then
              fun c => let aw := g_aw (gc_st c) in
                ORet GDone (mkGc (gc_tab c) (mkG (g_on (gc_st c)) (g_count (gc_st c))
                  (fst aw, al_set_mem A (snd aw) (write_cells (al_mem A (snd aw)) (u_ptr u + off) cs))))
            else ret GSkipped
        | None => ret GSkipped
        end
    | GReset => gcall g_reset (fun _ => map not_blink) (fun _ => GDone)
    | GBlink => gcall g_blink_mode (fun _ t => t) (fun _ => GDone)
    | GDirect => gcall g_direct_mode (fun _ => map not_blink) (fun _ => GDone)
    end.
  Definition gstep (o : gop) : M gcst gres := fun c => gstep_at o (g_on (gc_st c)) (gc_tab c) c.

  Fixpoint grun (os : list gop) : M gcst (list gres) :=
    match os with
    | [] => ret []
    | o :: os' => r <- gstep o ;; rs <- grun os' ;; ret (r :: rs)
    end.
End Global.
Arguments mkG {W} g_on g_count g_aw.
Arguments g_on {W} g.
Arguments g_count {W} g.
Arguments g_aw {W} g.
Arguments mkGc {W} gc_tab gc_st.
Arguments gc_tab {W} g.
Arguments gc_st {W} g.

(** ** What the client is entitled to expect: independent buffers *)

(** One operation: [on] - the mode; [r] - the answer, of which only success or failure
    matters.  A buffer has the layout that was asked for and, where known, contents. *)
Definition gbuf : Type := bool * sbuf.
Definition without_blink (o : option gbuf) : option gbuf :=
  match o with Some (false, b) => Some (false, b) | _ => None end.
Definition gspec (o : gop) (r : gres) (on : bool) (t : list (option gbuf)) : list (option gbuf) :=
  match o, r with
  | GAlloc l z, GPtr _ => t ++ [Some (on, mkS l (l_size l) (fun _ => if z then Some (Byte 0) else None))]
  | GDealloc h, GDone => set_nth h None t
  | GRealloc h n, GPtr _ =>
      match get h t with
      | Some (_, b) => set_nth h (Some (on, mkS (mkLayout n (l_align (s_layout b))) n
                                       (fun i => if i <? s_len b then s_at b i else None))) t
      | None => t
      end
  | GWrite h off cs, GDone =>
      match get h t with
      | Some (bk, b) =>
          set_nth h (Some (bk, mkS (s_layout b) (s_len b)
            (fun i => if (off <=? i) && (i <? off + Z.of_nat (length cs))
                      then Some (nth (Z.to_nat (i - off)) cs Undef) else s_at b i))) t
      | None => t
      end
  | GReset, GDone | GDirect, GDone => map without_blink t
  | _, _ => t
  end.
Definition gmode (o : gop) (r : gres) (on : bool) : bool :=
  match o, r with GBlink, GDone => true | GDirect, GDone => false | _, _ => on end.
Fixpoint gspecs (os : list gop) (rs : list gres) (on : bool) (t : list (option gbuf)) : bool * list (option gbuf) :=
  match os, rs with
  | o :: os', r :: rs' => gspecs os' rs' (gmode o r on) (gspec o r on t)
  | _, _ => (on, t)
  end.

(** The block behaves as the buffer. *)
Definition gagree (m : mem) (x : option (bool * ublock)) (y : option gbuf) : Prop :=
  match x, y with
  | Some (bk, u), Some (bk', b) =>
      bk = bk' /\ u_layout u = s_layout b /\ s_len b = l_size (s_layout b) /\
      forall i c, 0 <= i < s_len b -> s_at b i = Some c -> m (u_ptr u + i) = c
  | None, None => True
  | _, _ => False
  end.
