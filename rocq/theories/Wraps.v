(** Any number of [BlinkAlloc]s on one underlying allocator, and unwrapping them (C74).

    An allocator [A] that is a shared reference or a handle ([Global] is one) serves many
    [BlinkAlloc]s at a time ([BlinkAlloc::new_in], src/local.rs 148-153, 167-172; the same for
    [SyncBlinkAlloc]), and its clients may use it directly.  [BlinkAlloc::into_inner]
    (src/local.rs 287-290, src/sync.rs 344-347) gives [A] back without running [Drop]: the
    chunks are never given back, so the blocks in them remain valid.

    Each action is a whole.  (What many threads do to one [SyncBlinkAlloc] while others use
    the underlying allocator is C56.) *)
From Verif Require Import Base Alloc Arena BlinkAlloc History Setup.

Inductive fate := Alive | Unwrapped | Dropped.

(** A [BlinkAlloc] apart from the state of the underlying allocator, and the blocks allocated
    from it. *)
Record wrap := mkWrap { wp_fate : fate; wp_arena : Arena; wp_tab : list (option ublock) }.
(** The underlying allocator, the [BlinkAlloc]s there have been, the blocks taken from the
    underlying allocator directly. *)
Record wst := mkWst { ws_w : bworld; ws_wraps : list wrap; ws_tab : list (option ublock) }.

Inductive wact :=
| WNew (min : Z)            (* [with_chunk_size_in(min, a)]; [new_in(a)] is [WNew 256] *)
| WUse (k : nat) (o : op)   (* any operation of History.v on one of them *)
| WUnwrap (k : nat)         (* [into_inner] *)
| WDrop (k : nat)           (* src/local.rs 93-105: [Drop for BlinkAlloc] *)
| WDirect (o : op).         (* an operation on the underlying allocator itself *)

(** What may still be done with the blocks of a [BlinkAlloc]: when it has been unwrapped they
    can be accessed; there is nothing to give them back to. *)
Definition usable (f : fate) (o : op) : bool :=
  match f, o with
  | Alive, _ => true
  | Unwrapped, OpWrite _ _ _ => true
  | _, _ => false
  end.
(** The underlying allocator has no [reset]. *)
Definition plain_op (o : op) : bool := match o with OpReset _ => false | _ => true end.

Section Wraps.
  Variable su : setup.      (* [su_min] is not used *)

  Definition on_wrap {B} (k : nat) (f : fate) (m : M (cst (AW (W := bworld))) B) : M wst B :=
    fun s =>
      match nth_error (ws_wraps s) k with
      | None => OUB          (* not reached: [wstep] looks first *)
      | Some x =>
          let back c := mkWst (snd (c_w c)) (set_nth k (mkWrap f (fst (c_w c)) (c_tab c)) (ws_wraps s)) (ws_tab s) in
          match m (mkCst (wp_tab x) (wp_arena x, ws_w s)) with
          | ORet b c => ORet b (back c)
          | OPanic c => OPanic (back c)
          | OAbort => OAbort
          | OUB => OUB
          end
      end.

  (** A direct use. *)
  Definition on_direct {B} (m : M (cst bworld) B) : M wst B :=
    fun s =>
      let back c := mkWst (c_w c) (ws_wraps s) (c_tab c) in
      match m (mkCst (ws_tab s) (ws_w s)) with
      | ORet b c => ORet b (back c)
      | OPanic c => OPanic (back c)
      | OAbort => OAbort
      | OUB => OUB
      end.

  Definition fate_of (k : nat) (s : wst) : fate :=
    match nth_error (ws_wraps s) k with Some x => wp_fate x | None => Dropped end.

  Definition wstep (a : wact) : M wst (option block) :=
    fun s =>
      match a with
      | WNew min => ORet None (mkWst (ws_w s) (ws_wraps s ++ [mkWrap Alive (arena_with_chunk_size min) []]) (ws_tab s))
      | WUse k o =>
          if usable (fate_of k s) o
          then on_wrap k (fate_of k s) (step (su_smax su) (ba su) (do_reset su) o) s
          else ORet None s
      | WUnwrap k =>
          match fate_of k s with
          | Alive => on_wrap k Unwrapped (ret None) s
          | _ => ORet None s
          end
      | WDrop k =>
          match fate_of k s with
          | Alive => on_wrap k Dropped (call (blink_drop (bot su) (su_dbg su)) (fun _ => map (fun _ => None)) ;;; ret None) s
          | _ => ORet None s
          end
      | WDirect o =>
          if plain_op o then on_direct (step (su_bmax su) (bot su) (fun _ => ret tt) o) s else ORet None s
      end.

  Fixpoint wrun (xs : list wact) : M wst (list (option block)) :=
    match xs with
    | [] => ret []
    | a :: xs' => r <- wstep a ;; rs <- wrun xs' ;; ret (r :: rs)
    end.

  (** Nothing has been wrapped yet, nothing allocated. *)
  Definition wstart : wst := mkWst bworld0 [] [].

  (** The configured sizes are such as C01-C21 allow. *)
  Definition with_min (min : Z) : setup :=
    mkSetup (su_dbg su) (su_amax su) (su_smax su) (su_bmax su) min (su_strat su).
  Definition min_fine (a : wact) : Prop := match a with WNew min => setup_ok (with_min min) | _ => True end.
  Definition wraps_ok (xs : list wact) : Prop := setup_ok su /\ Forall min_fine xs.
End Wraps.

(** ** What the clients are entitled to expect: independent buffers *)

Record wspec := mkWs { wx_wraps : list (fate * list (option sbuf)); wx_tab : list (option sbuf) }.
Definition wspec_step (a : wact) (r : option Z) (b : wspec) : wspec :=
  match a with
  | WNew _ => mkWs (wx_wraps b ++ [(Alive, [])]) (wx_tab b)
  | WUse k o =>
      match nth_error (wx_wraps b) k with
      | Some (f, t) => if usable f o then mkWs (set_nth k (f, sstep o r t) (wx_wraps b)) (wx_tab b) else b
      | None => b
      end
  | WUnwrap k =>
      match nth_error (wx_wraps b) k with
      | Some (Alive, t) => mkWs (set_nth k (Unwrapped, t) (wx_wraps b)) (wx_tab b)
      | _ => b
      end
  | WDrop k =>
      match nth_error (wx_wraps b) k with
      | Some (Alive, t) => mkWs (set_nth k (Dropped, map (fun _ => None) t) (wx_wraps b)) (wx_tab b)
      | _ => b
      end
  | WDirect o => if plain_op o then mkWs (wx_wraps b) (sstep o r (wx_tab b)) else b
  end.
Fixpoint wspecs (xs : list wact) (rs : list (option Z)) (b : wspec) : wspec :=
  match xs, rs with
  | a :: xs', r :: rs' => wspecs xs' rs' (wspec_step a r b)
  | _, _ => b
  end.
Definition wspec0 : wspec := mkWs [] [].

(** Memory contains what the buffers contain. *)
Definition wagrees (s : wst) (b : wspec) : Prop :=
  Forall2 (fun x y => wp_fate x = fst y /\ agrees (bw_mem (ws_w s)) (wp_tab x) (snd y)) (ws_wraps s) (wx_wraps b) /\
  agrees (bw_mem (ws_w s)) (ws_tab s) (wx_tab b).

(** [u] is the block [h] of the [k]-th [BlinkAlloc], or a direct one. *)
Definition wowns (s : wst) (who : option nat) (h : nat) (u : ublock) : Prop :=
  match who with
  | None => get h (ws_tab s) = Some u
  | Some k => exists x, nth_error (ws_wraps s) k = Some x /\ get h (wp_tab x) = Some u
  end.

(** The blocks of the underlying allocator that are allocated. *)
Definition wheld (s : wst) : list ublock := outstanding (bw_trace (ws_w s)).

(** The addresses of the chunks of an arena, newest first: the root, then what the headers say
    ([ChunkHeader::prev], src/arena/mod.rs 173-179, line 177).  [n]: how many there are at most. *)
Fixpoint walk (m : mem) (n : nat) (root : option Z) : list Z :=
  match n, root with
  | S n', Some p => p :: walk m n' (match load m (p + PREV) 8 with Some q => opt_ptr q | None => None end)
  | _, _ => []
  end.
Definition chunks_at (s : wst) (x : wrap) : list Z :=
  walk (bw_mem (ws_w s)) (ar_depth (wp_arena x)) (ar_root (wp_arena x)).
