(** Model of src/global/sync.rs with [GlobalBlinkAlloc::local] (338-340): the global
    allocator together with thread-local proxies of the [SyncBlinkAlloc] inside it.

    The proxies always take their chunks from that [SyncBlinkAlloc] ([state.inner.blink]),
    whatever the mode the global allocator is in; [GlobalAlloc::alloc] and so on (348-407)
    are not involved, so the debug counter does not see the blocks of the proxies.

    As in Global.v and Proxy.v every operation is a whole; interleavings inside the calls
    are modelled in GConc.v and PConc.v. *)
From Verif Require Import Base Alloc Arena BlinkAlloc History Proxy Global.

Section GLocal.
  Context {W : Type}.
  Variable A : Allocator W.
  Variable dbg : bool.

  (** The global allocator and its client's blocks (Global.v); [max_local_alloc] of the
      [SyncBlinkAlloc] inside (src/sync.rs 100-104); the proxies and their clients' blocks
      ([None]: dropped; Proxy.v). *)
  Record lst := mkLst { l_g : gcst (W := W); l_max : Z; l_prox : list (option proxy) }.

  (** The operations on the global allocator, and those on proxies.  [PUse None] is not one
      of them: the [SyncBlinkAlloc] inside is not accessible otherwise. *)
  Inductive lop := LGlobal (o : gop) | LProxy (o : pop).
  Inductive lres := RGlobal (r : gres) | RProxy (r : pres).

  Definition resets (o : gop) : bool := match o with GReset | GDirect => true | _ => false end.
  Definition no_blocks {T} (t : list (option T)) : bool := forallb is_none t.

  (** No chunk, and so no block: the proxy has been dropped, or not yet used. *)
  Definition unused (p : option proxy) : bool := match p with Some p => is_none (ar_root (px_arena p)) | None => true end.

  (** [careful]: the client drops all the proxies it has used before [reset] and
      [direct_mode], as the example of the documentation does (332-333).  Otherwise the client
      only makes sure that there is no block left that was allocated from a proxy: the contract
      stated for [reset] (216-220) is about previously allocated memory. *)
  Variable careful : bool.
  Definition may_reset (t : list (option proxy)) : bool :=
    if careful then forallb unused t
    else forallb (fun p => match p with Some p => no_blocks (px_tab p) | None => true end) t.

  (** Parameters as in Global.v and Proxy.v. *)
  Variable smax : Z.
  Variable may : Z -> Z -> bool.
  Variable psmax nmax : Z.

  Definition on_global (o : gop) : M lst lres :=
    fun s => match gstep A dbg true smax may o (l_g s) with
             | ORet r c => ORet (RGlobal r) (mkLst c (l_max s) (l_prox s))
             | OPanic c => OPanic (mkLst c (l_max s) (l_prox s))
             | OAbort => OAbort
             | OUB => OUB
             end.
  (** The proxies see the [SyncBlinkAlloc] inside: [g_aw]. *)
  Definition with_proxies (s : lst) (p : pst (W := AW (W := W))) : lst :=
    let g := gc_st (l_g s) in
    mkLst (mkGc (gc_tab (l_g s)) (mkG (g_on g) (g_count g) (ps_w p))) (ps_max p) (ps_prox p).
  Definition on_proxies (o : pop) : M lst lres :=
    fun s => match pstep (blink A dbg) dbg (arena_reset A) smax psmax nmax o
                     (mkPst (l_max s) (l_prox s) [] (g_aw (gc_st (l_g s)))) with
             | ORet r p => ORet (RProxy r) (with_proxies s p)
             | OPanic p => OPanic (with_proxies s p)
             | OAbort => OAbort
             | OUB => OUB
             end.

  Definition lstep (o : lop) : M lst lres :=
    match o with
    | LGlobal o => fun s => if resets o && negb (may_reset (l_prox s)) then ORet (RGlobal GSkipped) s else on_global o s
    | LProxy (PUse None _) => ret (RProxy PSkipped)
    | LProxy o => on_proxies o
    end.
  Fixpoint lrun (os : list lop) : M lst (list lres) :=
    match os with
    | [] => ret []
    | o :: os' => r <- lstep o ;; rs <- lrun os' ;; ret (r :: rs)
    end.

  (** sync.rs 164-173, 196-205: [new_in] and [with_chunk_size_in]; src/sync.rs 155-161. *)
  Definition l_new (min : Z) (w : W) : lst := mkLst (mkGc [] (g_new min w)) 0 [].
End GLocal.
Arguments mkLst {W} l_g l_max l_prox.
Arguments l_g {W} l.
Arguments l_max {W} l.
Arguments l_prox {W} l.

(** ** What the clients are entitled to expect: independent buffers *)

(** The mode, the buffers of the global allocator's client, those of the proxies' clients. *)
Record lspec := mkLs { ls_on : bool; ls_tab : list (option gbuf); ls_prox : list (option (list (option sbuf))) }.
Definition lspec_step (o : lop) (r : lres) (b : lspec) : lspec :=
  match o, r with
  | LGlobal o, RGlobal r => mkLs (gmode o r (ls_on b)) (gspec o r (ls_on b) (ls_tab b)) (ls_prox b)
  | LProxy (PUse None _), _ => b
  | LProxy o, RProxy r => mkLs (ls_on b) (ls_tab b) (sp_prox (pspec_step o r (mkSp (ls_prox b) [])))
  | _, _ => b
  end.
Fixpoint lspecs (os : list lop) (rs : list lres) (b : lspec) : lspec :=
  match os, rs with
  | o :: os', r :: rs' => lspecs os' rs' (lspec_step o r b)
  | _, _ => b
  end.

(** The client of [who] (the global allocator, or a live proxy) owns [u] as its block [h]. *)
Definition lowns {W} (s : lst (W := W)) (who : option nat) (h : nat) (u : ublock) : Prop :=
  match who with
  | None => exists bk, get h (gc_tab (l_g s)) = Some (bk, u)
  | Some k => exists p, get k (l_prox s) = Some p /\ get h (px_tab p) = Some u
  end.
