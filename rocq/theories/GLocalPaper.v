(** A global allocator with its proxies on paper (C93).

    Nothing in this file is code of blink-alloc.  It puts GlobalPaper.v and ProxyPaper.v
    together, for [GlobalBlinkAlloc::local] (src/global/sync.rs 338-340, GLocal.v):
    - the proxies draw their chunks from the chunks of the [SyncBlinkAlloc] inside the global
      allocator, by the rules of ProxyPaper.v and whatever the mode: they never look at it;
    - the client of the global allocator sees nothing of that except that the chunks have been
      drawn on (GlobalPaper.v);
    - the client drops the proxies it has used before [reset] and [direct_mode]. *)
From Verif Require Import Base Alloc Arena History Proxy Global GLocal Paper ProxyPaper GlobalPaper.

Record lpaper := mkLP {
  lp_g : gpaper;                       (* the mode, the chunks, the client's blocks, the calls made *)
  lp_max : Z;                          (* the chunk size of new proxies *)
  lp_prox : list (option pproxy)       (* the proxies; [None]: dropped *)
}.

(** The proxy has no chunk. *)
Definition no_chunks (p : option pproxy) : bool :=
  match p with Some p => match pp_chunks p with [] => true | _ => false end | None => true end.

(** What the proxies see of it, and how it looks when they are done. *)
Definition for_proxies (q : lpaper) : ppaper := mkShared (lp_max q) (lp_prox q) [] (gp_chunks (lp_g q), gp_calls (lp_g q)).
Definition from_proxies (q : lpaper) (x : ppaper) : lpaper :=
  mkLP (mkGP (gp_on (lp_g q)) (fst (sh_books x)) (gp_tab (lp_g q)) (snd (sh_books x))) (sh_max x) (sh_prox x).

Section Paper.
  Variable min : Z.                  (* the chunk size *)
  Variable S : strategy.             (* the underlying allocator *)
  Variable dbg : bool.
  Variable smax : Z.                 (* as in GLocal.v *)
  Variable may : Z -> Z -> bool.
  Variables psmax nmax : Z.

  Definition lg_step (o : lop) (q : lpaper) : lres * lpaper :=
    match o with
    | LGlobal o =>
        if resets o && negb (forallb no_chunks (lp_prox q)) then (RGlobal GSkipped, q)
        else let '(r, g) := gp_step min S dbg smax may o (lp_g q) in (RGlobal r, mkLP g (lp_max q) (lp_prox q))
    | LProxy (PUse None _) => (RProxy PSkipped, q)
    | LProxy o => let '(r, x) := pp_step min S dbg smax psmax nmax o (for_proxies q) in (RProxy r, from_proxies q x)
    end.
  Fixpoint lg_run (os : list lop) (q : lpaper) : list lres * lpaper :=
    match os with
    | [] => ([], q)
    | o :: os' => let '(r, q1) := lg_step o q in let '(rs, q2) := lg_run os' q1 in (r :: rs, q2)
    end.
End Paper.

(** Nothing allocated yet, direct mode, no proxy. *)
Definition lp0 : lpaper := mkLP gp0 0 [].

(** How the paper shows in the state of the program. *)
Definition lshows (s : lst (W := bworld)) (q : lpaper) : Prop :=
  gshows (l_g s) (lp_g q) /\ l_max s = lp_max q /\
  Forall2 (drawn (bw_mem (snd (g_aw (gc_st (l_g s)))))) (l_prox s) (lp_prox q).
