(** The global allocators on paper (C88).

    Nothing in this file is code of blink-alloc.  As in Paper.v there is no memory, no header,
    no pointer and no counter: the mode, the chunks, the blocks of the client with the mode each
    was allocated in, and the calls made to the underlying allocator.

    The rules, from src/global/local.rs (src/global/sync.rs is the same):
    - in direct mode every operation is the call of the underlying allocator (19-72), except
      that [realloc] asks for [grow] and [shrink] the wrong way round (43-60), which does not
      show in the record of the call;
    - in blink mode blocks come from chunks as in Paper.v and [dealloc] does nothing;
    - [reset] keeps the newest chunk and gives the others back (274-281); so does
      [direct_mode] (315-318); in a debug build both panic while a block allocated in blink
      mode is alive. *)
From Verif Require Import Base Alloc Arena History Global Paper ProxyPaper.

Record gpaper := mkGP {
  gp_on : bool;                                (* blink mode *)
  gp_chunks : list pchunk;                     (* newest first *)
  gp_tab : list (option (bool * ublock));      (* the blocks of the client; [true]: of blink mode *)
  gp_calls : list uevent                       (* calls to the underlying allocator, latest first *)
}.

(** A block allocated in blink mode is alive. *)
Definition blink_alive (t : list (option (bool * ublock))) : bool :=
  existsb (fun x => match x with Some (true, _) => true | _ => false end) t.

Section Paper.
  Variable min : Z.                  (* the chunk size *)
  Variable S : strategy.             (* the underlying allocator *)
  Variable dbg : bool.
  Variable smax : Z.                 (* as in Global.v *)
  Variable may : Z -> Z -> bool.

  (** A new block. *)
  Definition gp_new (l : Layout) (p : gpaper) : option block * list pchunk * list uevent :=
    if gp_on p then
      let '(a, ks, tr) := take min S (gp_chunks p) l (gp_calls p) in (option_map (fun a => mkBlock a (l_size l)) a, ks, tr)
    else
      let r := st_alloc S (gp_calls p) l in (r, gp_chunks p, EvAlloc l r :: gp_calls p).
  (** A block is resized. *)
  Definition gp_move (u : ublock) (new : Layout) (p : gpaper) : option block * list pchunk * list uevent :=
    if gp_on p then moves min S (gp_chunks p) (u_ptr u) (u_layout u) new (gp_calls p)
    else
      let r := Alloc.st_resize S (gp_calls p) (u_ptr u) (u_layout u) new in
      (r, gp_chunks p, EvResize (u_ptr u) (u_layout u) new r :: gp_calls p).
  (** Everything allocated in blink mode is gone. *)
  Definition gp_reset (on : bool) (p : gpaper) : gres * gpaper :=
    if dbg && blink_alive (gp_tab p) then (GPanicked, p)
    else (GDone, mkGP on (newest (gp_chunks p)) (map not_blink (gp_tab p)) (give_back (tl (gp_chunks p)) (gp_calls p))).

  (** An operation of a client that follows the documentation (Global.v). *)
  Definition gp_step (o : gop) (p : gpaper) : gres * gpaper :=
    match o with
    | GAlloc l z =>
        if layout_okb l && req_okb smax l && (1 <=? l_size l) then
          let '(r, ks, tr) := gp_new l p in
          (got r, mkGP (gp_on p) ks
                    (match r with Some b => gp_tab p ++ [Some (gp_on p, mkU (b_ptr b) (b_len b) l)] | None => gp_tab p end) tr)
        else (GSkipped, p)
    | GDealloc h =>
        match get h (gp_tab p) with
        | Some (bk, u) =>
            if Bool.eqb bk (gp_on p)
            then (GDone, mkGP (gp_on p) (gp_chunks p) (set_nth h None (gp_tab p))
                           (if gp_on p then gp_calls p else EvDealloc (u_ptr u) (u_layout u) :: gp_calls p))
            else (GSkipped, p)
        | None => (GSkipped, p)
        end
    | GRealloc h n =>
        match get h (gp_tab p) with
        | Some (bk, u) =>
            let new := mkLayout n (l_align (u_layout u)) in
            if Bool.eqb bk (gp_on p) && (1 <=? n) && (n <=? USIZE_MAX) && (req_okb smax new || negb (layout_okb new))
               && (gp_on p || may (l_size (u_layout u)) n) then
              if layout_okb new then
                let '(r, ks, tr) := gp_move u new p in
                (got r, mkGP (gp_on p) ks
                          (match r with Some b => set_nth h (Some (gp_on p, mkU (b_ptr b) (b_len b) new)) (gp_tab p) | None => gp_tab p end) tr)
              else (GNull, p)
            else (GSkipped, p)
        | None => (GSkipped, p)
        end
    | GWrite h off cs =>
        match get h (gp_tab p) with
        | Some (bk, u) => if (0 <=? off) && (off + Z.of_nat (length cs) <=? l_size (u_layout u)) then (GDone, p) else (GSkipped, p)
        | None => (GSkipped, p)
        end
    | GReset => gp_reset (gp_on p) p
    | GBlink => (GDone, mkGP true (gp_chunks p) (gp_tab p) (gp_calls p))
    | GDirect => gp_reset false p
    end.
  Fixpoint gp_run (os : list gop) (p : gpaper) : list gres * gpaper :=
    match os with
    | [] => ([], p)
    | o :: os' => let '(r, p1) := gp_step o p in let '(rs, p2) := gp_run os' p1 in (r :: rs, p2)
    end.
End Paper.

(** Nothing allocated yet, direct mode. *)
Definition gp0 : gpaper := mkGP false [] [] [].

(** How the paper shows in the state of the program. *)
Definition gshows (c : gcst (W := bworld)) (q : gpaper) : Prop :=
  let w := snd (g_aw (gc_st c)) in
  g_on (gc_st c) = gp_on q /\ gc_tab c = gp_tab q /\
  headed (bw_mem w) (ar_root (fst (g_aw (gc_st c)))) (gp_chunks q) /\ bw_trace w = gp_calls q.
