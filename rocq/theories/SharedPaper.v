(** Threads that share one [SyncBlinkAlloc], and other users of its underlying allocator, on
    paper (C90).

    Nothing in this file is code of blink-alloc.  The threads move as in ConcPaper.v; between
    any two of their moves somebody else may call the underlying allocator, whose answers are
    those of its strategy (Alloc.v), given all the calls made to it so far, by the arena or by
    others. *)
From Verif Require Import Base Alloc Arena History Paper ProxyPaper Conc ConcPaper Shared.

Record opaper := mkOP {
  op_tab : list (option ublock);     (* the blocks of the others *)
  op_in : cpaper                     (* the allocator and its threads; [cp_calls] has the calls of all *)
}.

Inductive omove :=
| ByUs (m : cmove)
| ByThem (o : op).

(** A block that is resized, or moved. *)
Definition replaced (h : nat) (l : Layout) (r : option block) (tab : list (option ublock)) : list (option ublock) :=
  match r with Some b => set_nth h (Some (mkU (b_ptr b) (b_len b) l)) tab | None => tab end.

Section Paper.
  Variable min : Z.          (* the configured chunk size *)
  Variable smax : Z.         (* the largest request of the threads *)
  Variable bmax : Z.         (* the largest request to the underlying allocator *)
  Variable S : strategy.     (* the underlying allocator *)

  (** What the underlying allocator does for the others: its answer, their blocks, its calls.
      Calls that break the rules are not made. *)
  Definition their_call (o : op) (tab : list (option ublock)) (tr : list uevent)
    : option block * list (option ublock) * list uevent :=
    match o with
    | OpAlloc l _ =>
        if req_okb bmax l then
          let r := st_alloc S tr l in
          (r, match r with Some b => tab ++ [Some (mkU (b_ptr b) (b_len b) l)] | None => tab end, EvAlloc l r :: tr)
        else (None, tab, tr)
    | OpDealloc h l =>
        match get h tab with
        | Some u => if fitsb l u then (None, set_nth h None tab, EvDealloc (u_ptr u) l :: tr) else (None, tab, tr)
        | None => (None, tab, tr)
        end
    | OpResize h old new =>
        match get h tab with
        | Some u =>
            if fitsb old u && req_okb bmax new then
              let r := st_resize S tr (u_ptr u) old new in
              (r, replaced h new r tab, EvResize (u_ptr u) old new r :: tr)
            else (None, tab, tr)
        | None => (None, tab, tr)
        end
    | OpGrowZeroed h old new =>
        (* the default method of the trait: a new block, then the old one is given back *)
        match get h tab with
        | Some u =>
            if fitsb old u && req_okb bmax new && (l_size old <=? l_size new) then
              let r := st_alloc S tr new in
              (r, replaced h new r tab,
               match r with Some _ => [EvDealloc (u_ptr u) old] | None => [] end ++ EvAlloc new r :: tr)
            else (None, tab, tr)
        | None => (None, tab, tr)
        end
    | OpWrite _ _ _ | OpReset _ => (None, tab, tr)
    end.

  Definition op_step (m : omove) (q : opaper) : option (list oevent * opaper) :=
    match m with
    | ByUs m =>
        match cp_step min smax S m (op_in q) with
        | Some (es, q') => Some (map OurEv es, mkOP (op_tab q) q')
        | None => None
        end
    | ByThem (OpReset _) => None
    | ByThem o =>
        let '(r, tab, tr) := their_call o (op_tab q) (cp_calls (op_in q)) in
        Some ([TheirEv o r], mkOP tab (mkCP (cp_chunks (op_in q)) (cp_tab (op_in q)) tr (cp_thr (op_in q))))
    end.

  Fixpoint op_run (ms : list omove) (q : opaper) : option (list oevent * opaper) :=
    match ms with
    | [] => Some ([], q)
    | m :: ms' =>
        match op_step m q with
        | Some (es, q1) => match op_run ms' q1 with Some (es', q2) => Some (es ++ es', q2) | None => None end
        | None => None
        end
    end.
End Paper.

(** [n] threads, nothing allocated yet. *)
Definition op0 (n : nat) : opaper := mkOP [] (cp0 n).

(** How the paper shows in the state of the program (Shared.v). *)
Definition oshows (o : ost) (q : opaper) : Prop := o_tab o = op_tab q /\ cshows (o_g o) (op_in q).
