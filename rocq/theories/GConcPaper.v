(** Any number of threads that use a [GlobalBlinkAlloc], on paper (C91).

    Nothing in this file is code of blink-alloc.  In blink mode the threads move in the
    [SyncBlinkAlloc] as in ConcPaper.v, in direct mode they are users of the underlying allocator
    like any other (SharedPaper.v).  From src/global/sync.rs there are the mode (16), the counter of
    allocations of debug builds (90-91), and what a thread still has to do when the [SyncBlinkAlloc]
    is done with its call ([post], GConc.v). *)
From Verif Require Import Base Alloc Arena History Paper ProxyPaper Conc ConcPaper Shared SharedPaper GConc.

Record mpaper := mkMP {
  mp_on : bool;              (* blink mode *)
  mp_count : Z;              (* the counter *)
  mp_post : list post;       (* one for each thread *)
  mp_o : opaper              (* blocks obtained in blink mode are in [cp_tab], the others in [op_tab] *)
}.

Inductive mmove :=
| GAlloc (t : nat) (l : Layout) (z : bool)
| GDealloc (t : nat) (h : nat)
| GRealloc (t : nat) (h : nat) (n : Z)
| GWrite (t : nat) (h : nat) (off : Z) (cs : list cell)
| GCheck (t : nat)                     (* [reset]: the check of the counter *)
| GInside (t : nat) (m : cmove)        (* thread [t] makes a move in the [SyncBlinkAlloc] *)
| GZero (t : nat)                      (* it fills its new block with zeros *)
| GUp (t : nat)                        (* it counts its new block, and returns *)
| GDown (t : nat)                      (* it counts its block as gone, and returns *)
| GReset (t : nat)                     (* [reset], after the check *)
| GElse (o : op)                       (* somebody uses the underlying allocator *)
| GBlink
| GDirect.

(** The thread that moves. *)
Definition mover (m : cmove) : option nat :=
  match m with
  | MTake t | MGrow t | MStay t | MFull t | MFresh t | MCopied t | MReturn t => Some t
  | MCall _ _ | ConcPaper.MReset _ => None
  end.

Section Paper.
  Variable dbg : bool.       (* a debug build *)
  Variable min : Z.          (* the configured chunk size *)
  Variable smax : Z.         (* the largest request *)
  Variable bmax : Z.         (* the largest request to the underlying allocator *)
  Variable S : strategy.     (* the underlying allocator *)

  Definition mp_thr (q : mpaper) : list doing := cp_thr (op_in (mp_o q)).
  Definition mp_tab (q : mpaper) : list (option ublock) := cp_tab (op_in (mp_o q)).

  (** Not in a call. *)
  Definition free_to (t : nat) (q : mpaper) : bool :=
    match nth_error (mp_thr q) t, nth_error (mp_post q) t with Some DNone, Some PNone => true | _, _ => false end.
  Definition all_free (q : mpaper) : bool := forallb d_idle (mp_thr q) && forallb is_none (mp_post q).
  (** Not in the [SyncBlinkAlloc]; what is left to do. *)
  Definition left_to (t : nat) (q : mpaper) : option post :=
    match nth_error (mp_thr q) t, nth_error (mp_post q) t with Some DNone, Some p => Some p | _, _ => None end.
  (** Allocated in a call that has not returned. *)
  Definition unseen (h : nat) (q : mpaper) : bool := existsb (has_pending h) (mp_post q).
  Definition leaks (q : mpaper) : bool := dbg && negb (mp_count q =? 0).

  Definition with_post (t : nat) (p : post) (q : mpaper) : mpaper :=
    mkMP (mp_on q) (mp_count q) (set_nth t p (mp_post q)) (mp_o q).
  Definition with_count (d : Z) (q : mpaper) : mpaper :=
    mkMP (mp_on q) (if dbg then wrap (mp_count q + d) else mp_count q) (mp_post q) (mp_o q).
  Definition with_on (on : bool) (q : mpaper) : mpaper := mkMP on (mp_count q) (mp_post q) (mp_o q).

  (** A move in the [SyncBlinkAlloc]. *)
  Definition inner (m : cmove) (q : mpaper) : option (list event * mpaper) :=
    match cp_step min smax S m (op_in (mp_o q)) with
    | Some (es, q') => Some (es, mkMP (mp_on q) (mp_count q) (mp_post q) (mkOP (op_tab (mp_o q)) q'))
    | None => None
    end.
  (** Thread [t] calls it, and has [p] to do after that. *)
  Definition calls_it (t : nat) (o : op) (p : post) (q : mpaper) : option (list mevent * mpaper) :=
    match inner (MCall t o) q with
    | Some (es, q') => Some (ours es, with_post t p q')
    | None => None
    end.
  (** A call of the underlying allocator. *)
  Definition upstairs (o : op) (q : mpaper) : option (list mevent * mpaper) :=
    match op_step min smax bmax S (ByThem o) (mp_o q) with
    | Some (es, q') => Some (map MO es, mkMP (mp_on q) (mp_count q) (mp_post q) q')
    | None => None
    end.

  Definition mp_step (m : mmove) (q : mpaper) : option (list mevent * mpaper) :=
    match m with
    | GAlloc t l z =>
        if free_to t q && layout_okb l && (1 <=? l_size l) then
          if mp_on q then calls_it t (OpAlloc l false) (PAlloc z) q else upstairs (OpAlloc l z) q
        else None
    | GDealloc t h =>
        if free_to t q then
          if mp_on q then
            match get h (mp_tab q) with
            | Some u => if unseen h q then None else calls_it t (OpDealloc h (u_layout u)) PDealloc q
            | None => None
            end
          else
            match get h (op_tab (mp_o q)) with
            | Some u => upstairs (OpDealloc h (u_layout u)) q
            | None => None
            end
        else None
    | GRealloc t h n =>
        if free_to t q && (1 <=? n) then
          if mp_on q then
            match get h (mp_tab q) with
            | Some u =>
                let new := mkLayout n (l_align (u_layout u)) in
                if unseen h q || negb (layout_okb new) then None
                else calls_it t (OpResize h (u_layout u) new) PRealloc q
            | None => None
            end
          else
            (* only with the same size (C45) *)
            match get h (op_tab (mp_o q)) with
            | Some u => if n =? l_size (u_layout u) then upstairs (OpResize h (u_layout u) (u_layout u)) q else None
            | None => None
            end
        else None
    | GWrite t h off cs => if free_to t q && negb (unseen h q) then calls_it t (OpWrite h off cs) PNone q else None
    | GCheck t => if free_to t q then if leaks q then Some ([Panicked], q) else Some ([], with_post t PReset q) else None
    | GInside t m =>
        match mover m, nth_error (mp_post q) t with
        | Some t', Some p =>
            if Nat.eqb t' t then
              match inner m q with
              | Some (es, q') => Some (ours es, with_post t (after (length (mp_tab q)) es p) q')
              | None => None
              end
            else None
        | _, _ => None
        end
    | GZero t =>
        match left_to t q with
        | Some (PZero h) =>
            match get h (mp_tab q) with
            | Some u => calls_it t (OpWrite h 0 (repeat (Byte 0) (Z.to_nat (u_len u)))) (PUp h true) q
            | None => None
            end
        | _ => None
        end
    | GUp t =>
        match left_to t q with
        | Some (PUp h z) => Some ([Got t h z], with_post t PNone (with_count 1 q))
        | _ => None
        end
    | GDown t =>
        match left_to t q with
        | Some PDown => Some ([], with_post t PNone (with_count (-1) q))
        | _ => None
        end
    | GReset t =>
        match left_to t q with
        | Some PReset => if existsb is_pending (mp_post q) then None else calls_it t (OpReset true) PNone q
        | _ => None
        end
    | GElse o => upstairs o q
    | GBlink => if all_free q then Some ([], with_on true q) else None
    | GDirect =>
        if all_free q then
          if leaks q then Some ([Panicked], q)
          else match inner (ConcPaper.MReset true) q with Some (es, q') => Some (ours es, with_on false q') | None => None end
        else None
    end.

  Fixpoint mp_run (ms : list mmove) (q : mpaper) : option (list mevent * mpaper) :=
    match ms with
    | [] => Some ([], q)
    | m :: ms' =>
        match mp_step m q with
        | Some (es, q1) => match mp_run ms' q1 with Some (es', q2) => Some (es ++ es', q2) | None => None end
        | None => None
        end
    end.
End Paper.

(** [n] threads, direct mode, nothing allocated yet. *)
Definition mp0 (n : nat) : mpaper := mkMP false 0 (repeat PNone n) (op0 n).

(** How the paper shows in the state of the program (GConc.v). *)
Definition mshows (m : mst) (q : mpaper) : Prop :=
  m_on m = mp_on q /\ m_count m = mp_count q /\ m_post m = mp_post q /\ oshows (m_o m) (mp_o q).
