(** Threads that share one [SyncBlinkAlloc], on paper (C89).

    Nothing in this file is code of blink-alloc.  As in Paper.v there is no memory and no header;
    there are also no locks, no loads, no compare-exchanges and no retries.  The threads take
    turns; a call is made, gets its block in one move, copies if it has to, and returns.

    The rules, from src/arena/sync.rs and src/arena/mod.rs:
    - a block is taken from the newest chunk if there is room (mod.rs 283-354);
    - a resized block grows where it is if it is the last one of the newest chunk and there is
      room (374-406); it may be moved all the same (the load of the cursor at 378 is [Relaxed] and
      may return an old value, if there is one);
    - a call that finds no room asks for a new chunk (sync.rs 61-75, 93-111), some time later, and
      without looking for room again: other calls may have asked meanwhile;
    - a thread that has asked for a new chunk excludes the others until it returns, and it waits
      for those that have got a block (the lock, sync.rs 51-111);
    - [reset] keeps the newest chunk (mod.rs 535-559). *)
From Verif Require Import Base Alloc Arena History Paper ProxyPaper Conc.

(** What a thread is doing. *)
Inductive doing :=
| DNone                                          (* not in a call *)
| DAsked (o : op)                                (* has called [o] *)
| DFull (o : op)                                 (* ... and has found no room *)
| DHas (o : op) (b : block) (alone : bool)       (* ... and has got the block [b], and copies *)
| DDone (h : option nat) (alone : bool).         (* the call, concerning block [h], has taken effect *)

Record cpaper := mkCP {
  cp_chunks : list pchunk;                 (* newest first *)
  cp_tab : list (option ublock);           (* the blocks of the client *)
  cp_calls : list uevent;                  (* calls to the underlying allocator, latest first *)
  cp_thr : list doing
}.

Inductive cmove :=
| MCall (t : nat) (o : op)       (* thread [t] calls [o] *)
| MTake (t : nat)                (* it gets a block of the newest chunk *)
| MGrow (t : nat)                (* its block grows where it is *)
| MStay (t : nat)                (* its block stays as it is, or is deallocated *)
| MFull (t : nat)                (* it finds no room *)
| MFresh (t : nat)               (* it asks for a chunk *)
| MCopied (t : nat)              (* it has copied the contents *)
| MReturn (t : nat)
| MReset (keep : bool).          (* reset through [&mut] *)

Definition op_handle (o : op) : option nat :=
  match o with OpDealloc h _ | OpResize h _ _ => Some h | _ => None end.
(** What a call wants a block for. *)
Definition wants (o : op) : option Layout :=
  match o with OpAlloc l _ => Some l | OpResize _ _ new => Some new | _ => None end.
(** A block that does not grow, by size or alignment, stays where it is. *)
Definition shrinks (o : op) : bool :=
  match o with OpResize _ old new => (l_align new <=? l_align old) && (l_size new <=? l_size old) | _ => false end.

(** The block a thread works on. *)
Definition works_on (d : doing) : option nat :=
  match d with DNone => None | DAsked o | DFull o | DHas o _ _ => op_handle o | DDone h _ => h end.
Definition in_use (h : nat) (ds : list doing) : bool :=
  existsb (fun d => match works_on d with Some h' => Nat.eqb h' h | None => false end) ds.
(** A thread that has asked for a chunk and has not returned yet. *)
Definition alone (d : doing) : bool := match d with DHas _ _ a | DDone _ a => a | _ => false end.
(** A thread that has got a block, or is done, and has not returned yet. *)
Definition has_got (d : doing) : bool := match d with DHas _ _ _ | DDone _ _ => true | _ => false end.
Definition d_idle (d : doing) : bool := match d with DNone => true | _ => false end.
(** A thread that does not mind a reset: not in a call, or in one of [allocate] that has no block yet. *)
Definition d_away (d : doing) : bool :=
  match d with DNone | DAsked (OpAlloc _ _) | DFull (OpAlloc _ _) => true | _ => false end.

(** The newest chunk has room. *)
Definition room_in (ks : list pchunk) (l : Layout) : option (Z * list pchunk) :=
  match ks with
  | [] => None
  | k :: older =>
      let a := least_multiple (p_free k) (l_align l) in
      if (p_free k + (l_size l + (l_align l - 1)) <=? USIZE_MAX) && (a + l_size l <=? p_end k)
      then Some (a, mkP (p_at k) (p_len k) (a + l_size l) :: older) else None
  end.
(** The block at [p] is the last one of the newest chunk, and there is room for it to grow. *)
Definition room_at (ks : list pchunk) (p : Z) (old new : Layout) : option (list pchunk) :=
  match ks with
  | [] => None
  | k :: older =>
      if (p_free k =? p + l_size old) && (p + l_size new <=? p_end k)
      then Some (mkP (p_at k) (p_len k) (p + l_size new) :: older) else None
  end.

(** The block is the last one of the newest chunk and has room to grow, and nothing has been taken
    from the chunk yet (so the block has size zero): a thread that looks at the cursor sees just
    that, as there is no older value. *)
Definition must_grow (ks : list pchunk) (tab : list (option ublock)) (o : op) : bool :=
  match o, ks with
  | OpResize h old new, k :: _ =>
      match get h tab with
      | Some u =>
          (l_align new <=? l_align old) && (p_free k =? p_at k + HDR) &&
          match room_at ks (u_ptr u) old new with Some _ => true | None => false end
      | None => false
      end
  | _, _ => false
  end.

Definition set_thr (t : nat) (d : doing) (q : cpaper) : cpaper :=
  mkCP (cp_chunks q) (cp_tab q) (cp_calls q) (set_nth t d (cp_thr q)).
Definition set_chunks (ks : list pchunk) (q : cpaper) : cpaper := mkCP ks (cp_tab q) (cp_calls q) (cp_thr q).

(** The call [o] takes effect. *)
Definition done_with (t : nat) (o : op) (a : bool) (r : option block) (q : cpaper) : list event * cpaper :=
  ([Lin t o r],
   match o, r with
   | OpAlloc l _, Some b =>
       mkCP (cp_chunks q) (cp_tab q ++ [Some (mkU (b_ptr b) (b_len b) l)]) (cp_calls q)
            (set_nth t (DDone (Some (length (cp_tab q))) a) (cp_thr q))
   | OpResize h _ new, Some b =>
       mkCP (cp_chunks q) (set_nth h (Some (mkU (b_ptr b) (b_len b) new)) (cp_tab q)) (cp_calls q)
            (set_nth t (DDone (Some h) a) (cp_thr q))
   | OpDealloc h _, _ =>
       mkCP (cp_chunks q) (set_nth h None (cp_tab q)) (cp_calls q) (set_nth t (DDone (Some h) a) (cp_thr q))
   | _, _ => set_thr t (DDone (op_handle o) a) q
   end).
(** The call [o] gets the block [b]; a resize has to copy first. *)
Definition granted (t : nat) (o : op) (a : bool) (b : block) (q : cpaper) : list event * cpaper :=
  match o with OpResize _ _ _ => ([], set_thr t (DHas o b a) q) | _ => done_with t o a (Some b) q end.

Definition wiped (keep : bool) (q : cpaper) : cpaper :=
  if keep
  then mkCP (newest (cp_chunks q)) (map (fun _ => None) (cp_tab q)) (give_back (tl (cp_chunks q)) (cp_calls q)) (cp_thr q)
  else mkCP [] (map (fun _ => None) (cp_tab q)) (give_back (cp_chunks q) (cp_calls q)) (cp_thr q).

Definition bumped (t : nat) (x : list event * cpaper) : option (list event * cpaper) := Some (Bump t :: fst x, snd x).

Section Paper.
  Variable min : Z.          (* the configured chunk size *)
  Variable smax : Z.         (* the largest request of the client *)
  Variable S : strategy.     (* the underlying allocator *)

  (** A move, if the rules allow it: what an observer records, and what the paper says then. *)
  Definition cp_step (m : cmove) (q : cpaper) : option (list event * cpaper) :=
    match m with
    | MCall t o =>
        match nth_error (cp_thr q) t with
        | Some DNone =>
            match o with
            | OpAlloc l false => if req_okb smax l then Some ([Call t o], set_thr t (DAsked o) q) else None
            | OpWrite h off cells =>
                match get h (cp_tab q) with
                | Some u =>
                    if negb (in_use h (cp_thr q)) && (0 <=? off) && (off + Z.of_nat (length cells) <=? u_len u)
                    then Some ([Call t o; Lin t o None; Return t], q) else None
                | None => None
                end
            | OpDealloc h l =>
                match get h (cp_tab q) with
                | Some u =>
                    if negb (in_use h (cp_thr q)) && fitsb l u then Some ([Call t o], set_thr t (DAsked o) q) else None
                | None => None
                end
            | OpResize h old new =>
                match get h (cp_tab q) with
                | Some u =>
                    if negb (in_use h (cp_thr q)) && fitsb old u && req_okb smax new
                    then Some ([Call t o], set_thr t (DAsked o) q) else None
                | None => None
                end
            | OpReset true =>
                if forallb d_away (cp_thr q) then Some ([Call t o; Lin t o None; Return t], wiped true q) else None
            | _ => None
            end
        | _ => None
        end
    | MTake t =>
        match nth_error (cp_thr q) t with
        | Some (DAsked o) =>
            if shrinks o || must_grow (cp_chunks q) (cp_tab q) o || existsb alone (cp_thr q) then None else
            match wants o with
            | Some l =>
                match room_in (cp_chunks q) l with
                | Some (a, ks) => bumped t (granted t o false (mkBlock a (l_size l)) (set_chunks ks q))
                | None => None
                end
            | None => None
            end
        | _ => None
        end
    | MGrow t =>
        match nth_error (cp_thr q) t with
        | Some (DAsked (OpResize h old new)) =>
            if existsb alone (cp_thr q) then None else
            match get h (cp_tab q) with
            | Some u =>
                if (l_align new <=? l_align old) && (l_size old <? l_size new) then
                  match room_at (cp_chunks q) (u_ptr u) old new with
                  | Some ks =>
                      bumped t (done_with t (OpResize h old new) false (Some (mkBlock (u_ptr u) (l_size new))) (set_chunks ks q))
                  | None => None
                  end
                else None
            | None => None
            end
        | _ => None
        end
    | MStay t =>
        match nth_error (cp_thr q) t with
        | Some (DAsked o) =>
            if existsb alone (cp_thr q) then None else
            match o with
            | OpDealloc h l => Some (done_with t o false None q)
            | OpResize h old new =>
                match get h (cp_tab q) with
                | Some u => if shrinks o then Some (done_with t o false (Some (mkBlock (u_ptr u) (l_size old))) q) else None
                | None => None
                end
            | _ => None
            end
        | _ => None
        end
    | MFull t =>
        match nth_error (cp_thr q) t with
        | Some (DAsked o) =>
            if shrinks o || must_grow (cp_chunks q) (cp_tab q) o || existsb alone (cp_thr q) then None else
            match wants o with
            | Some l => match room_in (cp_chunks q) l with Some _ => None | None => Some ([], set_thr t (DFull o) q) end
            | None => None
            end
        | _ => None
        end
    | MFresh t =>
        match nth_error (cp_thr q) t with
        | Some (DFull o) =>
            if existsb has_got (cp_thr q) then None else
            match wants o with
            | Some l =>
                let '(a, ks, tr) := fresh min S (cp_chunks q) l (cp_calls q) in
                let q' := mkCP ks (cp_tab q) tr (cp_thr q) in
                Some (match a with
                      | Some a => granted t o true (mkBlock a (l_size l)) q'
                      | None => done_with t o true None q'
                      end)
            | None => None
            end
        | _ => None
        end
    | MCopied t =>
        match nth_error (cp_thr q) t with
        | Some (DHas o b a) => Some (done_with t o a (Some b) q)
        | _ => None
        end
    | MReturn t =>
        match nth_error (cp_thr q) t with
        | Some (DDone _ _) => Some ([Return t], set_thr t DNone q)
        | _ => None
        end
    | MReset keep =>
        if forallb d_idle (cp_thr q) then Some ([ResetAll keep], wiped keep q) else None
    end.

  Fixpoint cp_run (ms : list cmove) (q : cpaper) : option (list event * cpaper) :=
    match ms with
    | [] => Some ([], q)
    | m :: ms' =>
        match cp_step m q with
        | Some (es, q1) => match cp_run ms' q1 with Some (es', q2) => Some (es ++ es', q2) | None => None end
        | None => None
        end
    end.
End Paper.

(** [n] threads, nothing allocated yet. *)
Definition cp0 (n : nat) : cpaper := mkCP [] [] [] (repeat DNone n).

(** ** How the paper shows in the state of the program (Conc.v) *)
Definition doing_of (p : pc) : doing :=
  match p with
  | Idle => DNone
  | WantRead j | Load j _ | Cas j _ _ | TipLoad j _ | TipCas j _ _ | FreeCas j _ => DAsked (job_op j)
  | Unlock _ (Some j) _ | WantWrite j | Slow j => DFull (job_op j)
  | Copy j b _ wr => DHas (job_op j) b wr
  | Unlock wr None h => DDone h wr
  end.
Definition cshows (g : gst) (q : cpaper) : Prop :=
  headed (bw_mem (snd (g_aw g))) (ar_root (fst (g_aw g))) (cp_chunks q) /\
  g_tab g = cp_tab q /\ bw_trace (snd (g_aw g)) = cp_calls q /\ map doing_of (g_thr g) = cp_thr q.
