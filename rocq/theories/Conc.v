(** Concurrent use of one [SyncBlinkAlloc] (src/sync.rs, src/arena/sync.rs) by
    any number of threads, as a step machine.

    One step is one lock operation, one atomic access of a cursor (with the
    thread-local computation that follows), one byte of a copy, or the body of
    the slow path, which runs under the exclusive lock.  A schedule is an
    arbitrary list of choices.  A weak compare-exchange may fail spuriously
    whenever the schedule says so.  All loads of cursors, also those of failing
    compare-exchanges, are [Relaxed]: the schedule may have them return an old
    value of the cursor.  A successful compare-exchange works on the newest
    value.  (That the accesses to other memory are ordered by the lock and the
    like, so that they can be taken to happen one after the other, is shown in
    Race.v.)  The lock is a reader-writer lock (parking_lot::RwLock):
    acquiring is possible only when nobody holds it in a conflicting mode, a
    thread that cannot acquire it stays where it is.

    Blocks may be passed between threads: any thread may work on any block,
    except that nobody touches a block another thread is resizing or
    deallocating at the moment.  [allocate_zeroed] and [grow_zeroed] are the
    trait's default methods, [allocate] followed by writes to own memory, and
    are not modelled separately here. *)
From Verif Require Import Base Alloc Arena BlinkAlloc History Setup.

(** A call in progress. *)
Inductive job :=
| JAlloc (l : Layout)
| JResize (h : nat) (u : ublock) (old new : Layout)
| JDealloc (h : nat) (u : ublock) (l : Layout).

(** Where a thread is. *)
Inductive pc :=
| Idle
| WantRead (j : job)                 (* about to call [inner.read()] *)
| Load (j : job) (r : Z)             (* read-locked; mod.rs 286: about to load the cursor of chunk [r] *)
| Cas (j : job) (r cursor : Z)       (* read-locked; mod.rs 288-326: about to try with this cursor *)
| TipLoad (j : job) (r : Z)          (* read-locked; mod.rs 378: resize, about to load the cursor *)
| TipCas (j : job) (r cursor : Z)    (* read-locked; mod.rs 390-396: resize, about to grow in place *)
| FreeCas (j : job) (r : Z)          (* read-locked; mod.rs 450-455: dealloc, about to compare-exchange *)
| Copy (j : job) (b : block) (i : Z) (wr : bool)   (* locked; [i] bytes copied to the new block [b] *)
| Unlock (wr : bool) (next : option job) (h : option nat)
                                     (* about to release the lock, then take the slow path or return *)
| WantWrite (j : job)                (* about to call [inner.write()] *)
| Slow (j : job).                    (* write-locked; about to run the slow path *)

(** The reader-writer lock: who holds it. *)
Record lock := mkLock { lk_readers : list nat; lk_writer : option nat }.

Record gst := mkG {
  g_tab : list (option ublock);      (* the blocks owned by clients *)
  g_thr : list pc;
  g_lock : lock;
  g_aw : AW (W := bworld)            (* the arena and the world below *)
}.

(** What an observer may record: thread [t] called an operation, the operation
    took effect with this result, the thread moved the cursor, it returned. *)
Inductive event :=
| Call (t : nat) (o : op)
| Lin (t : nat) (o : op) (r : option block)
| Bump (t : nat)
| Return (t : nat)
| ResetAll (keep_last : bool).       (* a reset through [&mut] *)

Inductive choice :=
| Start (t : nat) (o : op)           (* thread [t] begins an operation *)
| Go (t : nat) (spurious : bool)     (* thread [t] makes a step *)
| Stale (t : nat) (v : Z)            (* ... and loads the old value [v] of a cursor *)
| Exclusive (keep_last : bool).      (* reset / reset_final through [&mut] *)

Definition job_op (j : job) : op :=
  match j with
  | JAlloc l => OpAlloc l false
  | JResize h _ old new => OpResize h old new
  | JDealloc h _ l => OpDealloc h l
  end.

Definition job_handle (j : job) : option nat :=
  match j with JAlloc _ => None | JResize h _ _ _ | JDealloc h _ _ => Some h end.

(** The layout a job has to allocate. *)
Definition job_layout (j : job) : Layout :=
  match j with JAlloc l => l | JResize _ _ _ new => new | JDealloc _ _ l => l end.

(** The block a thread is working on. *)
Definition pc_handle (p : pc) : option nat :=
  match p with
  | Idle => None
  | WantRead j | Load j _ | Cas j _ _ | TipLoad j _ | TipCas j _ _ | FreeCas j _
  | Copy j _ _ _ | WantWrite j | Slow j => job_handle j
  | Unlock _ _ h => h
  end.

Definition busy (h : nat) (thr : list pc) : bool :=
  existsb (fun p => match pc_handle p with Some h' => Nat.eqb h' h | None => false end) thr.

Definition is_idle (p : pc) : bool := match p with Idle => true | _ => false end.

(** The thread does not hold the lock and is not working on a block. *)
Definition away (p : pc) : bool :=
  match p with Idle | WantRead (JAlloc _) | WantWrite (JAlloc _) => true | _ => false end.

Section Conc.
  Variable su : setup.
  Notation A := (bot su).
  Notation dbg := (su_dbg su).

  Definition become (t : nat) (p : pc) : M gst unit :=
    fun g => ORet tt (mkG (g_tab g) (set_nth t p (g_thr g)) (g_lock g) (g_aw g)).
  Definition put_tab (f : list (option ublock) -> list (option ublock)) : M gst unit :=
    fun g => ORet tt (mkG (f (g_tab g)) (g_thr g) (g_lock g) (g_aw g)).
  Definition put_lock (k : lock) : M gst unit :=
    fun g => ORet tt (mkG (g_tab g) (g_thr g) k (g_aw g)).
  Definition get_g : M gst gst := fun g => ORet g g.

  Definition on_aw {B} (m : M (AW (W := bworld)) B) : M gst B :=
    fun g => match m (g_aw g) with
             | ORet b aw' => ORet b (mkG (g_tab g) (g_thr g) (g_lock g) aw')
             | OPanic aw' => OPanic (mkG (g_tab g) (g_thr g) (g_lock g) aw')
             | OAbort => OAbort
             | OUB => OUB
             end.
  Definition on_w {B} (m : M bworld B) : M gst B :=
    on_aw (with_aw (fun ar => b <- m ;; ret (b, ar))).

  Notation "'word' a" := (on_w (mload A a 8)) (at level 10).
  Notation "'set_word' a v" := (on_w (mstore A a 8 v)) (at level 10, a at level 9, v at level 9).

  Definition with_reader (t : nat) (k : lock) : lock := mkLock (t :: lk_readers k) (lk_writer k).
  Definition without (t : nat) (wr : bool) (k : lock) : lock :=
    if wr then mkLock (lk_readers k) None
    else mkLock (remove Nat.eq_dec t (lk_readers k)) (lk_writer k).

  (** The job takes effect with result [r]; then release the lock and return. *)
  Definition finish (t : nat) (j : job) (wr : bool) (r : option block) : M gst (list event) :=
    g <- get_g ;;
    match j, r with
    | JAlloc l, Some b =>
        put_tab (fun tab => tab ++ [Some (mkU (b_ptr b) (b_len b) l)]) ;;;
        become t (Unlock wr None (Some (length (g_tab g))))
    | JResize h _ _ new, Some b =>
        put_tab (set_nth h (Some (mkU (b_ptr b) (b_len b) new))) ;;;
        become t (Unlock wr None (Some h))
    | JDealloc h _ _, _ => put_tab (set_nth h None) ;;; become t (Unlock wr None (Some h))
    | _, None => become t (Unlock wr None (job_handle j))
    end ;;;
    ret [Lin t (job_op j) r].

  (** src/arena/sync.rs 51-57, 84-89, 115 and the beginning of
      [ChunkHeader::resize], src/arena/mod.rs 366-374: what to do once the read
      lock is taken. *)
  Definition enter (t : nat) (j : job) (root : option Z) : M gst (list event) :=
    match root, j with
    | None, JDealloc _ _ _ => finish t j false None
    | None, _ => become t (Unlock false (Some j) (job_handle j)) ;;; ret []
    | Some r, JAlloc _ => become t (Load j r) ;;; ret []
    | Some r, JDealloc _ _ _ => become t (FreeCas j r) ;;; ret []
    | Some r, JResize h u old new =>
        if l_align new <=? l_align old then
          if l_size new <=? l_size old then finish t j false (Some (mkBlock (u_ptr u) (l_size old)))
          else become t (TipLoad j r) ;;; ret []
        else become t (Load j r) ;;; ret []
    end.

  (** After a block has been allocated for the job: return it, or copy first. *)
  Definition allocated (t : nat) (j : job) (b : block) (wr : bool) : M gst (list event) :=
    match j with
    | JResize _ _ _ _ => become t (Copy j b 0 wr) ;;; ret []
    | _ => finish t j wr (Some b)
    end.

  Definition retry (t : nat) (j : job) : M gst (list event) :=
    become t (Unlock false (Some j) (job_handle j)) ;;; ret [].

  (** A step of thread [t] that is at [p]; [sp]: a weak compare-exchange fails spuriously. *)
  Definition go (t : nat) (p : pc) (sp : bool) : M gst (list event) :=
    match p with
    | Idle => ret []
    | WantRead j =>
        g <- get_g ;;
        match lk_writer (g_lock g) with
        | Some _ => ret []
        | None =>
            put_lock (with_reader t (g_lock g)) ;;;
            enter t j (ar_root (fst (g_aw g)))
        end
    | Load j r =>
        (* src/arena/mod.rs 286 *)
        cursor <- word (r + CURSOR) ;;
        become t (Cas j r cursor) ;;; ret []
    | Cas j r cursor =>
        (* src/arena/mod.rs 288-340; [me.end] never changes while the lock is held *)
        e <- word (r + END) ;;
        a <- on_w (alloc_attempt dbg (job_layout j) cursor e) ;;
        match a with
        | None => retry t j
        | Some (aligned, next) =>
            cur <- word (r + CURSOR) ;;
            if negb sp && (cur =? cursor) then
              set_word (r + CURSOR) next ;;;
              len <- sub_usize dbg next aligned ;;
              debug_assert dbg (l_size (job_layout j) <=? len) ;;;
              debug_assert dbg (aligned mod l_align (job_layout j) =? 0) ;;;
              ev <- allocated t j (mkBlock aligned len) false ;;
              ret (Bump t :: ev)
            else become t (Cas j r cur) ;;; ret []
        end
    | TipLoad j r =>
        (* src/arena/mod.rs 374-388 *)
        match j with
        | JResize h u old new =>
            old_end <- ptr_add (u_ptr u) (l_size old) ;;
            cursor <- word (r + CURSOR) ;;
            if cursor =? old_end then
              match checked_add (u_ptr u) (l_size new) with
              | None => retry t j
              | Some next =>
                  e <- word (r + END) ;;
                  if e <? next then retry t j else become t (TipCas j r cursor) ;;; ret []
              end
            else become t (Load j r) ;;; ret []
        | _ => ub
        end
    | TipCas j r cursor =>
        (* src/arena/mod.rs 388-406 *)
        match j with
        | JResize h u old new =>
            next <- ptr_add (u_ptr u) (l_size new) ;;
            cur <- word (r + CURSOR) ;;
            if cur =? cursor then
              set_word (r + CURSOR) next ;;;
              len <- sub_usize dbg next (u_ptr u) ;;
              debug_assert dbg (l_size new <=? len) ;;;
              ev <- finish t j false (Some (mkBlock (u_ptr u) len)) ;;
              ret (Bump t :: ev)
            else become t (Load j r) ;;; ret []
        | _ => ub
        end
    | FreeCas j r =>
        (* src/arena/mod.rs 439-456 *)
        match j with
        | JDealloc h u l =>
            on_w (chunk_dealloc A r (u_ptr u) (l_size l)) ;;; finish t j false None
        | _ => ub
        end
    | Copy j b i wr =>
        (* src/arena/mod.rs 414-418, 511-515, byte by byte *)
        match j with
        | JResize h u old new =>
            let n := Z.min (l_size new) (l_size old) in
            if negb ((n =? 0) || (u_ptr u + n <=? b_ptr b) || (b_ptr b + n <=? u_ptr u)) then ub
            else if i <? n then
              on_w (fun w => ORet tt (al_set_mem A w (copy (al_mem A w) (u_ptr u + i) (b_ptr b + i) 1))) ;;;
              become t (Copy j b (i + 1) wr) ;;; ret []
            else finish t j wr (Some b)
        | _ => ub
        end
    | Unlock wr next h =>
        g <- get_g ;;
        put_lock (without t wr (g_lock g)) ;;;
        match next with
        | Some j => become t (WantWrite j) ;;; ret []
        | None => become t Idle ;;; ret [Return t]
        end
    | WantWrite j =>
        g <- get_g ;;
        match lk_writer (g_lock g), lk_readers (g_lock g) with
        | None, [] => put_lock (mkLock [] (Some t)) ;;; become t (Slow j) ;;; ret []
        | _, _ => ret []
        end
    | Slow j =>
        (* src/arena/sync.rs 61-75, 93-111 *)
        r <- on_aw (arena_alloc_slow A dbg (job_layout j)) ;;
        match r with
        | None => finish t j true None
        | Some b => allocated t j b true
        end
    end.

  (** A step of thread [t] that is at [p] in which the cursor of the chunk appears to be
      [v].  Since it was last set to the start of the chunk (when the chunk was created or
      reset, which the lock or [&mut] orders before) the cursor has only grown, so old
      values are those between the start and the newest value.  A compare-exchange that
      sees an old value fails. *)
  Definition old_value (r v : Z) : M gst bool :=
    cur <- word (r + CURSOR) ;; ret ((r + HDR <=? v) && (v <=? cur)).
  Definition stale (t : nat) (p : pc) (v : Z) : M gst (list event) :=
    match p with
    | Load j r =>
        b <- old_value r v ;;
        if b : bool then become t (Cas j r v) ;;; ret [] else ret []
    | Cas j r cursor =>
        e <- word (r + END) ;;
        a <- on_w (alloc_attempt dbg (job_layout j) cursor e) ;;
        match a with
        | None => retry t j
        | Some _ =>
            b <- old_value r v ;;
            if b : bool then become t (Cas j r v) ;;; ret [] else ret []
        end
    | TipLoad j r =>
        match j with
        | JResize h u old new =>
            old_end <- ptr_add (u_ptr u) (l_size old) ;;
            b <- old_value r v ;;
            if b : bool then
              if v =? old_end then
                match checked_add (u_ptr u) (l_size new) with
                | None => retry t j
                | Some next =>
                    e <- word (r + END) ;;
                    if e <? next then retry t j else become t (TipCas j r v) ;;; ret []
                end
              else become t (Load j r) ;;; ret []
            else ret []
        | _ => ub
        end
    | TipCas j r cursor =>
        b <- old_value r v ;;
        if b && negb (v =? cursor) then become t (Load j r) ;;; ret [] else ret []
    | FreeCas j r =>
        match j with
        | JDealloc h u l =>
            b <- old_value r v ;;
            if b && negb (v =? u_ptr u) then finish t j false None else ret []
        | _ => ub
        end
    | _ => ret []
    end.

  (** A thread that is not in a call begins one; calls that break the safety
      rules, or concern a block somebody is working on, are not made. *)
  Definition begin (t : nat) (o : op) : M gst (list event) :=
    g <- get_g ;;
    match o with
    | OpAlloc l false =>
        if req_okb (su_smax su) l then become t (WantRead (JAlloc l)) ;;; ret [Call t o] else ret []
    | OpWrite h off cs =>
        match get h (g_tab g) with
        | Some u =>
            if negb (busy h (g_thr g)) && (0 <=? off) && (off + Z.of_nat (length cs) <=? u_len u) then
              on_w (fun w => ORet tt (al_set_mem A w (write_cells (al_mem A w) (u_ptr u + off) cs))) ;;;
              ret [Call t o; Lin t o None; Return t]
            else ret []
        | None => ret []
        end
    | OpDealloc h l =>
        match get h (g_tab g) with
        | Some u =>
            if negb (busy h (g_thr g)) && fitsb l u
            then become t (WantRead (JDealloc h u l)) ;;; ret [Call t o] else ret []
        | None => ret []
        end
    | OpResize h old new =>
        match get h (g_tab g) with
        | Some u =>
            if negb (busy h (g_thr g)) && fitsb old u && req_okb (su_smax su) new
            then become t (WantRead (JResize h u old new)) ;;; ret [Call t o] else ret []
        | None => ret []
        end
    | OpReset true =>
        (* src/sync.rs 315-335, src/arena/sync.rs 129-133 [reset_unchecked(&self)]: the reset
           runs while the write lock is held, so nobody else holds it.  Its safety rule: the
           blocks are not used any more; other threads may be in calls of [allocate]. *)
        if forallb away (g_thr g) then
          on_aw (do_reset su true) ;;;
          put_tab (map (fun _ => None)) ;;;
          ret [Call t o; Lin t o None; Return t]
        else ret []
    | _ => ret []
    end.

  Definition cstep (c : choice) : M gst (list event) :=
    g <- get_g ;;
    match c with
    | Start t o =>
        match nth_error (g_thr g) t with Some Idle => begin t o | _ => ret [] end
    | Go t sp =>
        match nth_error (g_thr g) t with Some p => go t p sp | None => ret [] end
    | Stale t v =>
        match nth_error (g_thr g) t with Some p => stale t p v | None => ret [] end
    | Exclusive keep =>
        (* [&mut self]: no thread is in a call *)
        if forallb is_idle (g_thr g) then
          on_aw (do_reset su keep) ;;;
          put_tab (map (fun _ => None)) ;;;
          ret [ResetAll keep]
        else ret []
    end.

  Fixpoint crun (cs : list choice) : M gst (list event) :=
    match cs with
    | [] => ret []
    | c :: cs' => e <- cstep c ;; es <- crun cs' ;; ret (e ++ es)
    end.

  (** [n] threads, a new allocator. *)
  Definition cstart (n : nat) : gst :=
    mkG [] (repeat Idle n) (mkLock [] None) (arena_with_chunk_size (su_min su), bworld0).
End Conc.

(** The operations that took effect, in order, with their results. *)
Fixpoint lin_ops (es : list event) : list op :=
  match es with
  | [] => []
  | Lin _ o _ :: es' => o :: lin_ops es'
  | ResetAll keep :: es' => OpReset keep :: lin_ops es'
  | _ :: es' => lin_ops es'
  end.
Fixpoint lin_results (es : list event) : list (option block) :=
  match es with
  | [] => []
  | Lin _ _ r :: es' => r :: lin_results es'
  | ResetAll keep :: es' => None :: lin_results es'
  | _ :: es' => lin_results es'
  end.

(** The life of thread [t] in a record of events: idle, in a call that has not
    taken effect, in a call that has. *)
Inductive phase := PIdle | PCalled (o : op) | PDone.
Inductive follows (t : nat) : phase -> list event -> phase -> Prop :=
| fo_nil ph : follows t ph [] ph
| fo_call o es ph : follows t (PCalled o) es ph -> follows t PIdle (Call t o :: es) ph
| fo_lin o r es ph : follows t PDone es ph -> follows t (PCalled o) (Lin t o r :: es) ph
| fo_return es ph : follows t PIdle es ph -> follows t PDone (Return t :: es) ph
| fo_reset keep es ph : follows t PIdle es ph -> follows t PIdle (ResetAll keep :: es) ph
| fo_bump ph0 t' es ph : follows t ph0 es ph -> follows t ph0 (Bump t' :: es) ph
| fo_other ph0 e es ph t' : t' <> t ->
    match e with Call t1 _ | Lin t1 _ _ | Return t1 => t1 = t' | _ => False end ->
    follows t ph0 es ph -> follows t ph0 (e :: es) ph.
