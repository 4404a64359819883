(** The accesses to memory made by the steps of the concurrent machine, what orders them,
    and when two of them are a data race.

    The steps of Conc.v happen one after the other.  Real threads are ordered only by what
    synchronises them.  Here every step is given the list of its actions: accesses of memory,
    operations of the lock of the arena (src/arena/sync.rs 15, 51, 66, 84, 100, 115, 131),
    and what clients have to do themselves - a block is handed from one thread to another, and
    [&mut] is obtained, only with synchronisation (that is how safe Rust gives [&mut T] to
    another thread).  Accesses of cursors order nothing: all orderings of the code
    (src/arena/mod.rs 286, 319-320, 376, 392-393, 453-454) are taken to be [Relaxed], which is
    weaker than what it says. *)
From Verif Require Import Base Alloc Arena BlinkAlloc History Setup Conc ConcProps.

(** An access: not atomic, or atomic (reading and possibly writing). *)
Inductive kind := NaRead | NaWrite | Atomic.
(** What is accessed: the field [root] of the arena (src/arena/sync.rs 5-8), or [n] bytes at [x]. *)
Inductive place := Root | Bytes (x n : Z).

Inductive action :=
| Acc (t : nat) (p : place) (k : kind)
| RLock (t : nat)                    (* parking_lot RwLock::read *)
| RUnlock (t : nat)
| WLock (t : nat)                    (* parking_lot RwLock::write *)
| WUnlock (t : nat)
| Take (t : nat) (h : nat)           (* the client begins to use the block [h] in thread [t] *)
| Give (t : nat) (h : nat)           (* the client is done with it: others may take it *)
| Excl.                              (* somebody has [&mut] *)

(** ** Data races *)

Definition kinds_conflict (k k' : kind) : bool :=
  match k, k' with NaRead, NaRead | Atomic, Atomic => false | _, _ => true end.
Definition overlap (p q : place) : bool :=
  match p, q with
  | Root, Root => true
  | Bytes x n, Bytes y m => Z.max x y <? Z.min (x + n) (y + m)
  | _, _ => false
  end.
Definition conflict (a b : action) : bool :=
  match a, b with Acc _ p k, Acc _ q k' => overlap p q && kinds_conflict k k' | _, _ => false end.

Definition actor (a : action) : option nat :=
  match a with
  | Acc t _ _ | RLock t | RUnlock t | WLock t | WUnlock t | Take t _ | Give t _ => Some t
  | Excl => None
  end.

(** [a], when it comes first, is ordered before [b]: they are done by one thread, or one is a
    release and the other the acquire that sees it. *)
Definition linked (a b : action) : bool :=
  match actor a, actor b with
  | Some t, Some t' =>
      Nat.eqb t t' ||
      match a, b with
      | WUnlock _, RLock _ | WUnlock _, WLock _ | RUnlock _, WLock _ => true
      | Give _ h, Take _ h' => Nat.eqb h h'
      | _, _ => false
      end
  | _, _ => true
  end.

(** Happens before, between positions in a trace. *)
Inductive hb (tr : list action) : nat -> nat -> Prop :=
| hb_one i j a b : (i < j)%nat -> nth_error tr i = Some a -> nth_error tr j = Some b ->
    linked a b = true -> hb tr i j
| hb_trans i j k : hb tr i j -> hb tr j k -> hb tr i k.

Definition race_free (tr : list action) : Prop :=
  forall i j a b, (i < j)%nat -> nth_error tr i = Some a -> nth_error tr j = Some b ->
    conflict a b = true -> hb tr i j.

(** ** The actions of a step *)

(** [AtomicPtr] and the field [end] of a chunk header (src/arena/mod.rs 174-179). *)
Definition cursor_of (t : nat) (r : Z) : action := Acc t (Bytes (r + CURSOR) 8) Atomic.
Definition end_of (t : nat) (r : Z) : action := Acc t (Bytes (r + END) 8) NaRead.

(** Everything that belongs to these blocks of the underlying allocator is written. *)
Definition all_of (t : nat) (ks : list ublock) : list action :=
  map (fun k => Acc t (Bytes (u_ptr k) (u_len k)) NaWrite) ks.
Definition headers_of (t : nat) (ks : list ublock) : list action :=
  map (fun k => Acc t (Bytes (u_ptr k) HDR) NaWrite) ks.

(** Thread [t] at [p] makes a step that leads from [g] to [g']; see [go].  Where the code
    accesses less, depending on values it reads, this is the most it can access.  The slow path
    is taken to write to the headers of all chunks and to all of the chunk it allocates. *)
Definition go_acts (t : nat) (p : pc) (g g' : gst) : list action :=
  match p with
  | Idle => []
  | WantRead _ =>
      match lk_writer (g_lock g) with Some _ => [] | None => [RLock t; Acc t Root NaRead] end
  | Load _ r => [cursor_of t r]
  | Cas _ r _ => [end_of t r; cursor_of t r]
  | TipLoad _ r => [cursor_of t r; end_of t r]
  | TipCas _ r _ => [cursor_of t r]
  | FreeCas _ r => [cursor_of t r]
  | Copy (JResize _ u old new) b i _ =>
      if i <? Z.min (l_size new) (l_size old)
      then [Acc t (Bytes (u_ptr u + i) 1) NaRead; Acc t (Bytes (b_ptr b + i) 1) NaWrite] else []
  | Copy _ _ _ _ => []
  | Unlock wr next h =>
      (if wr then WUnlock t else RUnlock t) ::
      match next, h with None, Some h => [Give t h] | _, _ => [] end
  | WantWrite _ =>
      match lk_writer (g_lock g), lk_readers (g_lock g) with None, [] => [WLock t] | _, _ => [] end
  | Slow _ =>
      Acc t Root NaWrite :: headers_of t (cheld g) ++
      all_of t (firstn (length (cheld g') - length (cheld g)) (cheld g'))
  end.

(** A step in which an old value is loaded. *)
Definition stale_acts (t : nat) (p : pc) (g g' : gst) : list action :=
  match p with
  | Load _ _ | Cas _ _ _ | TipLoad _ _ | TipCas _ _ _ | FreeCas _ _ => go_acts t p g g'
  | _ => []
  end.

(** The handles of live blocks. *)
Definition live_handles (tab : list (option ublock)) : list nat :=
  filter (fun h => match get h tab with Some _ => true | None => false end) (seq 0 (length tab)).

(** The beginning of a call, if it is made (then it is recorded in [es]); see [begin].
    [reset_unchecked]: the write lock is taken, no block is used any more (the safety rule),
    everything may be written. *)
Definition begin_acts (t : nat) (o : op) (g : gst) (es : list event) : list action :=
  match es, o with
  | [], _ => []
  | _, OpWrite h off cs =>
      match get h (g_tab g) with
      | Some u => [Take t h; Acc t (Bytes (u_ptr u + off) (Z.of_nat (length cs))) NaWrite; Give t h]
      | None => []
      end
  | _, OpDealloc h _ | _, OpResize h _ _ => [Take t h]
  | _, OpReset _ =>
      WLock t :: map (Take t) (live_handles (g_tab g)) ++
      [Acc t Root NaWrite] ++ all_of t (cheld g) ++ [WUnlock t]
  | _, _ => []
  end.

Definition acts (c : choice) (g : gst) (es : list event) (g' : gst) : list action :=
  match c with
  | Start t o => begin_acts t o g es
  | Go t _ => match nth_error (g_thr g) t with Some p => go_acts t p g g' | None => [] end
  | Stale t _ => match nth_error (g_thr g) t with Some p => stale_acts t p g g' | None => [] end
  | Exclusive _ => match es with [] => [] | _ => [Excl] end
  end.

(** The actions of a run. *)
Fixpoint ctrace (su : setup) (sched : list choice) : M gst (list action) :=
  match sched with
  | [] => ret []
  | c :: sched' =>
      g <- get_g ;; es <- cstep su c ;; g' <- get_g ;;
      tr <- ctrace su sched' ;; ret (acts c g es g' ++ tr)
  end.
