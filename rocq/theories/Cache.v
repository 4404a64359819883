(** Model of src/cache.rs, [BlinkAllocCache<A>], used by any number of threads.

    The cached values (whole [BlinkAlloc<A>] instances) are of an arbitrary type
    [X]: the cache only moves them.  One step is one lock operation, one atomic
    access, or one access of an array slot; the arrays themselves change under
    the exclusive lock only.  Atomic accesses are sequentially consistent
    (orderings are not modelled).  [fetch_add] wraps around.

    [ManuallyDrop::take] copies the value out and leaves the slot as it is, so
    in the model a slot of [pop_array] keeps its value and taking it twice
    yields it twice. *)
From Verif Require Import Base History Conc.

Section Cache.
  Variable X : Type.
  (** The longest [Vec] that can exist: pushing onto it panics (capacity overflow). *)
  Variable vmax : Z.

  Inductive cop := CPush (x : X) | CPop.

  (** Where a thread is. *)
  Inductive qpc :=
  | QIdle
  | PopRead                            (* line 73: about to call [inner.read()] *)
  | PopFetch                           (* 77: about to [fetch_add] *)
  | PopTake (idx : Z)                  (* 79-85: got an index *)
  | PopGuard (idx : Z)                 (* 88: [prevent_overflow] *)
  | PopLoad                            (* 91: about to load [next_push] *)
  | PopWrite                           (* 96: about to call [inner.write()] *)
  | PopFlush                           (* 98-103, exclusively locked *)
  | PushRead (x : X)                   (* 107 *)
  | PushFetch (x : X)                  (* 111 *)
  | PushPut (x : X) (idx : Z)          (* 113-119 *)
  | PushGuard (x : X) (idx : Z)        (* 121 *)
  | PushWrite (x : X)                  (* 125 *)
  | PushFlush (x : X)                  (* 127-131, exclusively locked *)
  | QUnlock (wr : bool) (r : option X) (* about to release the lock and return *)
  | QRelease (o : cop).                (* 95, 124: about to release the read lock, then take the exclusive one *)

  (** [Inner], lines 14-26, with the lock and the threads. *)
  Record qst := mkQ {
    q_pop : list X;                    (* pop_array *)
    q_next_pop : Z;
    q_push : list (option X);          (* push_array, [None] is uninitialised *)
    q_next_push : Z;
    q_lock : lock;
    q_thr : list qpc
  }.

  Inductive qev :=
  | QCall (t : nat) (o : cop)
  | QLin (t : nat) (o : cop) (r : option X)   (* the operation takes effect *)
  | QRet (t : nat) (r : option X).

  Inductive qchoice := QStart (t : nat) (o : cop) | QGo (t : nat).

  Definition upd (f : qst -> qst) : M qst unit := fun q => ORet tt (f q).
  Definition get_q : M qst qst := fun q => ORet q q.
  Definition q_become (t : nat) (p : qpc) : M qst unit :=
    upd (fun q => mkQ (q_pop q) (q_next_pop q) (q_push q) (q_next_push q) (q_lock q) (set_nth t p (q_thr q))).
  Definition set_lock (k : lock) : M qst unit :=
    upd (fun q => mkQ (q_pop q) (q_next_pop q) (q_push q) (q_next_push q) k (q_thr q)).
  Definition set_next_pop (v : Z) : M qst unit :=
    upd (fun q => mkQ (q_pop q) v (q_push q) (q_next_push q) (q_lock q) (q_thr q)).
  Definition set_next_push (v : Z) : M qst unit :=
    upd (fun q => mkQ (q_pop q) (q_next_pop q) (q_push q) v (q_lock q) (q_thr q)).
  Definition set_arrays (a : list X) (b : list (option X)) : M qst unit :=
    upd (fun q => mkQ a (q_next_pop q) b (q_next_push q) (q_lock q) (q_thr q)).

  Definition zlen {T} (l : list T) : Z := Z.of_nat (length l).

  (** Lines 155-164 [prevent_overflow]: what to store, if anything. *)
  Definition prevent_overflow (current upper : Z) : option Z :=
    if ISIZE_MAX <=? current then Some upper else None.

  (** Lines 134-152 [flush].  [assume_init] of an uninitialised slot is undefined. *)
  Definition flush : M qst unit :=
    q <- get_q ;;
    let pushed := Z.to_nat (Z.min (q_next_push q) (zlen (q_push q))) in
    let popped := Z.to_nat (Z.min (q_next_pop q) (zlen (q_pop q))) in
    set_next_push 0 ;;;
    set_next_pop 0 ;;;
    match fold_right (fun s acc => match s, acc with Some x, Some l => Some (x :: l) | _, _ => None end)
                     (Some []) (firstn pushed (q_push q)) with
    | None => ub
    | Some xs => set_arrays (xs ++ skipn popped (q_pop q)) (skipn pushed (q_push q))
    end.

  (** A step of thread [t] that is at [p]. *)
  Definition qgo (t : nat) (p : qpc) : M qst (list qev) :=
    q <- get_q ;;
    match p with
    | QIdle => ret []
    | PopRead =>
        match lk_writer (q_lock q) with
        | Some _ => ret []
        | None =>
            set_lock (with_reader t (q_lock q)) ;;;
            q_become t (match q_pop q with [] => PopLoad | _ => PopFetch end) ;;; ret []
        end
    | PopFetch =>
        let idx := q_next_pop q in
        set_next_pop (wrap (idx + 1)) ;;;
        q_become t (PopTake idx) ;;;
        (* a pop takes effect when it acquires an index *)
        ret (if idx <? zlen (q_pop q) then [QLin t CPop (nth_error (q_pop q) (Z.to_nat idx))] else [])
    | PopTake idx =>
        if idx <? zlen (q_pop q) then
          match nth_error (q_pop q) (Z.to_nat idx) with
          | Some x => q_become t (QUnlock false (Some x)) ;;; ret []
          | None => ub
          end
        else q_become t (PopGuard idx) ;;; ret []
    | PopGuard idx =>
        match prevent_overflow idx (zlen (q_pop q)) with
        | Some v => set_next_pop v
        | None => ret tt
        end ;;;
        q_become t PopLoad ;;; ret []
    | PopLoad =>
        if q_next_push q =? 0 then
          q_become t (QUnlock false None) ;;; ret [QLin t CPop None]
        else q_become t (QRelease CPop) ;;; ret []
    | PopWrite =>
        match lk_writer (q_lock q), lk_readers (q_lock q) with
        | None, [] => set_lock (mkLock [] (Some t)) ;;; q_become t PopFlush ;;; ret []
        | _, _ => ret []
        end
    | PopFlush =>
        flush ;;;
        q <- get_q ;;
        match rev (q_pop q) with
        | [] => q_become t (QUnlock true None) ;;; ret [QLin t CPop None]
        | x :: _ =>
            set_arrays (removelast (q_pop q)) (q_push q) ;;;
            q_become t (QUnlock true (Some x)) ;;; ret [QLin t CPop (Some x)]
        end
    | PushRead x =>
        match lk_writer (q_lock q) with
        | Some _ => ret []
        | None =>
            set_lock (with_reader t (q_lock q)) ;;;
            q_become t (match q_push q with [] => QRelease (CPush x) | _ => PushFetch x end) ;;; ret []
        end
    | PushFetch x =>
        let idx := q_next_push q in
        set_next_push (wrap (idx + 1)) ;;;
        q_become t (PushPut x idx) ;;; ret []
    | PushPut x idx =>
        if idx <? zlen (q_push q) then
          set_arrays (q_pop q) (set_nth (Z.to_nat idx) (Some x) (q_push q)) ;;;
          q_become t (QUnlock false None) ;;; ret [QLin t (CPush x) None]
        else q_become t (PushGuard x idx) ;;; ret []
    | PushGuard x idx =>
        match prevent_overflow idx (zlen (q_push q)) with
        | Some v => set_next_push v
        | None => ret tt
        end ;;;
        q_become t (QRelease (CPush x)) ;;; ret []
    | PushWrite x =>
        match lk_writer (q_lock q), lk_readers (q_lock q) with
        | None, [] => set_lock (mkLock [] (Some t)) ;;; q_become t (PushFlush x) ;;; ret []
        | _, _ => ret []
        end
    | PushFlush x =>
        flush ;;;
        q <- get_q ;;
        if vmax <=? zlen (q_pop q) then (fun q => OPanic q)
        else
          set_arrays (q_pop q ++ [x]) (q_push q) ;;;
          q_become t (QUnlock true None) ;;; ret [QLin t (CPush x) None]
    | QUnlock wr r =>
        set_lock (without t wr (q_lock q)) ;;;
        q_become t QIdle ;;; ret [QRet t r]
    | QRelease o =>
        set_lock (without t false (q_lock q)) ;;;
        q_become t (match o with CPop => PopWrite | CPush x => PushWrite x end) ;;; ret []
    end.

  Definition qstep (c : qchoice) : M qst (list qev) :=
    q <- get_q ;;
    match c with
    | QStart t o =>
        match nth_error (q_thr q) t with
        | Some QIdle =>
            q_become t (match o with CPop => PopRead | CPush x => PushRead x end) ;;; ret [QCall t o]
        | _ => ret []
        end
    | QGo t => match nth_error (q_thr q) t with Some p => qgo t p | None => ret [] end
    end.

  Fixpoint qrun (cs : list qchoice) : M qst (list qev) :=
    match cs with
    | [] => ret []
    | c :: cs' => e <- qstep c ;; es <- qrun cs' ;; ret (e ++ es)
    end.

  (** Lines 59-68 [new], with [n] threads. *)
  Definition qstart (n : nat) : qst := mkQ [] 0 [] 0 (mkLock [] None) (repeat QIdle n).

  (** ** Dropping the cache *)
  Section Drop.
    Context {W : Type}.
    (** The slots are [UnsafeCell<ManuallyDrop<_>>] (line 16) and
        [UnsafeCell<MaybeUninit<_>>] (line 22): neither wrapper drops what it
        contains. *)
    Definition drop_pop_slot (x : X) : M W unit := ret tt.
    Definition drop_push_slot (x : option X) : M W unit := ret tt.
    Fixpoint drop_vec {T} (d : T -> M W unit) (l : list T) : M W unit :=
      match l with [] => ret tt | x :: l' => d x ;;; drop_vec d l' end.
    (** Neither [Inner] nor [BlinkAllocCache] implements [Drop]: the fields are dropped. *)
    Definition drop_cache (q : qst) : M W unit :=
      drop_vec drop_pop_slot (q_pop q) ;;; drop_vec drop_push_slot (q_push q).
  End Drop.

  (** ** The abstract queue *)
  Inductive queue_run : list X -> list qev -> list X -> Prop :=
  | qr_nil q : queue_run q [] q
  | qr_push q t x es q' : queue_run (q ++ [x]) es q' -> queue_run q (QLin t (CPush x) None :: es) q'
  | qr_pop q t x es q' : queue_run q es q' -> queue_run (x :: q) (QLin t CPop (Some x) :: es) q'
  | qr_none t es q' : queue_run [] es q' -> queue_run [] (QLin t CPop None :: es) q'
  | qr_call q t o es q' : queue_run q es q' -> queue_run q (QCall t o :: es) q'
  | qr_ret q t r es q' : queue_run q es q' -> queue_run q (QRet t r :: es) q'.

  (** The life of thread [t]: idle, in a call that has not taken effect, in a
      call that has, with this result. *)
  Inductive qphase := XIdle | XCalled (o : cop) | XDone (r : option X).
  Inductive qfollows (t : nat) : qphase -> list qev -> qphase -> Prop :=
  | qf_nil ph : qfollows t ph [] ph
  | qf_call o es ph : qfollows t (XCalled o) es ph -> qfollows t XIdle (QCall t o :: es) ph
  | qf_lin o r es ph : qfollows t (XDone r) es ph -> qfollows t (XCalled o) (QLin t o r :: es) ph
  | qf_ret r es ph : qfollows t XIdle es ph -> qfollows t (XDone r) (QRet t r :: es) ph
  | qf_other ph0 e es ph :
      match e with QCall t1 _ | QLin t1 _ _ | QRet t1 _ => t1 end <> t ->
      qfollows t ph0 es ph -> qfollows t ph0 (e :: es) ph.
End Cache.

Arguments CPush {X}. Arguments CPop {X}.
Arguments QIdle {X}. Arguments PopRead {X}. Arguments PopFetch {X}. Arguments PopTake {X}.
Arguments PopGuard {X}. Arguments PopLoad {X}. Arguments PopWrite {X}. Arguments PopFlush {X}.
Arguments PushRead {X}. Arguments PushFetch {X}. Arguments PushPut {X}. Arguments PushGuard {X}.
Arguments PushWrite {X}. Arguments PushFlush {X}. Arguments QUnlock {X}. Arguments QRelease {X}.
Arguments mkQ {X}. Arguments q_pop {X}. Arguments q_next_pop {X}. Arguments q_push {X}.
Arguments q_next_push {X}. Arguments q_lock {X}. Arguments q_thr {X}.
Arguments QCall {X}. Arguments QLin {X}. Arguments QRet {X}.
Arguments QStart {X}. Arguments QGo {X}.
Arguments XIdle {X}. Arguments XCalled {X}. Arguments XDone {X}.
Arguments drop_cache {X W}.
Arguments queue_run {X}. Arguments qfollows {X}.
Arguments qgo {X}. Arguments qstep {X}. Arguments qrun {X}. Arguments qstart {X}.
Arguments q_become {X}. Arguments set_lock {X}. Arguments set_next_pop {X}. Arguments set_next_push {X}.
Arguments set_arrays {X}. Arguments flush {X}. Arguments get_q {X}. Arguments upd {X}.
