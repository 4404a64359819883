(** Tasks that take [BlinkAlloc]s from a [BlinkAllocCache] and return them (C75).

    README.md 85-88: "Tasks may fetch blink allocator from cache, use it and then return it back to
    cache."  Any number of threads; each has some [BlinkAlloc]s of its own, all on one underlying
    allocator, and all use one cache (Cache.v: src/cache.rs).

    [push] and [pop] consist of the steps of Cache.v, and other threads may do anything between
    two of them.  An operation on a [BlinkAlloc] is one step: it belongs to one thread, so others can
    interfere with the calls of the underlying allocator only, and these are taken to be atomic
    (C56 is about several threads that use a [SyncBlinkAlloc] at the same time).

    What is moved is a [wrap] (Wraps.v): the [BlinkAlloc] as it is, and, for the statements only,
    the blocks allocated from it.  [push] does not [reset]; by the contract of [Allocator] (moving
    the allocator must not invalidate memory blocks) the blocks remain valid. *)
From Verif Require Import Base Alloc Arena BlinkAlloc History Setup Wraps Cache.

Record tst := mkT {
  tk_w : bworld;                     (* the underlying allocator *)
  tk_own : list (list wrap);         (* what each thread has *)
  tk_q : qst wrap;                   (* the cache; where each thread is in it *)
  tk_tab : list (option ublock)      (* blocks taken from the underlying allocator directly *)
}.

Inductive tchoice :=
| TDo (t : nat) (a : wact)           (* a thread creates, uses, drops one of its own; or uses the underlying allocator *)
| TPush (t k : nat)                  (* calls [push] with its [k]-th; src/cache.rs 106 *)
| TPop (t : nat)                     (* calls [pop]; src/cache.rs 72 *)
| TGo (t : nat).                     (* the next step of the call it is in *)

Inductive tev :=
| EDo (t : nat) (a : wact) (r : option block)
| EPush (t k : nat)
| EPop (t : nat)
| EIn (t : nat)                      (* the [push] takes effect *)
| EOut (t : nat) (found : bool)      (* the [pop] takes effect *)
| EBack (t : nat) (found : bool).    (* the call returns *)

Definition found {T} (r : option T) : bool := match r with Some _ => true | None => false end.
(** The events of the cache. *)
Definition outward (e : qev wrap) : list tev :=
  match e with
  | QCall _ _ => []
  | QLin t (CPush _) _ => [EIn t]
  | QLin t CPop r => [EOut t (found r)]
  | QRet t r => [EBack t (found r)]
  end.
(** What a call returns belongs to the thread. *)
Definition receive (own : list (list wrap)) (e : qev wrap) : list (list wrap) :=
  match e with
  | QRet t (Some x) => set_nth t (nth t own [] ++ [x]) own
  | _ => own
  end.

Definition remove_nth {T} (k : nat) (l : list T) : list T := firstn k l ++ skipn (S k) l.

Section Tasks.
  Variable su : setup.
  Variable vmax : Z.       (* how long a [Vec] can get *)

  Definition on_cache (c : qchoice wrap) (es0 : list tev) : M tst (list tev) :=
    fun s =>
      match qstep vmax c (tk_q s) with
      | ORet es q => ORet (es0 ++ flat_map outward es) (mkT (tk_w s) (fold_left receive es (tk_own s)) q (tk_tab s))
      | OPanic q => OPanic (mkT (tk_w s) (tk_own s) q (tk_tab s))
      | OAbort => OAbort
      | OUB => OUB
      end.

  (** What a thread that is not in the cache has. *)
  Definition free (t : nat) (s : tst) : option (list wrap) :=
    match nth_error (q_thr (tk_q s)) t with
    | Some QIdle => nth_error (tk_own s) t
    | _ => None
    end.

  Definition tstep (c : tchoice) : M tst (list tev) :=
    fun s =>
      match c with
      | TDo t a =>
          match free t s with
          | None => ORet [] s
          | Some xs =>
              let back s' := mkT (ws_w s') (set_nth t (ws_wraps s') (tk_own s)) (tk_q s) (ws_tab s') in
              match wstep su a (mkWst (tk_w s) xs (tk_tab s)) with
              | ORet r s' => ORet [EDo t a r] (back s')
              | OPanic s' => OPanic (back s')
              | OAbort => OAbort
              | OUB => OUB
              end
          end
      | TPush t k =>
          match free t s with
          | None => ORet [] s
          | Some xs =>
              match nth_error xs k with
              | None => ORet [] s
              | Some x =>
                  match wp_fate x with
                  | Alive =>
                      on_cache (QStart t (CPush x)) [EPush t k]
                        (mkT (tk_w s) (set_nth t (remove_nth k xs) (tk_own s)) (tk_q s) (tk_tab s))
                  | _ => ORet [] s        (* there is no longer a [BlinkAlloc] *)
                  end
              end
          end
      | TPop t =>
          match free t s with
          | None => ORet [] s
          | Some _ => on_cache (QStart t CPop) [EPop t] s
          end
      | TGo t => on_cache (QGo t) [] s
      end.

  Fixpoint trun (cs : list tchoice) : M tst (list tev) :=
    match cs with
    | [] => ret []
    | c :: cs' => es <- tstep c ;; es' <- trun cs' ;; ret (es ++ es')
    end.

  (** [n] threads, nothing allocated, the cache empty (src/cache.rs 59-68). *)
  Definition tstart (n : nat) : tst := mkT bworld0 (repeat [] n) (qstart n) [].

  Definition choice_fine (c : tchoice) : Prop := match c with TDo _ a => min_fine su a | _ => True end.
  Definition tasks_ok (n : nat) (cs : list tchoice) : Prop :=
    setup_ok su /\ 0 <= vmax <= ISIZE_MAX /\ Z.of_nat n <= 2 ^ 63 /\ Forall choice_fine cs.
End Tasks.

(** ** What the tasks are entitled to expect: buffers of their own, and a queue *)

Notation sbufs := (fate * list (option sbuf))%type.
Record tspec := mkTx {
  tx_own : list (list sbufs);
  tx_mid : list (option sbufs);      (* what each thread is handing over *)
  tx_queue : list sbufs;             (* the oldest first *)
  tx_tab : list (option sbuf)
}.
(** [None]: cannot happen. *)
Definition tspec_step (e : tev) (b : tspec) : option tspec :=
  match e with
  | EDo t a r =>
      match nth_error (tx_own b) t with
      | Some ys =>
          let z := wspec_step a (option_map b_len r) (mkWs ys (tx_tab b)) in
          Some (mkTx (set_nth t (wx_wraps z) (tx_own b)) (tx_mid b) (tx_queue b) (wx_tab z))
      | None => None
      end
  | EPush t k =>
      match nth_error (tx_own b) t, nth_error (tx_mid b) t with
      | Some ys, Some None =>
          match nth_error ys k with
          | Some y => Some (mkTx (set_nth t (remove_nth k ys) (tx_own b)) (set_nth t (Some y) (tx_mid b)) (tx_queue b) (tx_tab b))
          | None => None
          end
      | _, _ => None
      end
  | EPop t => match nth_error (tx_mid b) t with Some None => Some b | _ => None end
  | EIn t =>
      match nth_error (tx_mid b) t with
      | Some (Some y) => Some (mkTx (tx_own b) (set_nth t None (tx_mid b)) (tx_queue b ++ [y]) (tx_tab b))
      | _ => None
      end
  | EOut t true =>
      match nth_error (tx_mid b) t, tx_queue b with
      | Some None, y :: q => Some (mkTx (tx_own b) (set_nth t (Some y) (tx_mid b)) q (tx_tab b))
      | _, _ => None
      end
  | EOut t false => match tx_queue b with [] => Some b | _ => None end
  | EBack t true =>
      match nth_error (tx_own b) t, nth_error (tx_mid b) t with
      | Some ys, Some (Some y) => Some (mkTx (set_nth t (ys ++ [y]) (tx_own b)) (set_nth t None (tx_mid b)) (tx_queue b) (tx_tab b))
      | _, _ => None
      end
  | EBack t false => match nth_error (tx_mid b) t with Some None => Some b | _ => None end
  end.
Fixpoint tspecs (es : list tev) (b : tspec) : option tspec :=
  match es with
  | [] => Some b
  | e :: es' => match tspec_step e b with Some b' => tspecs es' b' | None => None end
  end.
Definition tspec0 (n : nat) : tspec := mkTx (repeat [] n) (repeat None n) [] [].

(** What is left of the newest chunk of a [BlinkAlloc] ([ChunkHeader::cursor] and [end],
    src/arena/mod.rs 173-179). *)
Definition spare (m : mem) (x : wrap) : Z :=
  match ar_root (wp_arena x) with
  | None => 0
  | Some p =>
      match load m (p + CURSOR) 8, load m (p + END) 8 with
      | Some c, Some e => e - c
      | _, _ => 0
      end
  end.
