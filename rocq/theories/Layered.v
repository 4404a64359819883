(** BlinkAllocs on top of each other, to any depth, on paper (C87).

    Nothing in this file is code of blink-alloc.  As in Paper.v there is no memory, no header
    and no pointer: every level is a list of chunks, the bottom is the list of the calls made to
    the underlying allocator.  When the newest chunk of a level is full, the level asks the one
    below for a new chunk, which takes it from a chunk of its own (with the same arithmetic) or
    asks further down.  Giving a chunk back changes nothing for a level below: it is recorded
    only at the bottom ([deallocate] of a BlinkAlloc, src/local.rs 323-327 and src/arena/mod.rs
    439-456, keeps the memory). *)
From Verif Require Import Base Alloc History Arena BlinkAlloc Tower Paper ProxyPaper.

Section Layered.
  Variable S : strategy.     (* the underlying allocator *)

  Fixpoint TP (ls : list level) : Type :=
    match ls with [] => list uevent | _ :: ls' => (list pchunk * TP ls')%type end.

  (** The topmost of these levels is given a block back ... *)
  Definition tgive (ls : list level) : Z -> Layout -> TP ls -> TP ls :=
    match ls with
    | [] => fun p lay tr => EvDealloc p lay :: tr
    | _ :: _ => fun _ _ x => x
    end.
  (** ... or asked for one. *)
  Fixpoint tsell (ls : list level) : Layout -> TP ls -> option block * TP ls :=
    match ls with
    | [] => fun lay tr => (st_alloc S tr lay, EvAlloc lay (st_alloc S tr lay) :: tr)
    | l :: ls' => fun lay x =>
        let '(a, ks, tr) := take (lv_min l) (supplier (tsell ls') (snd x)) (fst x) lay [] in
        (option_map (fun a => mkBlock a (l_size lay)) a, (ks, charged (tsell ls') (tgive ls') (snd x) tr))
    end.

  (** An operation of the client of the topmost level. *)
  Definition tstep (l : level) (ls : list level) (o : op) (q : TP (l :: ls) * list (option ublock))
    : option block * (TP (l :: ls) * list (option ublock)) :=
    let '(ks, x, tab) := q in
    let '(r, p) := paper_step (lv_min l) (lv_smax l) (supplier (tsell ls) x) o (mkPaper ks tab []) in
    (r, (p_chunks p, charged (tsell ls) (tgive ls) x (p_calls p), p_tab p)).
  Fixpoint trun (l : level) (ls : list level) (os : list op) (q : TP (l :: ls) * list (option ublock))
    : list (option block) * (TP (l :: ls) * list (option ublock)) :=
    match os with
    | [] => ([], q)
    | o :: os' => let '(r, q1) := tstep l ls o q in let '(rs, q2) := trun l ls os' q1 in (r :: rs, q2)
    end.

  Fixpoint tp0 (ls : list level) : TP ls :=
    match ls with [] => [] | _ :: ls' => ([], tp0 ls') end.
End Layered.

(** How the paper shows in the state of the program: the chunks of every level in memory
    (ProxyPaper.v), and the calls at the bottom. *)
Fixpoint tower_shows (ls : list level) (m : mem) : TW ls -> TP ls -> Prop :=
  match ls with
  | [] => fun w tr => bw_mem w = m /\ bw_trace w = tr
  | _ :: ls' => fun w x => headed m (ar_root (fst w)) (fst x) /\ tower_shows ls' m (snd w) (snd x)
  end.
