(** A [Blink] on a [SyncBlinkAlloc] that other threads use at the same time (C73).

    [Blink::new_in(&alloc)] with [alloc : SyncBlinkAlloc] (sync.rs 434; api.rs 46-52) makes a
    [Blink] whose calls to the allocator run the machine of Conc.v: each is made of steps (lock
    operations, accesses of cursors, bytes copied), between which the other threads make steps
    of theirs, in any order, at whatever place of whatever call they are.

    The accesses of the [Blink] to its own blocks between two calls are not steps of the
    machine.  Nobody else accesses these blocks, so that it makes no difference whether a step
    of somebody else comes before or after (and the accesses do not race: C55). *)
From Verif Require Import Base Alloc Arena BlinkAlloc History Setup Conc.

(** How the thread makes its next step: with the newest value of the cursor (a weak
    compare-exchange may fail spuriously), or with an old one. *)
Inductive manner := Fresh (spurious : bool) | Old (v : Z).
(** The other threads act, then this one makes a step. *)
Record turn := mkTurn { tn_others : list choice; tn_step : manner }.

(** The machine, the handles of the blocks the [Blink] has, what has happened since the
    allocator was new, and how things will go on. *)
Record tst := mkT { t_g : gst; t_mine : list nat; t_log : list event; t_todo : list turn }.

(** Bytes that remain to be copied, at most. *)
Definition copying (p : pc) : nat :=
  match p with
  | WantRead j | Load j _ | Cas j _ _ | TipLoad j _ | TipCas j _ _ | FreeCas j _
  | Copy j _ _ _ | WantWrite j | Slow j | Unlock _ (Some j) _ =>
      match j with JResize _ _ old new => Z.to_nat (Z.min (l_size new) (l_size old)) | _ => 0%nat end
  | _ => 0%nat
  end.
(** Steps enough for a call that nobody gets in the way of (C26). *)
Definition patience (p : option pc) : nat := match p with Some p => 10 + copying p | None => 0 end.

(** The block an operation is about. *)
Definition op_handle (o : op) : option nat :=
  match o with
  | OpWrite h _ _ | OpDealloc h _ | OpResize h _ _ | OpGrowZeroed h _ _ => Some h
  | OpAlloc _ _ | OpReset _ => None
  end.

Section Threaded.
  Variable su : setup.
  Variable t : nat.                     (* the thread of the [Blink] *)

  (** What others may do: they are not this thread, they do not use blocks that are not theirs,
      and nobody resets an allocator that is borrowed (sync.rs 298, 308: [&mut self]; 329:
      nobody may use a block of it any more). *)
  Definition allowed (mine : list nat) (c : choice) : bool :=
    match c with
    | Start t' o =>
        negb (Nat.eqb t' t) &&
        match o with
        | OpReset _ => false
        | _ => match op_handle o with Some h => negb (existsb (Nat.eqb h) mine) | None => true end
        end
    | Go t' _ | Stale t' _ => negb (Nat.eqb t' t)
    | Exclusive _ => false
    end.

  Definition own_choice (m : manner) : choice := match m with Fresh sp => Go t sp | Old v => Stale t v end.

  (** The result of the call, if it takes effect at this step. *)
  Definition result (es : list event) (r : option (option block)) : option (option block) :=
    fold_left (fun r e => match e with Lin t' _ b => if Nat.eqb t' t then Some b else r | _ => r end) es r.

  (** The call goes on until it returns, or the turns are used up: what happened, the turns
      that are left, the result so far, and if the call returned, the handle of the block. *)
  Fixpoint drive (mine : list nat) (turns : list turn) (r : option (option block))
    : M gst (list event * list turn * option (option block) * option (option nat)) :=
    match turns with
    | [] => ret ([], [], r, None)
    | tn :: rest =>
        es1 <- crun su (filter (allowed mine) (tn_others tn)) ;;
        g <- get_g ;;
        es2 <- cstep su (own_choice (tn_step tn)) ;;
        match tn_step tn, nth_error (g_thr g) t with
        | Fresh _, Some (Unlock _ None h) => ret (es1 ++ es2, rest, result es2 r, Some h)
        | _, _ =>
            d <- drive mine rest (result es2 r) ;;
            match d with (es3, todo, r', h) => ret (es1 ++ es2 ++ es3, todo, r', h) end
        end
    end.

  (** Other threads that hold the lock go on by themselves until they release it. *)
  Fixpoint clear (ts : list nat) : M gst (list event) :=
    match ts with
    | [] => ret []
    | t' :: ts' =>
        g <- get_g ;;
        es <- crun su (repeat (Go t' false) (patience (nth_error (g_thr g) t'))) ;;
        es' <- clear ts' ;;
        ret (es ++ es')
    end.
  Definition holders (k : lock) : list nat :=
    filter (fun t' => negb (Nat.eqb t' t))
      (match lk_writer k with Some t' => [t'] | None => lk_readers k end).

  (** A whole call: the handle and the result.  When the turns are used up, those in the way
      finish what they are doing, then the call runs to its end. *)
  Definition whole (mine : list nat) (todo : list turn) (o : op)
    : M gst (list event * list turn * option nat * option block) :=
    es0 <- cstep su (Start t o) ;;
    d <- drive mine todo None ;;
    match d with
    | (es1, todo', r, Some h) => ret (es0 ++ es1, todo', h, match r with Some b => b | None => None end)
    | (es1, _, r, None) =>
        g <- get_g ;;
        es2 <- clear (holders (g_lock g)) ;;
        g' <- get_g ;;
        d' <- drive mine (repeat (mkTurn [] (Fresh false)) (patience (nth_error (g_thr g') t))) r ;;
        match d' with
        | (es3, _, r', Some h) => ret (es0 ++ es1 ++ es2 ++ es3, [], h, match r' with Some b => b | None => None end)
        | _ => ub   (* the call does not return; never reached *)
        end
    end.

  Definition call (o : op) (f : option nat -> list nat -> list nat) : M tst (option block) :=
    fun s =>
      match whole (t_mine s) (t_todo s) o (t_g s) with
      | ORet (es, todo, h, r) g => ORet r (mkT g (f h (t_mine s)) (t_log s ++ es) todo)
      | OPanic g => OPanic (mkT g (t_mine s) (t_log s) (t_todo s))
      | OAbort => OAbort
      | OUB => OUB
      end.

  (** The handle of one's block at address [p] that [l] fits.  (The code is told the address
      and the layout only; should several blocks fit, all but one of them are empty, and an
      empty one is taken.) *)
  Fixpoint pick (p : Z) (l : Layout) (tab : list (option ublock)) (mine : list nat) : option (nat * ublock) :=
    match mine with
    | [] => None
    | h :: hs =>
        match get h tab with
        | Some u =>
            if (u_ptr u =? p) && fitsb l u then
              match pick p l tab hs with
              | Some (h', u') => if u_len u <=? u_len u' then Some (h, u) else Some (h', u')
              | None => Some (h, u)
              end
            else pick p l tab hs
        | None => pick p l tab hs
        end
    end.

  (** sync.rs 364-366, 389-391: [allocate], [deallocate]; 369-386: [grow] and [shrink] are both
      [resize].  A call with a layout or an address that is not allowed is undefined behaviour. *)
  Definition t_allocate (l : Layout) : M tst (option block) :=
    if req_okb (su_smax su) l then
      call (OpAlloc l false) (fun h mine => match h with Some h => h :: mine | None => mine end)
    else ub.
  Definition t_deallocate (p : Z) (l : Layout) : M tst unit :=
    fun s => match pick p l (g_tab (t_g s)) (t_mine s) with
             | Some (h, _) => (call (OpDealloc h l) (fun _ mine => remove Nat.eq_dec h mine) ;;; ret tt) s
             | None => OUB
             end.
  Definition t_resize (p : Z) (old new : Layout) : M tst (option block) :=
    fun s => match pick p old (g_tab (t_g s)) (t_mine s) with
             | Some (h, _) =>
                 if req_okb (su_smax su) new then call (OpResize h old new) (fun _ mine => mine) s else OUB
             | None => OUB
             end.

  Definition set_mem (s : tst) (m : mem) : tst :=
    let g := t_g s in
    mkT (mkG (g_tab g) (g_thr g) (g_lock g) (fst (g_aw g), al_set_mem (bot su) (snd (g_aw g)) m))
      (t_mine s) (t_log s) (t_todo s).

  Definition threaded : Allocator tst :=
    mkAllocator _ (fun s => al_mem (bot su) (snd (g_aw (t_g s)))) set_mem
      t_allocate t_deallocate t_resize t_resize.
End Threaded.
