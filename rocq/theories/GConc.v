(** Model of src/global/sync.rs, [GlobalBlinkAlloc<A>], used by any number of threads.

    The steps of a thread in blink mode are those of Conc.v, followed by one step for
    each access of the counter of allocations.  Calls in direct mode go to the underlying
    allocator, which is thread-safe: each of them is one step.  The underlying allocator
    has other users at the same time (Shared.v).

    Not modelled: [local] (336-340); its proxies are the subject of Proxy.v. *)
From Verif Require Import Base Alloc Arena BlinkAlloc History Setup Conc Shared.

(** What the caller of the [SyncBlinkAlloc] still has to do. *)
Inductive post :=
| PNone
| PAlloc (z : bool)          (* sync.rs 349, 375: allocating *)
| PZero (h : nat)            (* in [Allocator::allocate_zeroed]: [h] is to be filled with zeros *)
| PUp (h : nat) (z : bool)   (* sync.rs 351-354, 377-380: [h] is to be counted *)
| PDealloc                   (* sync.rs 364 *)
| PDown                      (* sync.rs 365-370: about to count down *)
| PRealloc                   (* sync.rs 400 *)
| PReset.                    (* sync.rs 257: checked, about to call [reset_unchecked] *)

Record mst := mkMst {
  m_on : bool;               (* sync.rs 16 [enabled] *)
  m_count : Z;               (* sync.rs 90-91 [allocations]; stays 0 in release builds *)
  m_post : list post;        (* one for each thread *)
  m_o : ost;                 (* the allocator, the threads in it, the blocks: those obtained in
                                blink mode are in [g_tab], those in direct mode in [o_tab] *)
  m_lost : Z                 (* not in the code: how many live blocks were invalidated by resets *)
}.

Inductive mchoice :=
| MAlloc (t : nat) (l : Layout) (z : bool)
| MDealloc (t : nat) (h : nat)
| MRealloc (t : nat) (h : nat) (n : Z)
| MWrite (t : nat) (h : nat) (off : Z) (cs : list cell)   (* to a block obtained in blink mode *)
| MReset (t : nat)
| MGo (t : nat) (spurious : bool)    (* a step inside the [SyncBlinkAlloc] *)
| MStale (t : nat) (v : Z)
| MNext (t : nat)                    (* a step outside *)
| MElse (o : op)                     (* the underlying allocator, used by anybody, and writes to
                                        blocks of it, also those obtained in direct mode *)
| MBlink
| MDirect.

Inductive mevent :=
| MO (e : oevent)
| Got (t : nat) (h : nat) (z : bool) (* alloc or alloc_zeroed in blink mode returns block [h] *)
| Panicked.                          (* "Not everything was deallocated" *)

Definition nlive {T} (t : list (option T)) : Z :=
  Z.of_nat (length (filter (fun x => match x with Some _ => true | None => false end) t)).

(** The block a thread has obtained in a call that has not returned. *)
Definition pending (q : post) : option nat :=
  match q with PZero h | PUp h _ => Some h | _ => None end.
Definition is_pending (q : post) : bool := match pending q with Some _ => true | None => false end.
Definition has_pending (h : nat) (q : post) : bool :=
  match pending q with Some h' => Nat.eqb h' h | None => false end.
Definition is_none (q : post) : bool := match q with PNone => true | _ => false end.
Definition is_down (q : post) : bool := match q with PDown => true | _ => false end.

(** The operation inside has taken effect; [n] blocks had been allocated before. *)
Definition after1 (n : nat) (q : post) (e : event) : post :=
  match e with
  | Lin _ _ r =>
      match q, r with
      | PAlloc true, Some _ => PZero n
      | PAlloc false, Some _ => PUp n false
      | PAlloc _, None => PNone
      | PDealloc, _ => PDown
      | PRealloc, _ => PNone
      | _, _ => q
      end
  | _ => q
  end.
Definition after (n : nat) (es : list event) (q : post) : post := fold_left (after1 n) es q.

Section GConc.
  Variable su : setup.
  Notation dbg := (su_dbg su).

  Definition m_g (m : mst) : gst := o_g (m_o m).
  Definition on_o {B} (x : M ost B) : M mst B :=
    fun m => match x (m_o m) with
             | ORet b o => ORet b (mkMst (m_on m) (m_count m) (m_post m) o (m_lost m))
             | OPanic o => OPanic (mkMst (m_on m) (m_count m) (m_post m) o (m_lost m))
             | OAbort => OAbort
             | OUB => OUB
             end.
  Definition inside_step (c : choice) : M mst (list event) := on_o (lift_g (cstep su c)).
  Definition put_post (t : nat) (q : post) : M mst unit :=
    fun m => ORet tt (mkMst (m_on m) (m_count m) (set_nth t q (m_post m)) (m_o m) (m_lost m)).
  Definition put_on (on : bool) : M mst unit :=
    fun m => ORet tt (mkMst on (m_count m) (m_post m) (m_o m) (m_lost m)).
  (** [fetch_add] and [fetch_sub] wrap around. *)
  Definition add_count (d : Z) : M mst unit :=
    fun m => ORet tt (mkMst (m_on m) (if dbg then wrap (m_count m + d) else m_count m) (m_post m) (m_o m) (m_lost m)).
  Definition put_lost (d : Z) : M mst unit :=
    fun m => ORet tt (mkMst (m_on m) (m_count m) (m_post m) (m_o m) (m_lost m + d)).

  Definition ours (es : list event) : list mevent := map (fun e => MO (OurEv e)) es.

  (** The thread is not in a call. *)
  Definition ready (t : nat) (m : mst) : bool :=
    match nth_error (g_thr (m_g m)) t, nth_error (m_post m) t with
    | Some Idle, Some PNone => true
    | _, _ => false
    end.
  Definition all_ready (m : mst) : bool :=
    forallb is_idle (g_thr (m_g m)) && forallb is_none (m_post m).

  (** Begin an operation of the [SyncBlinkAlloc]; nothing happens if that breaks the rules. *)
  Definition enter_call (t : nat) (o : op) (q : post) : M mst (list mevent) :=
    es <- inside_step (Start t o) ;;
    match es with
    | [] => ret []
    | _ => put_post t q ;;; ret (ours es)
    end.
  Definition direct (o : op) : M mst (list mevent) :=
    es <- on_o (theirs su o) ;; ret (map MO es).

  (** Nobody may touch a block before the call that allocates it has returned. *)
  Definition hidden (h : nat) (m : mst) : bool := existsb (has_pending h) (m_post m).

  Definition thread_step (t : nat) (c : choice) (n : nat) (q : post) : M mst (list mevent) :=
    es <- inside_step c ;;
    put_post t (after n es q) ;;;
    ret (ours es).

  (** sync.rs 247-257, the check. *)
  Definition leak_check (m : mst) : bool := dbg && negb (m_count m =? 0).

  (** [m] is the current state. *)
  Definition mstep_at (c : mchoice) (m : mst) : M mst (list mevent) :=
    let tab := g_tab (m_g m) in
    match c with
    | MAlloc t l z =>
        (* sync.rs 21-40, 348-359, 374-385; requests of zero size are not allowed (GlobalAlloc) *)
        if ready t m && layout_okb l && (1 <=? l_size l) then
          if m_on m then enter_call t (OpAlloc l false) (PAlloc z)
          else direct (OpAlloc l z)
        else ret []
    | MDealloc t h =>
        (* sync.rs 63-71, 362-371 *)
        if ready t m then
          if m_on m then
            match get h tab with
            | Some u => if hidden h m then ret [] else enter_call t (OpDealloc h (u_layout u)) PDealloc
            | None => ret []
            end
          else
            match get h (o_tab (m_o m)) with
            | Some u => direct (OpDealloc h (u_layout u))
            | None => ret []
            end
        else ret []
    | MRealloc t h n =>
        (* sync.rs 43-60, 388-407.  In direct mode only with the same size: every other call is
           undefined behaviour (C45). *)
        if ready t m && (1 <=? n) then
          if m_on m then
            match get h tab with
            | Some u =>
                let new := mkLayout n (l_align (u_layout u)) in
                if hidden h m || negb (layout_okb new) then ret []
                else enter_call t (OpResize h (u_layout u) new) PRealloc
            | None => ret []
            end
          else
            match get h (o_tab (m_o m)) with
            | Some u =>
                if n =? l_size (u_layout u) then direct (OpResize h (u_layout u) (u_layout u)) else ret []
            | None => ret []
            end
        else ret []
    | MWrite t h off cs =>
        if ready t m && negb (hidden h m) then enter_call t (OpWrite h off cs) PNone else ret []
    | MReset t =>
        if ready t m then
          if leak_check m then ret [Panicked] else put_post t PReset ;;; ret []
        else ret []
    | MGo t sp =>
        match nth_error (m_post m) t with
        | Some q => thread_step t (Go t sp) (length tab) q
        | None => ret []
        end
    | MStale t v =>
        match nth_error (m_post m) t with
        | Some q => thread_step t (Stale t v) (length tab) q
        | None => ret []
        end
    | MNext t =>
        match nth_error (g_thr (m_g m)) t, nth_error (m_post m) t with
        | Some Idle, Some (PZero h) =>
            (* the default [Allocator::allocate_zeroed]: [write_bytes(0, len)] *)
            match get h tab with
            | Some u => enter_call t (OpWrite h 0 (repeat (Byte 0) (Z.to_nat (u_len u)))) (PUp h true)
            | None => ret []
            end
        | Some Idle, Some (PUp h z) => add_count 1 ;;; put_post t PNone ;;; ret [Got t h z]
        | Some Idle, Some PDown => add_count (-1) ;;; put_post t PNone ;;; ret []
        | Some Idle, Some PReset =>
            (* sync.rs 257, safe only if no allocated block is used any more *)
            if existsb is_pending (m_post m) then ret []
            else
              es <- inside_step (Start t (OpReset true)) ;;
              match es with
              | [] => ret []
              | _ => put_lost (nlive tab) ;;; put_post t PNone ;;; ret (ours es)
              end
        | _, _ => ret []
        end
    | MElse o => direct o
    | MBlink =>
        (* sync.rs 274-276, "must be externally synchronized" *)
        if all_ready m then put_on true ;;; ret [] else ret []
    | MDirect =>
        (* sync.rs 292-295 *)
        if all_ready m then
          if leak_check m then ret [Panicked]
          else
            es <- inside_step (Exclusive true) ;;
            put_lost (nlive tab) ;;; put_on false ;;; ret (ours es)
        else ret []
    end.
  Definition mstep (c : mchoice) : M mst (list mevent) := fun m => mstep_at c m m.

  Fixpoint mrun (cs : list mchoice) : M mst (list mevent) :=
    match cs with
    | [] => ret []
    | c :: cs' => e <- mstep c ;; es <- mrun cs' ;; ret (e ++ es)
    end.

  (** [n] threads, a new allocator (sync.rs 164-173, 196-205) in direct mode. *)
  Definition mstart (n : nat) : mst := mkMst false 0 (repeat PNone n) (ostart su n) 0.
End GConc.

(** What happened at the [SyncBlinkAlloc] and at the underlying allocator. *)
Fixpoint inner_events (es : list mevent) : list oevent :=
  match es with
  | [] => []
  | MO e :: es' => e :: inner_events es'
  | _ :: es' => inner_events es'
  end.
