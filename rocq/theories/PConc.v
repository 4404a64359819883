(** Model of the thread-local proxies of src/sync.rs ([SyncBlinkAlloc::local],
    [LocalBlinkAlloc]) while any number of threads use the shared allocator at the same
    time.

    A proxy works on its own arena and its own chunks, and calls [allocate] of the shared
    allocator when it needs a chunk.  That call takes the steps of Conc.v.  What a proxy
    does before and after the call concerns only memory nobody else accesses, and is one
    step.  The code of the proxy is that of BlinkAlloc.v over the allocator [deputy] below,
    which stands for the shared one: run for the first time it records the request; when
    the shared allocator has answered, the operation is run again with that answer.
    Running it again is undefined behaviour if it leads to another request (it never does:
    PConcFacts.v).  [allocate], [resize] and [deallocate] of a proxy (src/sync.rs 476-483,
    498-515, 529-535) call no other method of the shared allocator.

    Not modelled here: [reset_unchecked] of a proxy (src/sync.rs 561-567), which gives
    chunks back to the shared allocator; it is part of Proxy.v. *)
From Verif Require Import Base Alloc Arena BlinkAlloc History Setup Conc Proxy.

(** ** The shared allocator as one operation of a proxy sees it *)

Record dw := mkD {
  d_mem : mem;
  d_ans : option (Layout * option block);      (* the answer to this request *)
  d_asked : option Layout                      (* the request that was made *)
}.

Definition layout_eqb (a b : Layout) : bool := (l_size a =? l_size b) && (l_align a =? l_align b).

Definition deputy : Allocator dw :=
  mkAllocator dw d_mem (fun d m => mkD m (d_ans d) (d_asked d))
    (fun l d =>
       match d_ans d with
       | Some (l', r) =>
           if layout_eqb l l' then ORet r (mkD (d_mem d) None (Some l))
           else ORet None (mkD (d_mem d) (d_ans d) (Some l))
       | None => ORet None (mkD (d_mem d) None (Some l))
       end)
    (fun _ _ => ret tt) (fun _ _ _ => ret None) (fun _ _ _ => ret None).

(** ** The machine *)

(** What a thread is doing for a proxy. *)
Inductive rjob :=
| RNone
| RWait (k : nat) (o : op) (l : Layout)                 (* for operation [o] of proxy [k], allocating [l] *)
| RAns (k : nat) (o : op) (l : Layout) (h : option nat). (* ... allocated, as block [h], or not *)

Record rst := mkR {
  r_max : Z;                       (* src/sync.rs 100-104 [max_local_alloc] *)
  r_prox : list (option proxy);    (* the proxies; [None]: dropped *)
  r_chunk : list nat;              (* not in the code: the blocks of the shared allocator that were
                                      allocated by proxies *)
  r_job : list rjob;               (* one for each thread *)
  r_g : gst                        (* the shared allocator, the threads in it, its blocks *)
}.

Inductive rchoice :=
| RStart (t : nat) (o : op)          (* thread [t] begins an operation on the shared allocator *)
| RGo (t : nat) (spurious : bool)    (* a step inside the shared allocator *)
| RStale (t : nat) (v : Z)
| RExclusive (keep_last : bool)      (* reset or reset_final of the shared allocator, through [&mut] *)
| RLocal (v : Z)                     (* [local]; the load of [max_local_alloc] returns [v] *)
| RUse (t : nat) (k : nat) (o : op)  (* thread [t] begins an operation on proxy [k] *)
| RNext (t : nat)                    (* ... and goes on when the shared allocator has answered *)
| RReset (k : nat)
| RDrop (k : nat)
| RUpdate (n : Z).                   (* [update_max_local_alloc] *)

Inductive revent :=
| RO (e : event)
| RP (o : pop) (r : pres).

Definition job_proxy (q : rjob) : option nat :=
  match q with RNone => None | RWait k _ _ | RAns k _ _ _ => Some k end.
Definition works_on (k : nat) (q : rjob) : bool :=
  match job_proxy q with Some k' => Nat.eqb k' k | None => false end.
Definition op_handle (o : op) : option nat :=
  match o with
  | OpAlloc _ _ | OpReset _ => None
  | OpWrite h _ _ | OpDealloc h _ | OpResize h _ _ | OpGrowZeroed h _ _ => Some h
  end.
Definition is_reset (o : op) : bool := match o with OpReset _ => true | _ => false end.

(** The call has taken effect; [n] blocks had been allocated before. *)
Definition rafter1 (n : nat) (x : rjob * list nat) (e : event) : rjob * list nat :=
  match e, fst x with
  | Lin _ _ (Some _), RWait k o l => (RAns k o l (Some n), n :: snd x)
  | Lin _ _ None, RWait k o l => (RAns k o l None, snd x)
  | _, _ => x
  end.
Definition rafter (n : nat) (es : list event) (x : rjob * list nat) : rjob * list nat := fold_left (rafter1 n) es x.

Definition asked_of {B} (out : outcome (cst (AW (W := dw))) B) : option Layout :=
  match out with
  | ORet _ c | OPanic c => d_asked (snd (c_w c))
  | OAbort | OUB => None
  end.

Section PConc.
  Variable su : setup.
  Variable psmax nmax : Z.         (* see Proxy.v *)
  Notation dbg := (su_dbg su).

  Definition on_g {B} (x : M gst B) : M rst B :=
    fun s => match x (r_g s) with
             | ORet b g => ORet b (mkR (r_max s) (r_prox s) (r_chunk s) (r_job s) g)
             | OPanic g => OPanic (mkR (r_max s) (r_prox s) (r_chunk s) (r_job s) g)
             | OAbort => OAbort
             | OUB => OUB
             end.
  Definition put_job (t : nat) (q : rjob) : M rst unit :=
    fun s => ORet tt (mkR (r_max s) (r_prox s) (r_chunk s) (set_nth t q (r_job s)) (r_g s)).
  Definition put_chunk (ch : list nat) : M rst unit :=
    fun s => ORet tt (mkR (r_max s) (r_prox s) ch (r_job s) (r_g s)).
  Definition put_max (n : Z) : M rst unit :=
    fun s => ORet tt (mkR n (r_prox s) (r_chunk s) (r_job s) (r_g s)).
  Definition put_prox (f : list (option proxy) -> list (option proxy)) : M rst unit :=
    fun s => ORet tt (mkR (r_max s) (f (r_prox s)) (r_chunk s) (r_job s) (r_g s)).
  Definition put_mem (m : mem) : M rst unit :=
    fun s => let g := r_g s in
      ORet tt (mkR (r_max s) (r_prox s) (r_chunk s) (r_job s)
        (mkG (g_tab g) (g_thr g) (g_lock g) (fst (g_aw g), al_set_mem (bot su) (snd (g_aw g)) m))).

  Definition gmem (g : gst) : mem := bw_mem (snd (g_aw g)).
  Definition rready (t : nat) (s : rst) : bool :=
    match nth_error (g_thr (r_g s)) t, nth_error (r_job s) t with
    | Some Idle, Some RNone => true
    | _, _ => false
    end.
  Definition in_call (k : nat) (s : rst) : bool := existsb (works_on k) (r_job s).

  (** Operation [o] of the client of [p], with this answer of the shared allocator. *)
  Definition run_op (o : op) (p : proxy) (ans : option (Layout * option block)) (m : mem)
    : outcome (cst (AW (W := dw))) (option block) :=
    step psmax (blink deputy dbg) (fun _ => blink_reset deputy) o
      (mkCst (px_tab p) (px_arena p, mkD m ans None)).

  (** The operation is over.  Panics are caught by the client. *)
  Definition settle (k : nat) (o : op) (out : outcome (cst (AW (W := dw))) (option block)) : M rst (list revent) :=
    let take c (r : pres) :=
      put_mem (d_mem (snd (c_w c))) ;;;
      put_prox (set_nth k (Some (mkProxy (fst (c_w c)) (c_tab c)))) ;;;
      ret [RP (PUse (Some k) o) r] in
    match out with
    | ORet r c => take c (PBlock r)
    | OPanic c => take c PPanicked
    | OAbort => fun _ => OAbort
    | OUB => ub
    end.

  (** src/sync.rs 542-546 [reset] ([keep]); 461-465 [Drop], then src/arena/local.rs 14-22. *)
  Definition leave (keep : bool) (p : proxy) (m : mem) : outcome (AW (W := dw)) Z :=
    (n <- last_chunk_size deputy ;;
     arena_reset_leak deputy keep ;;;
     (fun aw => debug_assert (dbg && negb keep) (is_none (ar_root (fst aw))) aw) ;;;
     ret n) (px_arena p, mkD m None None).
  Definition leave_step (keep : bool) (k : nat) (s : rst) : M rst (list revent) :=
    match get k (r_prox s) with
    | None => ret []
    | Some p =>
        if in_call k s then ret []
        else
          match leave keep p (gmem (r_g s)) with
          | ORet n aw =>
              put_max (Z.max (r_max s) n) ;;;
              put_mem (d_mem (snd aw)) ;;;
              put_prox (set_nth k (if keep then Some (mkProxy (fst aw) (map (fun _ => None) (px_tab p))) else None)) ;;;
              ret [RP (if keep then PReset k else PDrop k) PDone]
          | OPanic _ => panic
          | OAbort => fun _ => OAbort
          | OUB => ub
          end
    end.

  Definition thread_step (t : nat) (c : choice) (s : rst) : M rst (list revent) :=
    match nth_error (r_job s) t with
    | None => ret []
    | Some q =>
        es <- on_g (cstep su c) ;;
        let x := rafter (length (g_tab (r_g s))) es (q, r_chunk s) in
        put_job t (fst x) ;;;
        put_chunk (snd x) ;;;
        ret (map RO es)
    end.

  (** [s] is the current state. *)
  Definition rstep_at (c : rchoice) (s : rst) : M rst (list revent) :=
    match c with
    | RStart t o =>
        (* chunks of proxies are not the client's; [reset_unchecked] of the shared allocator: nobody
           uses its memory any more, so there are no proxies *)
        if rready t s && negb (match op_handle o with Some h => existsb (Nat.eqb h) (r_chunk s) | None => false end)
           && (negb (is_reset o) || forallb is_none (r_prox s)) then
          es <- on_g (cstep su (Start t o)) ;; ret (map RO es)
        else ret []
    | RGo t sp => thread_step t (Go t sp) s
    | RStale t v => thread_step t (Stale t v) s
    | RExclusive keep =>
        if forallb is_none (r_prox s) then es <- on_g (cstep su (Exclusive keep)) ;; ret (map RO es) else ret []
    | RLocal v =>
        (* src/sync.rs 221-226; the load is [Relaxed], and [max_local_alloc] only grows *)
        if (0 <=? v) && (v <=? r_max s) then
          put_prox (fun l => l ++ [Some (mkProxy (arena_with_chunk_size v) [])]) ;;; ret [RP PLocal PDone]
        else ret []
    | RUse t k o =>
        match get k (r_prox s) with
        | None => ret []
        | Some p =>
            if rready t s && negb (in_call k s) && negb (is_reset o) then
              let out := run_op o p None (gmem (r_g s)) in
              match asked_of out with
              | None => settle k o out
              | Some l =>
                  es <- on_g (cstep su (Start t (OpAlloc l false))) ;;
                  match es with
                  | [] => ub         (* a request no allocator may be asked for *)
                  | _ => put_job t (RWait k o l) ;;; ret (map RO es)
                  end
              end
            else ret []
        end
    | RNext t =>
        match nth_error (g_thr (r_g s)) t, nth_error (r_job s) t with
        | Some Idle, Some (RAns k o l h) =>
            match get k (r_prox s) with
            | None => ub
            | Some p =>
                let b := match h with Some h => option_map ublk (get h (g_tab (r_g s))) | None => None end in
                let out := run_op o p (Some (l, b)) (gmem (r_g s)) in
                match asked_of out with
                | Some l' => if layout_eqb l' l then put_job t RNone ;;; settle k o out else ub
                | None => ub
                end
            end
        | _, _ => ret []
        end
    | RReset k => leave_step true k s
    | RDrop k => leave_step false k s
    | RUpdate n =>
        (* src/sync.rs 353-356 *)
        if (0 <=? n) && (n <=? nmax) then put_max (Z.max (r_max s) n) ;;; ret [RP (PUpdate n) PDone] else ret []
    end.
  Definition rstep (c : rchoice) : M rst (list revent) := fun s => rstep_at c s s.

  Fixpoint rrun (cs : list rchoice) : M rst (list revent) :=
    match cs with
    | [] => ret []
    | c :: cs' => e <- rstep c ;; es <- rrun cs' ;; ret (e ++ es)
    end.

  (** [n] threads, a new allocator, no proxies. *)
  Definition rstart (n : nat) : rst := mkR 0 [] [] (repeat RNone n) (cstart su n).
End PConc.

(** What happened at the shared allocator, and at the proxies. *)
Fixpoint shared_events (es : list revent) : list event :=
  match es with
  | [] => []
  | RO e :: es' => e :: shared_events es'
  | RP _ _ :: es' => shared_events es'
  end.
Fixpoint proxy_ops (es : list revent) : list pop :=
  match es with
  | [] => []
  | RO _ :: es' => proxy_ops es'
  | RP o _ :: es' => o :: proxy_ops es'
  end.
Fixpoint proxy_results (es : list revent) : list pres :=
  match es with
  | [] => []
  | RO _ :: es' => proxy_results es'
  | RP _ r :: es' => r :: proxy_results es'
  end.

(** What the clients of the proxies are entitled to expect (Proxy.v). *)
Definition proxies_spec (es : list revent) : list (option (list (option sbuf))) :=
  sp_prox (pspecs (proxy_ops es) (proxy_results es) (mkSp [] [])).
