(** Any number of threads that use a shared allocator and its proxies, on paper (C92).

    Nothing in this file is code of blink-alloc.  The threads move in the shared allocator as in
    ConcPaper.v.  A proxy is what ProxyPaper.v makes of it: chunks, blocks, a chunk size.  An
    operation on a proxy that needs no chunk is one move.  If it needs one, the thread calls
    [allocate] of the shared allocator, and when that call has returned the operation is worked out
    with the answer; other threads move in between. *)
From Verif Require Import Base Alloc History Arena BlinkAlloc Setup Paper Conc ConcPaper GConcPaper Proxy ProxyPaper PConc.

Record rpaper := mkRP {
  rp_max : Z;                        (* the largest capacity recorded *)
  rp_prox : list (option pproxy);    (* [None]: dropped *)
  rp_chunk : list nat;               (* blocks of the shared allocator that were allocated by proxies *)
  rp_job : list rjob;                (* one for each thread *)
  rp_in : cpaper                     (* the shared allocator and the threads in it *)
}.

Inductive rmove :=
| NCall (t : nat) (o : op)           (* thread [t] calls the shared allocator *)
| NInside (t : nat) (m : cmove)      (* it makes a move there *)
| NReset (keep : bool)               (* reset or reset_final of the shared allocator, through [&mut] *)
| NLocal (v : Z)                     (* [local] finds [v] recorded *)
| NUse (t : nat) (k : nat) (o : op)  (* thread [t] begins an operation on proxy [k] *)
| NNext (t : nat)                    (* ... and goes on *)
| NReuse (k : nat)                   (* [reset] of proxy [k] *)
| NDrop (k : nat)
| NUpdate (n : Z).

(** What an operation on a proxy knows of the shared allocator: the answer to this request, and
    the request that was made. *)
Definition desk : Type := (option (Layout * option block) * option Layout)%type.
Definition reply (l : Layout) (x : desk) : option block * desk :=
  match fst x with
  | Some (l', r) => if layout_eqb l l' then (r, (None, Some l)) else (None, (fst x, Some l))
  | None => (None, (None, Some l))
  end.

Section Paper.
  Variable dbg : bool.               (* a debug build *)
  Variable min : Z.                  (* the chunk size of the shared allocator *)
  Variable smax psmax nmax : Z.      (* as in Proxy.v *)
  Variable S : strategy.             (* the underlying allocator *)

  (** Operation [o] on proxy [p], with this answer: the result, the proxy, the request. *)
  Definition pp_try (o : op) (p : pproxy) (ans : option (Layout * option block)) : pres * pproxy * option Layout :=
    let '(r, p', x) := use_pp reply (fun _ _ x => x) dbg psmax o p (ans, None) in (r, p', snd x).

  (** Not in a call. *)
  Definition rp_ready (t : nat) (q : rpaper) : bool :=
    match nth_error (cp_thr (rp_in q)) t, nth_error (rp_job q) t with Some DNone, Some RNone => true | _, _ => false end.
  Definition rp_busy (k : nat) (q : rpaper) : bool := existsb (works_on k) (rp_job q).
  Definition no_proxy (q : rpaper) : bool := forallb is_none (rp_prox q).

  Definition with_in (x : cpaper) (q : rpaper) : rpaper := mkRP (rp_max q) (rp_prox q) (rp_chunk q) (rp_job q) x.
  Definition with_job (t : nat) (j : rjob) (q : rpaper) : rpaper :=
    mkRP (rp_max q) (rp_prox q) (rp_chunk q) (set_nth t j (rp_job q)) (rp_in q).
  Definition with_prox (k : nat) (p : option pproxy) (q : rpaper) : rpaper :=
    mkRP (rp_max q) (set_nth k p (rp_prox q)) (rp_chunk q) (rp_job q) (rp_in q).
  Definition with_chunk (ch : list nat) (q : rpaper) : rpaper := mkRP (rp_max q) (rp_prox q) ch (rp_job q) (rp_in q).
  Definition with_max (n : Z) (q : rpaper) : rpaper := mkRP (Z.max (rp_max q) n) (rp_prox q) (rp_chunk q) (rp_job q) (rp_in q).

  (** A move in the shared allocator. *)
  Definition below (m : cmove) (q : rpaper) : option (list event * rpaper) :=
    match cp_step min smax S m (rp_in q) with
    | Some (es, x) => Some (es, with_in x q)
    | None => None
    end.

  Definition rp_step (m : rmove) (q : rpaper) : option (list revent * rpaper) :=
    match m with
    | NCall t o =>
        if rp_ready t q && negb (match op_handle o with Some h => existsb (Nat.eqb h) (rp_chunk q) | None => false end)
           && (negb (is_reset o) || no_proxy q) then
          match below (MCall t o) q with Some (es, q') => Some (map RO es, q') | None => None end
        else None
    | NInside t m =>
        match mover m, nth_error (rp_job q) t with
        | Some t', Some j =>
            if Nat.eqb t' t then
              match below m q with
              | Some (es, q') =>
                  let x := rafter (length (cp_tab (rp_in q))) es (j, rp_chunk q) in
                  Some (map RO es, with_chunk (snd x) (with_job t (fst x) q'))
              | None => None
              end
            else None
        | _, _ => None
        end
    | NReset keep =>
        if no_proxy q then
          match below (ConcPaper.MReset keep) q with Some (es, q') => Some (map RO es, q') | None => None end
        else None
    | NLocal v =>
        if (0 <=? v) && (v <=? rp_max q) then
          Some ([RP PLocal PDone], mkRP (rp_max q) (rp_prox q ++ [Some (mkPP v [] [])]) (rp_chunk q) (rp_job q) (rp_in q))
        else None
    | NUse t k o =>
        match get k (rp_prox q) with
        | Some p =>
            if rp_ready t q && negb (rp_busy k q) && negb (is_reset o) then
              match pp_try o p None with
              | (r, p', None) => Some ([RP (PUse (Some k) o) r], with_prox k (Some p') q)
              | (_, _, Some l) =>
                  match below (MCall t (OpAlloc l false)) q with
                  | Some (es, q') => Some (map RO es, with_job t (RWait k o l) q')
                  | None => None
                  end
              end
            else None
        | None => None
        end
    | NNext t =>
        match nth_error (cp_thr (rp_in q)) t, nth_error (rp_job q) t with
        | Some DNone, Some (RAns k o l h) =>
            match get k (rp_prox q) with
            | Some p =>
                let b := match h with Some h => option_map ublk (get h (cp_tab (rp_in q))) | None => None end in
                let '(r, p', _) := pp_try o p (Some (l, b)) in
                Some ([RP (PUse (Some k) o) r], with_prox k (Some p') (with_job t RNone q))
            | None => None
            end
        | _, _ => None
        end
    | NReuse k =>
        match get k (rp_prox q) with
        | Some p =>
            if rp_busy k q then None
            else Some ([RP (PReset k) PDone],
                       with_prox k (Some (mkPP (pp_min p) (newest (pp_chunks p)) (map (fun _ => None) (pp_tab p)))) (with_max (p_room (pp_chunks p)) q))
        | None => None
        end
    | NDrop k =>
        match get k (rp_prox q) with
        | Some p => if rp_busy k q then None else Some ([RP (PDrop k) PDone], with_prox k None (with_max (p_room (pp_chunks p)) q))
        | None => None
        end
    | NUpdate n => if (0 <=? n) && (n <=? nmax) then Some ([RP (PUpdate n) PDone], with_max n q) else None
    end.

  Fixpoint rp_run (ms : list rmove) (q : rpaper) : option (list revent * rpaper) :=
    match ms with
    | [] => Some ([], q)
    | m :: ms' =>
        match rp_step m q with
        | Some (es, q1) => match rp_run ms' q1 with Some (es', q2) => Some (es ++ es', q2) | None => None end
        | None => None
        end
    end.
End Paper.

(** [n] threads, a new allocator, no proxies. *)
Definition rp0 (n : nat) : rpaper := mkRP 0 [] [] (repeat RNone n) (cp0 n).

(** How the paper shows in the state of the program (PConc.v). *)
Definition rshows (s : rst) (q : rpaper) : Prop :=
  r_max s = rp_max q /\ r_chunk s = rp_chunk q /\ r_job s = rp_job q /\ cshows (r_g s) (rp_in q) /\
  Forall2 (drawn (bw_mem (snd (g_aw (r_g s))))) (r_prox s) (rp_prox q).
