(** A shared allocator and its thread-local proxies on paper (C86).

    Nothing in this file is code of blink-alloc.  As in Paper.v there is no memory, no header
    and no pointer: chunks, the blocks of the clients, and the calls made to the underlying
    allocator.  A proxy keeps chunks of its own; what it calls for a new chunk is the shared
    allocator, and that call is again worked out with the arithmetic of Paper.v.

    The rules, from src/sync.rs:
    - [local] (221-226): the chunk size of a new proxy is the largest capacity recorded so far;
    - [reset] (542-546) and [drop] (461-465) of a proxy record the capacity of its newest chunk;
      [reset] keeps that chunk; the other chunks stay with the shared allocator until it is
      reset itself;
    - [reset_unchecked] (561-567) keeps the newest chunk too, and gives the others back one by
      one, which changes nothing for the shared allocator;
    - in a debug build there is no chunk of which the header takes everything
      (src/arena/mod.rs 188-193): the request panics. *)
From Verif Require Import Base Alloc History Arena BlinkAlloc Setup Proxy Paper.

Record pproxy := mkPP {
  pp_min : Z;                        (* its chunk size *)
  pp_chunks : list pchunk;           (* newest first *)
  pp_tab : list (option ublock)      (* the blocks of its client *)
}.

(** The chunks of the shared allocator, and the calls to the underlying allocator. *)
Definition books : Type := (list pchunk * list uevent)%type.

Record ppaper := mkShared {
  sh_max : Z;                        (* the largest capacity recorded *)
  sh_prox : list (option pproxy);    (* [None]: dropped *)
  sh_tab : list (option ublock);     (* blocks allocated from the shared allocator directly *)
  sh_books : books
}.

(** What a chunk has room for. *)
Definition p_room (ks : list pchunk) : Z := match ks with [] => 0 | k :: _ => p_end k - p_first k end.
(** The newest chunk, emptied. *)
Definition newest (ks : list pchunk) : list pchunk :=
  match ks with [] => [] | k :: _ => [mkP (p_at k) (p_len k) (p_first k)] end.

(** ** A BlinkAlloc over anything that sells and takes back blocks *)
Section Customer.
  Context {X : Type}.
  Variable sell : Layout -> X -> option block * X.     (* the answer to a request *)
  Variable give : Z -> Layout -> X -> X.               (* a block is given back *)

  (** To the BlinkAlloc this is the underlying allocator.  (An operation makes one request at
      most, so the calls made before do not matter.) *)
  Definition supplier (x : X) : strategy := mkStrategy (fun _ lay => fst (sell lay x)) (fun _ _ _ _ => None).
  (** Afterwards: these calls were made, the latest first. *)
  Fixpoint charged (x : X) (tr : list uevent) : X :=
    match tr with
    | [] => x
    | EvAlloc lay _ :: tr' => snd (sell lay (charged x tr'))
    | EvDealloc p lay :: tr' => give p lay (charged x tr')
    | _ :: tr' => charged x tr'
    end.

  Variable dbg : bool.
  Variable psmax : Z.                (* the largest request *)

  (** The first chunk is nothing but a header. *)
  Definition cramped (ks ks' : list pchunk) : bool :=
    dbg && match ks, ks' with [], k :: _ => p_len k <=? 32 | _, _ => false end.

  (** An operation of the client of a proxy. *)
  Definition use_pp (o : op) (p : pproxy) (x : X) : pres * pproxy * X :=
    let o := match o with OpReset _ => OpReset true | _ => o end in
    let '(r, q) := paper_step (pp_min p) psmax (supplier x) o (mkPaper (pp_chunks p) (pp_tab p) []) in
    if cramped (pp_chunks p) (p_chunks q)
    then (PPanicked, p, charged x (p_calls q))
    else (PBlock r, mkPP (pp_min p) (p_chunks q) (p_tab q), charged x (p_calls q)).
End Customer.

(** ** The shared allocator *)
Section Paper.
  Variable min : Z.                  (* the chunk size of the shared allocator *)
  Variable S : strategy.             (* the underlying allocator *)
  Variable dbg : bool.
  Variable smax psmax nmax : Z.      (* as in Proxy.v *)

  (** The shared allocator is asked for [lay].  Giving blocks back to it changes nothing. *)
  Definition sells (lay : Layout) (x : books) : option block * books :=
    let '(a, ks, tr) := take min S (fst x) lay (snd x) in
    (option_map (fun a => mkBlock a (l_size lay)) a, (ks, tr)).
  Definition keeps (p : Z) (lay : Layout) (x : books) : books := x.

  Definition pp_step (o : pop) (s : ppaper) : pres * ppaper :=
    match o with
    | PLocal => (PDone, mkShared (sh_max s) (sh_prox s ++ [Some (mkPP (sh_max s) [] [])]) (sh_tab s) (sh_books s))
    | PDrop k =>
        match get k (sh_prox s) with
        | Some p => (PDone, mkShared (Z.max (sh_max s) (p_room (pp_chunks p))) (set_nth k None (sh_prox s)) (sh_tab s) (sh_books s))
        | None => (PSkipped, s)
        end
    | PReset k =>
        match get k (sh_prox s) with
        | Some p =>
            (PDone, mkShared (Z.max (sh_max s) (p_room (pp_chunks p)))
                      (set_nth k (Some (mkPP (pp_min p) (newest (pp_chunks p)) (map (fun _ => None) (pp_tab p)))) (sh_prox s))
                      (sh_tab s) (sh_books s))
        | None => (PSkipped, s)
        end
    | PUpdate n =>
        if (0 <=? n) && (n <=? nmax) then (PDone, mkShared (Z.max (sh_max s) n) (sh_prox s) (sh_tab s) (sh_books s)) else (PSkipped, s)
    | PUse (Some k) o =>
        match get k (sh_prox s) with
        | Some p => let '(r, p', x) := use_pp sells keeps dbg psmax o p (sh_books s) in
                    (r, mkShared (sh_max s) (set_nth k (Some p') (sh_prox s)) (sh_tab s) x)
        | None => (PSkipped, s)
        end
    | PUse None o =>
        if match o with OpReset _ => forallb is_none (sh_prox s) | _ => true end
        then let '(r, q) := paper_step min smax S o (mkPaper (fst (sh_books s)) (sh_tab s) (snd (sh_books s))) in
             (PBlock r, mkShared (sh_max s) (sh_prox s) (p_tab q) (p_chunks q, p_calls q))
        else (PSkipped, s)
    end.
  Fixpoint pp_run (os : list pop) (s : ppaper) : list pres * ppaper :=
    match os with
    | [] => ([], s)
    | o :: os' => let '(r, s1) := pp_step o s in let '(rs, s2) := pp_run os' s1 in (r :: rs, s2)
    end.
End Paper.

(** No proxy, no block, no chunk. *)
Definition pp0 : ppaper := mkShared 0 [] [] ([], []).

(** ** How the paper shows in the state of the program *)

(** The chunks from [root] on: cursor, end and the address of the next older chunk (0: none) are
    the first three words of a header (src/arena/mod.rs 175-180). *)
Fixpoint headed (m : mem) (root : option Z) (ks : list pchunk) : Prop :=
  match root, ks with
  | None, [] => True
  | Some p, k :: ks' =>
      p = p_at k /\ in_memory m k /\
      exists older, load m (p + 16) 8 = Some older /\ headed m (if older =? 0 then None else Some older) ks'
  | _, _ => False
  end.

Definition drawn (m : mem) (p : option proxy) (q : option pproxy) : Prop :=
  match p, q with
  | Some p, Some q => ar_min (px_arena p) = pp_min q /\ px_tab p = pp_tab q /\ headed m (ar_root (px_arena p)) (pp_chunks q)
  | None, None => True
  | _, _ => False
  end.

(** A state of the shared allocator [ba su] (BlinkAlloc.v over the bottom allocator) and its
    proxies. *)
Definition pictured (s : pst (W := AW (W := bworld))) (q : ppaper) : Prop :=
  let w := snd (ps_w s) in
  ps_max s = sh_max q /\ ps_tab s = sh_tab q /\
  headed (bw_mem w) (ar_root (fst (ps_w s))) (fst (sh_books q)) /\ bw_trace w = snd (sh_books q) /\
  Forall2 (drawn (bw_mem w)) (ps_prox s) (sh_prox q).
