(** Model of the thread-local proxies of src/sync.rs: [SyncBlinkAlloc::local] and
    [LocalBlinkAlloc].

    A proxy is an arena of its own ([ArenaLocal]) that takes its chunks from the shared
    [SyncBlinkAlloc].  The methods of [LocalBlinkAlloc] have the bodies of those of
    [BlinkAlloc] with the shared allocator as the underlying one, so [blink] (BlinkAlloc.v)
    over the shared allocator models them: [allocate] 476-483, [resize] 498-515,
    [deallocate] 529-535, [impl Allocator] 571-606 (and 608-650 for [&mut LocalBlinkAlloc]).

    Operations of different proxies and of the shared allocator are interleaved as a
    whole; the interleaving inside the shared allocator is modelled in Conc.v. *)
From Verif Require Import Base Alloc Arena BlinkAlloc History.

Section Proxy.
  Context {W : Type}.
  Variable A : Allocator W.                (* the shared allocator *)
  Variable dbg : bool.
  Variable reset : bool -> M W unit.       (* its [reset] ([true]) and [reset_final] ([false]) *)

  (** src/sync.rs 451-454 [LocalBlinkAlloc]: the arena; and the blocks its client owns. *)
  Record proxy := mkProxy { px_arena : Arena; px_tab : list (option ublock) }.

  (** The shared allocator ([ps_w], and the field [max_local_alloc] of src/sync.rs 100-104),
      the blocks allocated from it directly, and the proxies ([None]: dropped). *)
  Record pst := mkPst { ps_max : Z; ps_prox : list (option proxy); ps_tab : list (option ublock); ps_w : W }.

  (** Run [m] on the arena and the blocks of proxy [k], which must be alive. *)
  Definition put (k : nat) (s : pst) (c : cst (AW (W := W))) : pst :=
    mkPst (ps_max s) (set_nth k (Some (mkProxy (fst (c_w c)) (c_tab c))) (ps_prox s)) (ps_tab s) (snd (c_w c)).
  Definition on_proxy {B} (k : nat) (m : M (cst (AW (W := W))) B) : M pst B :=
    fun s => match get k (ps_prox s) with
             | None => OUB
             | Some p =>
                 match m (mkCst (px_tab p) (px_arena p, ps_w s)) with
                 | ORet b c => ORet b (put k s c)
                 | OPanic c => OPanic (put k s c)
                 | OAbort => OAbort
                 | OUB => OUB
                 end
             end.
  (** Run [m] on the shared allocator and the blocks allocated from it directly. *)
  Definition on_shared {B} (m : M (cst W) B) : M pst B :=
    fun s =>
      let back c := mkPst (ps_max s) (ps_prox s) (c_tab c) (c_w c) in
      match m (mkCst (ps_tab s) (ps_w s)) with
      | ORet b c => ORet b (back c)
      | OPanic c => OPanic (back c)
      | OAbort => OAbort
      | OUB => OUB
      end.

  (** src/sync.rs 221-226 [local]. *)
  Definition p_local : M pst unit :=
    fun s => ORet tt (mkPst (ps_max s)
      (ps_prox s ++ [Some (mkProxy (arena_with_chunk_size (ps_max s)) [])]) (ps_tab s) (ps_w s)).
  (** src/sync.rs 353-356 [update_max_local_alloc]. *)
  Definition p_update (n : Z) : M pst unit :=
    fun s => ORet tt (mkPst (Z.max (ps_max s) n) (ps_prox s) (ps_tab s) (ps_w s)).
  (** src/sync.rs 542-546 [LocalBlinkAlloc::reset].  The client's blocks are gone. *)
  Definition p_reset (k : nat) : M pst unit :=
    n <- on_proxy k (call (last_chunk_size A) (fun _ t => t)) ;;
    p_update n ;;;
    on_proxy k (call (arena_reset_leak A true) (fun _ => map (fun _ => None))).
  (** src/sync.rs 461-465 [Drop for LocalBlinkAlloc], then src/arena/local.rs 14-22 [Drop
      for ArenaLocal]. *)
  Definition p_drop (k : nat) : M pst unit :=
    n <- on_proxy k (call (last_chunk_size A) (fun _ t => t)) ;;
    p_update n ;;;
    on_proxy k (call (arena_reset_leak A false) (fun _ => map (fun _ => None))) ;;;
    on_proxy k (call (fun aw => debug_assert dbg (match ar_root (fst aw) with None => true | Some _ => false end) aw) (fun _ t => t)) ;;;
    fun s => ORet tt (mkPst (ps_max s) (set_nth k None (ps_prox s)) (ps_tab s) (ps_w s)).

  (** ** Clients *)

  (** [PUse None o]: an operation on the shared allocator itself.  Its [reset] and
      [reset_final] take [&mut self], so there is no live proxy then.
      [PUse (Some k) o]: an operation on proxy [k]; [OpReset] is [reset_unchecked] (src/sync.rs
      561-567), called when the client is done with the blocks.
      [PUpdate n]: [update_max_local_alloc] is public. *)
  Inductive pop :=
  | PLocal
  | PDrop (k : nat)
  | PReset (k : nat)
  | PUpdate (n : Z)
  | PUse (who : option nat) (o : op).
  (** Panics are caught by the client. *)
  Inductive pres := PDone | PBlock (r : option block) | PPanicked | PSkipped.

  Definition caught {B} (m : M pst B) (res : B -> pres) : M pst pres :=
    fun s => match m s with
             | ORet b s' => ORet (res b) s'
             | OPanic s' => ORet PPanicked s'
             | OAbort => OAbort
             | OUB => OUB
             end.
  Definition alive {T} (k : nat) (t : list (option T)) : bool := match get k t with Some _ => true | None => false end.
  Definition is_none {T} (x : option T) : bool := match x with None => true | Some _ => false end.

  (** [smax], [psmax]: the largest requests made to the shared allocator and to a proxy;
      [nmax]: the largest argument of [update_max_local_alloc]. *)
  Variable smax psmax nmax : Z.

  Definition pstep_at (o : pop) (t : list (option proxy)) : M pst pres :=
    match o with
    | PLocal => caught p_local (fun _ => PDone)
    | PDrop k => if alive k t then caught (p_drop k) (fun _ => PDone) else ret PSkipped
    | PReset k => if alive k t then caught (p_reset k) (fun _ => PDone) else ret PSkipped
    | PUpdate n => if (0 <=? n) && (n <=? nmax) then caught (p_update n) (fun _ => PDone) else ret PSkipped
    | PUse None o =>
        if match o with OpReset _ => forallb is_none t | _ => true end
        then caught (on_shared (step smax A reset o)) PBlock else ret PSkipped
    | PUse (Some k) o =>
        if alive k t
        then caught (on_proxy k (step psmax (blink A dbg) (fun _ => blink_reset A) o)) PBlock else ret PSkipped
    end.
  Definition pstep (o : pop) : M pst pres := fun s => pstep_at o (ps_prox s) s.

  Fixpoint prun (os : list pop) : M pst (list pres) :=
    match os with
    | [] => ret []
    | o :: os' => r <- pstep o ;; rs <- prun os' ;; ret (r :: rs)
    end.

  (** src/sync.rs 155-161, 175-181: [max_local_alloc] is 0 at first. *)
  Definition pstart (w : W) : pst := mkPst 0 [] [] w.
End Proxy.
Arguments mkPst {W} ps_max ps_prox ps_tab ps_w.
Arguments ps_max {W} p.
Arguments ps_prox {W} p.
Arguments ps_tab {W} p.
Arguments ps_w {W} p.

(** ** What the clients are entitled to expect: independent buffers *)

Record pspec := mkSp { sp_prox : list (option (list (option sbuf))); sp_tab : list (option sbuf) }.

(** Of the answer only success and the length of the block matter. *)
Definition pspec_step (o : pop) (r : pres) (s : pspec) : pspec :=
  match o, r with
  | PLocal, PDone => mkSp (sp_prox s ++ [Some []]) (sp_tab s)
  | PDrop k, PDone => mkSp (set_nth k None (sp_prox s)) (sp_tab s)
  | PReset k, PDone =>
      match get k (sp_prox s) with
      | Some t => mkSp (set_nth k (Some (map (fun _ => None) t)) (sp_prox s)) (sp_tab s)
      | None => s
      end
  | PUse None o, PBlock r => mkSp (sp_prox s) (sstep o (option_map b_len r) (sp_tab s))
  | PUse (Some k) o, PBlock r =>
      match get k (sp_prox s) with
      | Some t => mkSp (set_nth k (Some (sstep o (option_map b_len r) t)) (sp_prox s)) (sp_tab s)
      | None => s
      end
  | _, _ => s
  end.
Fixpoint pspecs (os : list pop) (rs : list pres) (s : pspec) : pspec :=
  match os, rs with
  | o :: os', r :: rs' => pspecs os' rs' (pspec_step o r s)
  | _, _ => s
  end.

(** The blocks behave as the buffers. *)
Definition pagree {W} (m : mem) (s : pst (W := W)) (b : pspec) : Prop :=
  agrees m (ps_tab s) (sp_tab b) /\
  Forall2 (fun p t => match p, t with
                      | Some p, Some t => agrees m (px_tab p) t
                      | None, None => True
                      | _, _ => False
                      end) (ps_prox s) (sp_prox b).

(** The client of [who] (the shared allocator, or a live proxy) owns [u] as its block [h]. *)
Definition owns {W} (s : pst (W := W)) (who : option nat) (h : nat) (u : ublock) : Prop :=
  match who with
  | None => get h (ps_tab s) = Some u
  | Some k => exists p, get k (ps_prox s) = Some p /\ get h (px_tab p) = Some u
  end.

(** The capacity of the last chunk of proxy [k], read from its header. *)
Definition last_capacity {W} (A : Allocator W) (s : pst (W := W)) (k : nat) : option Z :=
  match get k (ps_prox s) with
  | Some p =>
      match ar_root (px_arena p) with
      | Some r => match load (al_mem A (ps_w s)) (r + 8) 8 with Some e => Some (e - (r + 32)) | None => None end
      | None => None
      end
  | None => None
  end.
