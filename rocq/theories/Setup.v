(** A [BlinkAlloc] (or, used by one thread, a [SyncBlinkAlloc]) over the
    adversarial bottom allocator, and the states its clients can reach. *)
From Verif Require Import Base Alloc Arena BlinkAlloc History.

Record setup := mkSetup {
  su_dbg : bool;         (* debug assertions and overflow checks compiled in *)
  su_amax : Z;           (* highest address the platform hands out *)
  su_smax : Z;           (* largest request of the client (size rounded up to the alignment) *)
  su_bmax : Z;           (* largest request the bottom allocator accepts; more is UB *)
  su_min : Z;            (* the configured chunk size *)
  su_strat : strategy    (* how the bottom allocator answers *)
}.

(** Release builds: every configuration.  Debug builds: a non-zero chunk size
    and no sums beyond what the bottom allocator accepts (otherwise debug
    assertions can fire, see C18 and C19). *)
Definition setup_ok (su : setup) : Prop :=
  honest (su_amax su) (su_strat su) /\
  0 <= su_amax su <= USIZE_MAX /\ su_amax su <= su_bmax su /\
  su_smax su <= USIZE_MAX /\ su_bmax su <= USIZE_MAX /\
  0 <= su_min su <= USIZE_MAX /\
  ((su_dbg su = false /\ su_bmax su = USIZE_MAX) \/
   (1 <= su_min su /\ Z.max (su_amax su) (su_min su) + su_smax su + 2 ^ 15 <= su_bmax su)).

Section Setup.
  Variable su : setup.

  Definition bot : Allocator bworld := base (su_bmax su) (su_strat su).
  Definition ba : Allocator (AW (W := bworld)) := blink bot (su_dbg su).

  (** src/local.rs 244-260, src/sync.rs 298-314: [reset], [reset_final]. *)
  Definition do_reset (keep_last : bool) : M (AW (W := bworld)) unit :=
    if keep_last then blink_reset bot else blink_reset_final bot.

  (** A new allocator (src/local.rs 137-172, src/sync.rs 150-181), nothing allocated. *)
  Definition start : cst (AW (W := bworld)) :=
    mkCst [] (arena_with_chunk_size (su_min su), bworld0).

  Definition do_run (ops : list op) := run (su_smax su) ba do_reset ops.
  Definition do_step (o : op) := step (su_smax su) ba do_reset o.

  (** The client ends up in [st] after the history [ops]. *)
  Definition reached (ops : list op) (st : cst (AW (W := bworld))) : Prop :=
    exists rs, do_run ops start = ORet rs st.
End Setup.

(** What can be observed about a state: the calls made to the bottom allocator,
    the chunks currently held from it (most recent first), the memory. *)
Definition calls (st : cst (AW (W := bworld))) : list uevent := bw_trace (snd (c_w st)).
Definition held (st : cst (AW (W := bworld))) : list ublock := outstanding (calls st).
Definition memory (st : cst (AW (W := bworld))) : mem := bw_mem (snd (c_w st)).

(** Size of a chunk's header (four words), not available to clients. *)
Definition HEADER : Z := 32.

(** Block [u] lies in the part of chunk [k] behind the header. *)
Definition inside (u k : ublock) : Prop :=
  u_ptr k + HEADER <= u_ptr u /\ u_ptr u + u_len u <= u_ptr k + u_len k.

(** [o] is a legal request for a block of layout [l] in state [st]: an
    allocation with a valid layout, or a resize of a block the client owns. *)
Definition requests (su : setup) (st : cst (AW (W := bworld))) (o : op) (l : Layout) : Prop :=
  match o with
  | OpAlloc l' _ => l' = l /\ req_ok (su_smax su) l
  | OpResize h old new =>
      new = l /\ req_ok (su_smax su) l /\ exists u, get h (c_tab st) = Some u /\ fits old u
  | OpGrowZeroed h old new =>
      new = l /\ req_ok (su_smax su) l /\ l_size old <= l_size new /\
      exists u, get h (c_tab st) = Some u /\ fits old u
  | _ => False
  end.

(** Bytes an operation can need in a chunk: the size plus the worst-case
    padding for its alignment. *)
Definition need (o : op) : Z :=
  match o with
  | OpAlloc l _ | OpResize _ _ l | OpGrowZeroed _ _ l => Z.max 0 (l_size l + (l_align l - 1))
  | _ => 0
  end.
Definition total_need (ops : list op) : Z := fold_right (fun o n => need o + n) 0 ops.

Definition is_reset (o : op) : bool := match o with OpReset _ => true | _ => false end.
(** Operations that neither allocate nor free chunks: writes and deallocations. *)
Definition is_passive (o : op) : bool :=
  match o with OpWrite _ _ _ | OpDealloc _ _ => true | _ => false end.

(** What the documentation says about the size of a new chunk: it must hold the
    request; when chunks are held already, it grows with what has been allocated
    before them. *)
Definition capacity (ks : list ublock) : Z := fold_right (fun k n => (u_len k - HEADER) + n) 0 ks.
Definition wanted (min : Z) (ks : list ublock) (l : Layout) : Z :=
  HEADER + (if 8 <? l_align l then l_align l else 0) +
  match ks with
  | [] => Z.max min (l_size l)
  | _ :: older => Z.max min (capacity older) + Z.max (l_size l) 64
  end.
(** [s] is [n] rounded up: to a power of two below 16 KB, to a multiple of 16 KB
    above (to a multiple of 8 when that overflows). *)
Definition rounded (n s : Z) : Prop :=
  n <= s /\
  ((n < 2 ^ 14 /\ is_pow2 s = true /\ s < 2 * n) \/
   (2 ^ 14 <= n /\ s mod 2 ^ 14 = 0 /\ s < n + 2 ^ 14) \/
   (USIZE_MAX < n + 2 ^ 14 /\ s mod 8 = 0 /\ s < n + 8)).
