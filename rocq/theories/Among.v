(** An allocator that others use at the same time (C69).

    A [Blink] can hold a reference to an allocator ([Blink::new_in(&alloc)]; api.rs 46-52
    implements [BlinkAllocator] for references to [BlinkAlloc] (local.rs 368), [SyncBlinkAlloc]
    (sync.rs 434) and [LocalBlinkAlloc] (sync.rs 645)): others - closures that run in the middle
    of an operation, other [Blink]s, other threads - allocate from it, too.  Here everybody else
    acts before and after every call that the [Blink] makes to the allocator.

    Simplification: a call of one user is not interleaved with a call of another.  For a
    [BlinkAlloc], which is not [Sync], that is so; for a [SyncBlinkAlloc] C24 shows that any
    interleaving of calls leaves each user with exclusive blocks, which is all that is used;
    in Threaded.v (C73) the calls are interleaved step by step. *)
From Verif Require Import Base Alloc History BlinkInv BlinkIter BlinkEnv.

(** The allocator in use: the blocks of the others with the state of the allocator, what the
    others have done so far with the lengths they got, and what they are going to do at the
    next calls. *)
Record nst (W : Type) := mkN {
  n_cst : cst W;
  n_ops : list op;
  n_res : list (option Z);
  n_todo : list (list op)
}.
Arguments mkN {W}. Arguments n_cst {W}. Arguments n_ops {W}. Arguments n_res {W}. Arguments n_todo {W}.

(** Nobody can reset an allocator that is borrowed ([reset] takes [&mut self]: local.rs 244,
    sync.rs 298). *)
Definition not_reset (o : op) : bool := match o with OpReset _ => false | _ => true end.

Section Noisy.
  Context {W : Type}.
  Variable smax : Z.
  Variable A : Allocator W.

  (** The others' turn. *)
  Definition noise : M (nst W) unit :=
    fun n =>
      match n_todo n with
      | [] => ORet tt n
      | ops :: rest =>
          let ops := filter not_reset ops in
          match run smax A (fun _ => ret tt) ops (n_cst n) with
          | ORet rs c => ORet tt (mkN c (n_ops n ++ ops) (n_res n ++ map (option_map b_len) rs) rest)
          | OPanic c => OPanic (mkN c (n_ops n) (n_res n) rest)
          | OAbort => OAbort
          | OUB => OUB
          end
      end.

  (** A call to the allocator itself. *)
  Definition inner {B} (m : M W B) : M (nst W) B :=
    fun n =>
      let back w := mkN (mkCst (c_tab (n_cst n)) w) (n_ops n) (n_res n) (n_todo n) in
      match m (c_w (n_cst n)) with
      | ORet b w => ORet b (back w)
      | OPanic w => OPanic (back w)
      | OAbort => OAbort
      | OUB => OUB
      end.
  Definition amid {B} (m : M W B) : M (nst W) B := noise ;;; b <- inner m ;; noise ;;; ret b.

  Definition noisy : Allocator (nst W) :=
    mkAllocator _
      (fun n => al_mem A (c_w (n_cst n)))
      (fun n m => mkN (mkCst (c_tab (n_cst n)) (al_set_mem A (c_w (n_cst n)) m)) (n_ops n) (n_res n) (n_todo n))
      (fun l => amid (al_allocate A l))
      (fun p l => amid (al_deallocate A p l))
      (fun p old new => amid (al_grow A p old new))
      (fun p old new => amid (al_shrink A p old new)).

  (** What the others are entitled to find in their blocks (History.v). *)
  Definition n_bufs (n : nst W) : list (option sbuf) := srun (n_ops n) (n_res n) [].
  Definition others_fine (n : nst W) : Prop :=
    agrees (al_mem A (c_w (n_cst n))) (c_tab (n_cst n)) (n_bufs n).
End Noisy.

(** The blocks of the others. *)
Definition n_blocks {W} (n : nst W) : list ublock := HistoryFacts.live (c_tab (n_cst n)).

(** [us] are allocated by those whose view this is, apart from the blocks of the others. *)
Definition nown {W} (A : Allocator W) (own : W -> list ublock -> Prop) (n : nst W) (us : list ublock) : Prop :=
  own (c_w (n_cst n)) (us ++ n_blocks n) /\ others_fine A n /\ length (n_ops n) = length (n_res n).

(** The same environment with others at work. *)
Definition among (E : env) : env :=
  mkEnv (nst (e_W E)) (noisy (e_smax E) (e_A E)) (nown (e_A E) (e_own E)) (amid (e_smax E) (e_A E) (e_reset E))
    (e_amax E) (e_smax E) (e_dbg E) (e_bomb E) (e_exact E) (e_shared E).

(** The others have nothing yet; [todo] is what they are going to do. *)
Definition joined {W} (w : W) (todo : list (list op)) : nst W := mkN (mkCst [] w) [] [] todo.
