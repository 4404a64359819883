(** Any number of [Blink]s on one allocator (C70).

    Each holds a shared reference to it ([Blink::new_in(&alloc)], blink.rs 160-170, api.rs 46-52);
    they come and go, and their operations interleave in any order.  What the closures and
    iterators of an operation do to other [Blink]s on the same allocator while it is under way
    is not here but in Among.v. *)
From Verif Require Import Base Alloc History HistoryFacts Blink BlinkInv BlinkEnv.

(** A [Blink] apart from the allocator. *)
Definition seat {W} (w : W) (b : bl unit) : bl W := mkBl w (bl_root b) (bl_tab b) (bl_log b).
Definition unseat {W} (s : bl W) : bl unit := mkBl tt (bl_root s) (bl_tab s) (bl_log s).

(** The state of the allocator and the [Blink]s there have been; the flag tells whether it is
    still there. *)
Record crowd (W : Type) := mkCrowd { cr_w : W; cr_all : list (bool * bl unit) }.
Arguments mkCrowd {W}. Arguments cr_w {W}. Arguments cr_all {W}.

Inductive cact :=
| CNew                       (* [Blink::new_in(&alloc)] *)
| COp (k : nat) (o : bop)    (* an operation on one of them, panics are caught *)
| CDrop (k : nat).           (* dropping one: [Drop for Blink], blink.rs 202-207 *)

Section Crowd.
  Variable E : env.

  Definition crowd_op (k : nat) (stays : bool) (o : bop) : M (crowd (e_W E)) unit :=
    fun c =>
      match nth_error (cr_all c) k with
      | Some (true, b) =>
          match erun E [o] (seat (cr_w c) b) with
          | ORet _ s => ORet tt (mkCrowd (bl_w s) (set_nth k (stays, unseat s) (cr_all c)))
          | OPanic s => OPanic (mkCrowd (bl_w s) (set_nth k (stays, unseat s) (cr_all c)))
          | OAbort => OAbort
          | OUB => OUB
          end
      | _ => ORet tt c
      end.

  Definition crowd_step (a : cact) : M (crowd (e_W E)) unit :=
    match a with
    | CNew => fun c => ORet tt (mkCrowd (cr_w c) (cr_all c ++ [(true, unseat (bl_new (cr_w c)))]))
    | COp k o => crowd_op k true o
    | CDrop k => crowd_op k false BDropAll
    end.

  Fixpoint crowd_run (xs : list cact) : M (crowd (e_W E)) unit :=
    match xs with
    | [] => ret tt
    | a :: xs' => crowd_step a ;;; crowd_run xs'
    end.

  Definition crowd_sound (a : cact) : bool := match a with COp _ o => sound (e_exact E) o | _ => true end.

  (** In the beginning there is only the allocator; others own the blocks [fr]. *)
  Definition gathers (fr : list ublock) (w : e_W E) (xs : list cact) (c : crowd (e_W E)) : Prop :=
    ready E fr w /\ e_shared E = true /\ forallb crowd_sound xs = true /\ crowd_run xs (mkCrowd w []) = ORet tt c.

  (** The [k]-th one as if it were alone. *)
  Definition seen (c : crowd (e_W E)) (k : nat) : option (bl (e_W E)) :=
    match nth_error (cr_all c) k with Some (_, b) => Some (seat (cr_w c) b) | None => None end.
  Definition still_there (c : crowd (e_W E)) (k : nat) : bool :=
    match nth_error (cr_all c) k with Some (f, _) => f | None => false end.
End Crowd.
