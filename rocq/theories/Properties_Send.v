(** * C48, C54: moving a [Blink] between threads

    [relay E send progs s] - the programs [progs] are run one after the other, each by its own
    thread, on one [Blink]; after each program [send] passes the [Blink] on.  The result lists
    the events of each thread.  [as_is]: the [Blink] itself is moved, since it is marked
    [Send].  [send_blink]: it is moved inside a [SendBlink]. *)
From Verif Require Import Base BaseFacts Alloc AllocFacts Arena BlinkAlloc History HistoryFacts Setup SetupFacts Concrete
  Blink BlinkInv BlinkReset BlinkIter BlinkMain BlinkEnv BlinkLog BlinkYield BlinkProps BlinkFate BlinkDemo Send.

(** ** C48 Send markers *)

(** The full statement: whatever the threads do, none drops a value that is not its own -
    [Forall (fun d => forall i, drop_n i d <= new_n i d) evs] for every [relay E as_is].
    It fails: the second thread runs more destructors of a type than it put values in. *)
Theorem C48_refuted : exists E w progs evs s,
  env_ok E /\ ready E [] w /\ forallb (forallb (sound (e_exact E))) progs = true /\
  relay E as_is progs (bl_new w) = Some (evs, s) /\
  exists d i, In d evs /\ (new_n i d < drop_n i d)%nat.
Proof. exact send_marker_refuted. Qed.
Print Assumptions C48_refuted.
Example C48_refuted_case : seen (relay Eo as_is [[put dropper 5]; [BReset]] (bl_new w0)) =
  Some [[ENew true 2 [Some 5]]; [EReset; EDrop 2 5]].
Proof. vm_compute. reflexivity. Qed.

(** ** C54 [SendBlink] hands over an empty [Blink] *)

(** Every thread drops only values it put in itself: its destructors are those its own events
    call for, starting with no live value. *)
Theorem C54_own_values : forall E, env_ok E -> forall fr w progs evs s,
  ready E fr w -> forallb (forallb (sound (e_exact E))) progs = true ->
  relay E send_blink progs (bl_new w) = Some (evs, s) ->
  Forall (fun d => (exists n, drops_of d = snd (especs (e_bomb E) (repeat None n) d)) /\
    forall i, (drop_n i d <= new_n i d)%nat) evs.
Proof. exact send_blink_own. Qed.
Print Assumptions C54_own_values.

(** If no destructor panics, all of them are dropped before the [Blink] moves on. *)
Theorem C54_all_dropped : forall E, env_ok E -> forall fr w progs evs s,
  (forall id v, e_bomb E id v = false) ->
  ready E fr w -> forallb (forallb (sound (e_exact E))) progs = true ->
  relay E send_blink progs (bl_new w) = Some (evs, s) ->
  Forall (fun d => forall i, drop_n i d = new_n i d) evs.
Proof. exact send_blink_all. Qed.
Print Assumptions C54_all_dropped.
Example C54_case : env_ok Eo /\ ready Eo [] w0 /\ (forall id v, e_bomb Eo id v = false) /\
  seen (relay Eo send_blink [[put dropper 5]; [put dropper 6; put dropper 7]; [BReset]] (bl_new w0)) =
  Some [[ENew true 2 [Some 5]; EReset; EDrop 2 5];
        [ENew true 2 [Some 6]; ENew true 2 [Some 7]; EReset; EDrop 2 7; EDrop 2 6]; [EReset; EReset]].
Proof. split; [apply own_env_ok|]. split; [apply fresh_ready|]. split; [reflexivity|]. vm_compute. reflexivity. Qed.
