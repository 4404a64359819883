(** Concrete schedules, used by the examples beside the theorems about
    concurrent runs. *)
From Verif Require Import Base Alloc Arena BlinkAlloc History Setup Concrete Conc ConcFacts ConcSteps ConcProps.

Definition cevents (su : setup) (n : nat) (sched : list choice) : list event :=
  match crun su sched (cstart su n) with ORet es _ => es | _ => [] end.
Definition cfinal (su : setup) (n : nat) (sched : list choice) : gst :=
  match crun su sched (cstart su n) with ORet _ g => g | _ => cstart su n end.

Lemma cfinal_reached su n sched : setup_ok su ->
  crun su sched (cstart su n) = ORet (cevents su n sched) (cfinal su n sched).
Proof.
  intros Hok. destruct (crun_total su Hok n sched) as (es & g & E & _).
  unfold cevents, cfinal. rewrite E. reflexivity.
Qed.

Definition cs0 : setup := demo megabytes.
Definition La (s a : Z) : Layout := mkLayout s a.
Definition times (n : nat) (t : nat) : list choice := repeat (Go t false) n.

(** Thread 0 creates the first chunk and allocates 16 bytes in it; then threads
    1 and 2 both load the cursor, 1 moves it first, 2 has to try again. *)
Definition race : list choice :=
  Start 0 (OpAlloc (La 16 8) false) :: times 5 0 ++
  [Start 1 (OpAlloc (La 24 8) false); Start 2 (OpAlloc (La 8 8) false);
   Go 1 false; Go 2 false; Go 1 false; Go 2 false].
Definition race_won : list choice := race ++ [Go 1 false].
Definition race_lost : list choice := race_won ++ [Go 2 false].
Definition race_done : list choice := race_lost ++ [Go 2 true; Go 2 false; Go 2 false; Go 1 false].

(** Thread 0 writes into its block; then it is moved by thread 1 (resized with
    copying, byte by byte) while thread 2 allocates. *)
Definition moving : list choice :=
  race_done ++ [Start 0 (OpWrite 0 0 [Byte 5; Byte 6])].
Definition moved : list choice :=
  [Start 1 (OpResize 0 (La 16 8) (La 40 8)); Start 2 (OpAlloc (La 8 8) false)] ++
  flat_map (fun _ => [Go 1 false; Go 2 false]) (repeat tt 5) ++ times 20 1.

(** Thread 2 loads an old value of the cursor, from before thread 0 allocated. *)
Definition old_load : list choice :=
  Start 0 (OpAlloc (La 16 8) false) :: times 5 0 ++
  [Start 2 (OpAlloc (La 8 8) false); Go 2 false; Stale 2 1048608].
Definition old_retry : list choice := old_load ++ [Go 2 false].
Definition old_done : list choice := old_retry ++ times 2 2.

(** Thread 0 calls [reset_unchecked] while thread 1 is in a call of [allocate]. *)
Definition reset_mid : list choice :=
  race_done ++ [Start 1 (OpAlloc (La 24 8) false); Start 0 (OpReset true)] ++ times 5 1.
