(** Property C55: one [SyncBlinkAlloc] used by any number of threads never causes a data race.

    Vocabulary (Race.v): [ctrace su sched (cstart su n) = ORet tr g] - [n] threads follow the
    schedule [sched], as for C24-C26, and [tr] lists what they access (atomically or not) and
    what orders them: the operations of the lock, and clients handing over blocks and the
    right to reset.  Accesses of the cursor order nothing (as if all were [Relaxed]).
    [race_free tr]: of two conflicting accesses the first happens before the second. *)
From Verif Require Import Base Alloc Arena BlinkAlloc History Setup SetupFacts SetupProps Concrete
  Conc ConcFacts ConcSteps ConcProps ConcDemo Race RaceFacts RaceSteps RaceFoot RaceGrow RaceDemo.

(** ** C55 No data races *)
Theorem C55_no_data_race : forall su n sched tr g,
  setup_ok su -> ctrace su sched (cstart su n) = ORet tr g -> race_free tr.
Proof. exact (fun su n sched tr g Hok => no_race su Hok n sched tr g). Qed.
Print Assumptions C55_no_data_race.

(** Every run has such a trace. *)
Theorem C55_runs_are_traced : forall su n sched es g,
  crun su sched (cstart su n) = ORet es g -> exists tr, ctrace su sched (cstart su n) = ORet tr g.
Proof. exact (fun su n sched es g => ctrace_runs su sched (cstart su n) es g). Qed.
Print Assumptions C55_runs_are_traced.

(** The trace is complete.  Memory changes only where it says that something is written ... *)
Theorem C55_writes_are_traced : forall su n sched es g c es' g' x,
  setup_ok su -> crun su sched (cstart su n) = ORet es g -> cstep su c g = ORet es' g' ->
  (forall a, In a (acts c g es' g') -> ~ writes x a) -> cmem g' x = cmem g x.
Proof. exact (fun su n sched es g c es' g' x Hok => cstep_covered su Hok n sched es g c es' g' x). Qed.
Print Assumptions C55_writes_are_traced.

(** ... and a step of a thread does the same in every state that differs only elsewhere. *)
Theorem C55_reads_are_traced : forall su n sched es g c es' g' h,
  setup_ok su -> crun su sched (cstart su n) = ORet es g ->
  match c with Go _ _ | Stale _ _ => True | _ => False end -> cstep su c g = ORet es' g' ->
  galike (fun x => exists a, In a (acts c g es' g') /\ touches x a) g h ->
  exists h', cstep su c h = ORet es' h' /\
    galike (fun x => exists a, In a (acts c g es' g') /\ touches x a) g' h'.
Proof. exact (fun su n sched es g c es' g' h Hok => cstep_reads su Hok n sched es g c es' g' h). Qed.
Print Assumptions C55_reads_are_traced.

(** Without a reset cursors only grow, so that a [Relaxed] load cannot see less than the start
    of the chunk or more than the newest value (these are the values of [Stale]). *)
Theorem C55_cursors_only_grow : forall su n sched es g sched2 es2 g2 u v,
  setup_ok su -> crun su sched (cstart su n) = ORet es g ->
  Forall no_reset sched2 -> crun su sched2 g = ORet es2 g2 -> cursor_is g u v ->
  exists v2, cursor_is g2 u v2 /\ v <= v2.
Proof.
  exact (fun su n sched es g sched2 es2 g2 u v Hok H =>
           crun_grows su Hok sched2 g _ es2 g2 u v (creached_inv su Hok n sched es g H)).
Qed.
Print Assumptions C55_cursors_only_grow.

(** Thread 0 creates a chunk, writing its header; thread 1 reads it.  The lock is what orders
    them: without it, or if only the read lock was taken to create the chunk, it is a race. *)
Example C55_case :
  (exists g, ctrace cs0 race_done (cstart cs0 3) = ORet (ctr cs0 3 race_done) g) /\
  nth_error (ctr cs0 3 race_done) 5 = Some (Acc 0 (Bytes 1048576 512) NaWrite) /\
  nth_error (ctr cs0 3 race_done) 14 = Some (Acc 1 (Bytes 1048584 8) NaRead) /\
  conflict (Acc 0 (Bytes 1048576 512) NaWrite) (Acc 1 (Bytes 1048584 8) NaRead) = true /\
  ~ race_free (unlocked (ctr cs0 3 race_done)) /\ ~ race_free (read_only (ctr cs0 3 race_done)).
Proof.
  split; [apply ctr_reached, demo_ok|]. split; [vm_compute; reflexivity|]. split; [vm_compute; reflexivity|].
  split; [reflexivity|]. split.
  - apply (unordered_races _ 2 8 (Acc 0 (Bytes 1048576 512) NaWrite) (Acc 1 (Bytes 1048584 8) NaRead));
      [lia|vm_compute; reflexivity..].
  - apply (unordered_races _ 5 14 (Acc 0 (Bytes 1048576 512) NaWrite) (Acc 1 (Bytes 1048584 8) NaRead));
      [lia|vm_compute; reflexivity..].
Qed.

(** Thread 0 writes to a block that thread 1 then moves; the client has to order the two. *)
Example C55_case_moved :
  nth_error (ctr cs0 3 (moving ++ moved)) 27 = Some (Acc 0 (Bytes 1048608 2) NaWrite) /\
  nth_error (ctr cs0 3 (moving ++ moved)) 46 = Some (Acc 1 (Bytes 1048608 1) NaRead) /\
  conflict (Acc 0 (Bytes 1048608 2) NaWrite) (Acc 1 (Bytes 1048608 1) NaRead) = true /\
  ~ race_free (unowned (ctr cs0 3 (moving ++ moved))).
Proof.
  split; [vm_compute; reflexivity|]. split; [vm_compute; reflexivity|]. split; [reflexivity|].
  apply (unordered_races _ 23 39 (Acc 0 (Bytes 1048608 2) NaWrite) (Acc 1 (Bytes 1048608 1) NaRead));
      [lia|vm_compute; reflexivity..].
Qed.

(** [reset_unchecked] by thread 0 between two uses of the chunk by thread 1. *)
Example C55_case_reset :
  nth_error (ctr cs0 3 reset_mid) 15 = Some (Acc 1 (Bytes 1048576 8) Atomic) /\
  nth_error (ctr cs0 3 reset_mid) 31 = Some (Acc 0 (Bytes 1048576 512) NaWrite) /\
  nth_error (ctr cs0 3 reset_mid) 35 = Some (Acc 1 (Bytes 1048576 8) Atomic) /\
  ~ race_free (unlocked (ctr cs0 3 reset_mid)).
Proof.
  split; [vm_compute; reflexivity|]. split; [vm_compute; reflexivity|]. split; [vm_compute; reflexivity|].
  apply (unordered_races _ 22 24 (Acc 0 (Bytes 1048576 512) NaWrite) (Acc 1 (Bytes 1048576 8) Atomic)); [lia|vm_compute; reflexivity..].
Qed.

(** The cursor of the chunk before and after thread 1 allocates. *)
Example C55_case_cursor :
  cursor_is (cfinal cs0 3 race) (mkU 1048576 512 (La 512 8)) 1048624 /\
  cursor_is (cfinal cs0 3 race_done) (mkU 1048576 512 (La 512 8)) 1048656.
Proof. split; (split; [vm_compute; auto|vm_compute; reflexivity]). Qed.
