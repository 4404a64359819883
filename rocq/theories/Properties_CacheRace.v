(** Property C68: one [BlinkAllocCache] used by any number of threads never causes a data race.

    Vocabulary (Race.v, CacheRace.v): [qtrace vmax sched (qstart n) = ORet tr q] - [n] threads
    follow the schedule [sched], as for C27-C30, and [tr] lists what they access (atomically or
    not) and the operations of the lock.  The places: the two vectors (pointer, capacity,
    length), the two counters, every slot of both vectors.  Taking a value out of a slot counts
    as a write.  Accesses of the counters order nothing (as if all were [Relaxed]).
    [race_free tr]: of two conflicting accesses the first happens before the second. *)
From Verif Require Import Base History Conc Cache CacheFacts CacheProps CacheDemo CacheSlots CacheSlotsDemo
  Race RaceFacts RaceDemo CacheRace CacheRaceDemo.

(** ** C68 No data races *)

(** Every run has a trace, and it is free of races: also of those between the thread that
    stores an allocator and the one that takes it out. *)
Theorem C68_no_data_race : forall X vmax n sched es (q : qst X),
  0 <= vmax <= ISIZE_MAX -> Z.of_nat n <= 2 ^ 63 ->
  qrun vmax sched (qstart n) = ORet es q ->
  exists tr, qtrace vmax sched (qstart n) = ORet tr q /\ race_free tr.
Proof.
  exact (fun X vmax n sched es q Hv Hn =>
           slots_traced vmax 0 (conj (proj1 Hv) (eq_ind_r (fun z => z <= ISIZE_MAX) (proj2 Hv) (Z.add_0_r vmax))) n Hn sched es q).
Qed.
Print Assumptions C68_no_data_race.

(** Neither with slots for concurrent pushes (C67). *)
Theorem C68_no_data_race_with_slots : forall X vmax k n sched es (q : qst X),
  0 <= vmax /\ vmax + Z.of_nat k <= ISIZE_MAX -> Z.of_nat n <= 2 ^ 63 ->
  qrun vmax sched (qstart_slots k n) = ORet es q ->
  exists tr, qtrace vmax sched (qstart_slots k n) = ORet tr q /\ race_free tr.
Proof. exact (fun X vmax k n sched es q Hv Hn => slots_traced vmax k Hv n Hn sched es q). Qed.
Print Assumptions C68_no_data_race_with_slots.

(** The trace is complete.  A step changes only what its actions write ... *)
Theorem C68_writes_are_traced : forall X vmax k n sched es (q : qst X) c es' q' x,
  0 <= vmax /\ vmax + Z.of_nat k <= ISIZE_MAX -> Z.of_nat n <= 2 ^ 63 ->
  qrun vmax sched (qstart_slots k n) = ORet es q -> qstep vmax c q = ORet es' q' ->
  (forall a, In a (qacts c q q') -> ~ writes_at a x) -> same_at q q' x.
Proof. exact (fun X vmax k n sched es q c es' q' x Hv Hn => slots_writes vmax k Hv n Hn sched es q c es' q' x). Qed.
Print Assumptions C68_writes_are_traced.

(** ... and does the same in every state with the same lock and threads that agrees on what
    its actions access. *)
Theorem C68_reads_are_traced : forall X vmax k n sched es (q : qst X) c es' q' h,
  0 <= vmax /\ vmax + Z.of_nat k <= ISIZE_MAX -> Z.of_nat n <= 2 ^ 63 ->
  qrun vmax sched (qstart_slots k n) = ORet es q -> qstep vmax c q = ORet es' q' ->
  agree (qacts c q q') q h ->
  exists es2 h', qstep vmax c h = ORet es2 h' /\ agree (qacts c q q') q' h'.
Proof. exact (fun X vmax k n sched es q c es' q' h Hv Hn => slots_reads vmax k Hv n Hn sched es q c es' q' h). Qed.
Print Assumptions C68_reads_are_traced.

(** Thread 0 pushes 10 - writing the vectors, the counters and the slots - and thread 1 takes it
    out of slot 0.  The lock is what orders them: without it, or if only the read lock was taken
    to flush and push, it is a race. *)
Example C68_case :
  qrun 100 hand_over (qstart 2) = ORet (fst hand_over_end) (snd hand_over_end) /\
  pop_returns (fst hand_over_end) = [10] /\
  nth_error (qtr 0 2 hand_over) 5 = Some (Acc 0 (Bytes (-2) 6) NaWrite) /\
  nth_error (qtr 0 2 hand_over) 12 = Some (Acc 1 (pop_place 0) NaWrite) /\
  conflict (Acc 0 (Bytes (-2) 6) NaWrite) (Acc 1 (pop_place 0) NaWrite) = true /\
  ~ race_free (unlocked (qtr 0 2 hand_over)) /\ ~ race_free (read_only (qtr 0 2 hand_over)).
Proof.
  split; [vm_compute; reflexivity|]. split; [vm_compute; reflexivity|]. split; [vm_compute; reflexivity|].
  split; [vm_compute; reflexivity|]. split; [vm_compute; reflexivity|]. split.
  - apply (unordered_races _ 2 7 (Acc 0 (Bytes (-2) 6) NaWrite) (Acc 1 (pop_place 0) NaWrite)); try (vm_compute; reflexivity). lia.
  - apply (unordered_races _ 5 12 (Acc 0 (Bytes (-2) 6) NaWrite) (Acc 1 (pop_place 0) NaWrite)); try (vm_compute; reflexivity). lia.
Qed.

(** With slots: thread 1 stores into slot 1 of [push_array], thread 2 takes it out. *)
Example C68_case_slots :
  nth_error (qtr 2 3 slots_busy) 10 = Some (Acc 1 (push_place 1) NaWrite) /\
  nth_error (qtr 2 3 slots_busy) 20 = Some (Acc 2 (Bytes (-2) 10) NaWrite) /\
  conflict (Acc 1 (push_place 1) NaWrite) (Acc 2 (Bytes (-2) 10) NaWrite) = true /\
  ~ race_free (unlocked (qtr 2 3 slots_busy)).
Proof.
  split; [vm_compute; reflexivity|]. split; [vm_compute; reflexivity|]. split; [vm_compute; reflexivity|].
  apply (unordered_races _ 7 13 (Acc 1 (push_place 1) NaWrite) (Acc 2 (Bytes (-2) 10) NaWrite)); try (vm_compute; reflexivity). lia.
Qed.

(** Thread 0 at line 77 accesses the counter and nothing else: in the state [h], where the slot
    contains something else, it does the same. *)
Example C68_case_traced :
  let q := mkQ [10] 0 [] 0 (mkLock [0%nat] None) [PopFetch] in
  let h := mkQ [11] 0 [] 0 (mkLock [0%nat] None) [PopFetch] in
  let q' := mkQ [10] 1 [] 0 (mkLock [0%nat] None) [PopTake 0] in
  let h' := mkQ [11] 1 [] 0 (mkLock [0%nat] None) [PopTake 0] in
  (exists es, qstep 100 (QGo 0) q = ORet es q') /\ (exists es, qstep 100 (QGo 0) h = ORet es h') /\
  qacts (QGo 0) q q' = [Acc 0 next_pop_place Atomic] /\ agree (qacts (QGo 0) q q') q h.
Proof.
  cbn zeta. split; [eexists; vm_compute; reflexivity|]. split; [eexists; vm_compute; reflexivity|]. split; [reflexivity|].
  split; [reflexivity|]. split; [reflexivity|]. intros a x [<-|[]] Hx. destruct x as [|x]; [contradiction|]. cbn in Hx.
  split; [reflexivity|]. split; [reflexivity|]. split; intros i; lia.
Qed.
