(** Properties C27-C30, C49, C60, C61, C67: [BlinkAllocCache], used by any number of threads.

    Vocabulary (Cache.v, CacheProps.v): [qrun vmax sched (qstart n) = ORet es q] -
    on an empty cache, [n] threads follow the schedule [sched], ending in state
    [q], and [es] records the calls ([QCall]), the moments at which they take
    effect ([QLin]) and the returns ([QRet]).  The cached allocators are values of
    any type [X].  [queue_of q] - what is inside: the part of [pop_array] from
    index [next_pop] on.  [vmax] - how long a [Vec] can get.

    [push_calls es], [pop_returns es] - the values given to [push] and returned by
    [pop]; [pushed es], [popped es] - the same in the order of taking effect. *)
From Verif Require Import Base Alloc Arena BlinkAlloc History Setup SetupFacts Concrete
  Conc Cache CacheFacts CacheProps CacheDemo CacheLive CacheSlots CacheSlotsDemo.
Require Import Permutation.

(** ** C27 The cache neither duplicates nor loses allocators *)

(** No schedule leads to undefined behaviour; only a vector that cannot grow panics. *)
Theorem C27_no_schedule_goes_wrong : forall X vmax n sched,
  0 <= vmax <= ISIZE_MAX -> Z.of_nat n <= 2 ^ 63 ->
  (exists es q, qrun vmax sched (qstart (X := X) n) = ORet es q) \/
  (exists q, qrun vmax sched (qstart (X := X) n) = OPanic q /\ zlen (q_pop q) = vmax).
Proof. exact (fun X vmax n sched Hv Hn => qrun_returns vmax Hv n Hn sched). Qed.
Print Assumptions C27_no_schedule_goes_wrong.

(** Everything given to [push] was returned by a [pop], or is with a call that is
    still running, or is inside. *)
Theorem C27_conservation : forall X vmax n sched es (q : qst X),
  0 <= vmax <= ISIZE_MAX -> Z.of_nat n <= 2 ^ 63 -> qrun vmax sched (qstart n) = ORet es q ->
  Permutation (push_calls es)
    (pop_returns es ++ flat_map (fun p => carried (qphase_of (q_pop q) p)) (q_thr q) ++ queue_of q).
Proof. exact (fun X vmax n sched es q Hv Hn => conservation vmax Hv n Hn sched es q). Qed.
Print Assumptions C27_conservation.

Theorem C27_conservation_when_idle : forall X vmax n sched es (q : qst X),
  0 <= vmax <= ISIZE_MAX -> Z.of_nat n <= 2 ^ 63 -> qrun vmax sched (qstart n) = ORet es q ->
  Forall (fun p => p = QIdle) (q_thr q) ->
  Permutation (push_calls es) (pop_returns es ++ queue_of q).
Proof. exact (fun X vmax n sched es q Hv Hn => conservation_idle vmax Hv n Hn sched es q). Qed.
Print Assumptions C27_conservation_when_idle.

Theorem C27_never_twice : forall X vmax n sched es (q : qst X),
  0 <= vmax <= ISIZE_MAX -> Z.of_nat n <= 2 ^ 63 -> qrun vmax sched (qstart n) = ORet es q ->
  NoDup (push_calls es) -> NoDup (pop_returns es ++ queue_of q).
Proof. exact (fun X vmax n sched es q Hv Hn => never_twice vmax Hv n Hn sched es q). Qed.
Print Assumptions C27_never_twice.

(** Three values; threads 1 and 2 pop at the same time while thread 0 pushes the third. *)
Example C27_case :
  qrun 100 busy (qstart 3) = ORet (fst busy_end) (snd busy_end) /\
  push_calls (fst busy_end) = [10; 20; 30] /\ pop_returns (fst busy_end) = [10; 20] /\
  queue_of (snd busy_end) = [30] /\ q_thr (snd busy_end) = [QUnlock true None; QIdle; QIdle].
Proof. vm_compute. auto. Qed.

(** ** C28 The cache is a FIFO queue *)

(** Used by one thread, it answers as a queue does. *)
Theorem C28_sequential : forall X vmax (ops : list (cop X)),
  0 <= vmax <= ISIZE_MAX -> pushes ops <= vmax -> exists es q,
  qrun vmax (solo_ops ops) (qstart 1) = ORet es q /\ all_returns es = queue_results ops [].
Proof. exact (fun X vmax ops Hv => sequential vmax Hv ops). Qed.
Print Assumptions C28_sequential.

Example C28_case_sequential :
  queue_results [CPop; CPush 1; CPush 2; CPop; CPush 3; CPop; CPop; CPop] [] =
  [None; None; None; Some 1; None; Some 2; Some 3; None].
Proof. reflexivity. Qed.

(** Used by many, values leave in the order in which they came. *)
Theorem C28_concurrent_order : forall X vmax n sched es (q : qst X),
  0 <= vmax <= ISIZE_MAX -> Z.of_nat n <= 2 ^ 63 -> qrun vmax sched (qstart n) = ORet es q ->
  pushed es = popped es ++ queue_of q.
Proof. exact (fun X vmax n sched es q Hv Hn => fifo vmax Hv n Hn sched es q). Qed.
Print Assumptions C28_concurrent_order.

(** A [pop] fails only if the cache is empty. *)
Theorem C28_none_only_if_empty : forall X vmax n sched es (q : qst X) es1 t es2,
  0 <= vmax <= ISIZE_MAX -> Z.of_nat n <= 2 ^ 63 -> qrun vmax sched (qstart n) = ORet es q ->
  es = es1 ++ QLin t CPop None :: es2 -> pushed es1 = popped es1.
Proof. exact (fun X vmax n sched es q es1 t es2 Hv Hn => none_empty vmax Hv n Hn sched es q es1 t es2). Qed.
Print Assumptions C28_none_only_if_empty.

(** Calls take effect between their start and their return, with the result that
    they return. *)
Theorem C28_effect_within_call : forall X vmax n sched es (q : qst X) t,
  0 <= vmax <= ISIZE_MAX -> Z.of_nat n <= 2 ^ 63 -> qrun vmax sched (qstart n) = ORet es q ->
  exists ph, qfollows t XIdle es ph.
Proof. exact (fun X vmax n sched es q t Hv Hn => life vmax Hv n Hn sched es q t). Qed.
Print Assumptions C28_effect_within_call.

Example C28_case :
  pushed (fst busy_end) = [10; 20; 30] /\ popped (fst busy_end) = [10; 20] /\
  fst busy_end =
    [QCall 0 (CPush 10); QLin 0 (CPush 10) None; QRet 0 None;
     QCall 0 (CPush 20); QLin 0 (CPush 20) None; QRet 0 None;
     QCall 1 CPop; QCall 2 CPop; QLin 2 CPop (Some 10);
     QCall 0 (CPush 30); QLin 1 CPop (Some 20); QRet 2 (Some 10); QRet 1 (Some 20); QLin 0 (CPush 30) None].
Proof. vm_compute. auto. Qed.

(** ** C29 Dropping the cache frees cached allocators: it does not *)

(** A [BlinkAlloc] that holds a chunk is pushed into the cache, the cache is
    dropped: the chunk was not returned to the underlying allocator.  Dropping
    the [BlinkAlloc] itself would have returned it. *)
Theorem C29_cached_memory_freed_refuted : exists su ops st a w es q w',
  setup_ok su /\ reached su ops st /\ c_w st = (a, w) /\
  qrun ISIZE_MAX (solo_ops [CPush a]) (qstart 1) = ORet es q /\ queue_of q = [a] /\
  drop_cache q w = ORet tt w' /\ outstanding (bw_trace w') <> [] /\
  match blink_drop (bot su) (su_dbg su) (a, w) with
  | ORet _ aw => outstanding (bw_trace (snd aw)) = []
  | _ => False
  end.
Proof. exact cached_memory_leaks. Qed.
Print Assumptions C29_cached_memory_freed_refuted.

(** Nothing is ever returned, whatever the cache contains. *)
Theorem C29_never_freed : forall X W (q : qst X) (w : W), drop_cache q w = ORet tt w.
Proof. exact (fun X W => drop_cache_nothing). Qed.
Print Assumptions C29_never_freed.

(** ** C30 The counters never wrap *)
Theorem C30_counter_bound : forall X vmax n sched es (q : qst X),
  0 <= vmax <= ISIZE_MAX -> Z.of_nat n <= 2 ^ 63 -> qrun vmax sched (qstart n) = ORet es q ->
  0 <= q_next_pop q <= ISIZE_MAX + Z.of_nat n /\ q_next_push q = 0.
Proof. exact (fun X vmax n sched es q Hv Hn => counter_bound vmax Hv n Hn sched es q). Qed.
Print Assumptions C30_counter_bound.

(** Whenever a thread is about to increment the counter, the result fits. *)
Theorem C30_increment_fits : forall X vmax n sched es (q : qst X) t,
  0 <= vmax <= ISIZE_MAX -> Z.of_nat n <= 2 ^ 63 -> qrun vmax sched (qstart n) = ORet es q ->
  nth_error (q_thr q) t = Some PopFetch -> q_next_pop q + 1 <= USIZE_MAX.
Proof. exact (fun X vmax n sched es q t Hv Hn => fetch_no_wrap vmax Hv n Hn sched es q t). Qed.
Print Assumptions C30_increment_fits.

(** An exhausted cache stays exhausted until something is pushed, however many
    pops are attempted. *)
Theorem C30_exhausted_stays_exhausted : forall X vmax n sched es (q : qst X) sched' es' q',
  0 <= vmax <= ISIZE_MAX -> Z.of_nat n <= 2 ^ 63 -> qrun vmax sched (qstart n) = ORet es q ->
  zlen (q_pop q) <= q_next_pop q -> qrun vmax sched' q = ORet es' q' -> pushed es' = [] ->
  zlen (q_pop q') <= q_next_pop q' /\ popped es' = [].
Proof. exact (fun X vmax n sched es q sched' es' q' Hv Hn => exhausted_stays vmax Hv n Hn sched es q sched' es' q'). Qed.
Print Assumptions C30_exhausted_stays_exhausted.

Example C30_case : exists es es' q',
  qrun 100 spent (qstart 1) = ORet es spent_end /\ zlen (q_pop spent_end) = 1 /\ q_next_pop spent_end = 3 /\
  qrun 100 (solo_ops [CPop]) spent_end = ORet es' q' /\ pushed es' = [] /\ all_returns es' = [None].
Proof. eexists _, _, _. vm_compute. auto 10. Qed.

(** With a counter at [isize::MAX] (after that many pops), the next pop puts it back. *)
Example C30_case_guard : exists es q',
  qrun 100 (solo_ops [CPop]) (mkQ [7] ISIZE_MAX [] 0 (mkLock [] None) [QIdle]) = ORet es q' /\
  q_next_pop q' = 1 /\ all_returns es = [None].
Proof. eexists _, _. vm_compute. auto. Qed.

(** ** C49 The array for concurrent pushes is never used *)
(** [push_array] stays empty, so no call of [push] ever stores under the shared
    lock and no call of [pop] ever takes the exclusive one. *)
Theorem C49_push_array_unused : forall X vmax n sched es (q : qst X),
  0 <= vmax <= ISIZE_MAX -> Z.of_nat n <= 2 ^ 63 -> qrun vmax sched (qstart n) = ORet es q ->
  q_push q = [] /\ q_next_push q = 0 /\
  forall t p, nth_error (q_thr q) t = Some p -> in_dead_code p = false.
Proof. exact (fun X vmax n sched es q Hv Hn => dead_code vmax Hv n Hn sched es q). Qed.
Print Assumptions C49_push_array_unused.

Example C49_case :
  qrun 100 busy (qstart 3) = ORet (fst busy_end) (snd busy_end) /\
  pushed (fst busy_end) = [10; 20; 30] /\ q_push (snd busy_end) = [] /\ queue_of (snd busy_end) = [30].
Proof. vm_compute. auto. Qed.

(** ** C60 Calls of the cache finish *)
(** [pushing p] - a call of [push] that has not taken effect yet; [only_go] - no
    new call is started.  Wherever a schedule stops, the threads can finish all
    calls that are running, as long as the vector has room for what is being
    pushed (otherwise [Vec::push] panics, C27). *)
Theorem C60_calls_finish : forall X vmax n sched es (q : qst X),
  0 <= vmax <= ISIZE_MAX -> Z.of_nat n <= 2 ^ 63 -> qrun vmax sched (qstart n) = ORet es q ->
  zlen (q_pop q) + cnt pushing (q_thr q) <= vmax ->
  exists sched' es' q', Forall only_go sched' /\ qrun vmax sched' q = ORet es' q' /\ Forall (fun p => p = QIdle) (q_thr q').
Proof. exact (fun X vmax n sched es q Hv Hn => calls_finish vmax Hv n Hn sched es q). Qed.
Print Assumptions C60_calls_finish.

(** [steps_left p] - at most 9 - falls with every step of a thread that is inside a
    call, unless the thread waits for the lock; and then some other thread is
    inside a call and does not wait. *)
Theorem C60_waits_for_another : forall X vmax n sched es (q : qst X) t p es' q',
  0 <= vmax <= ISIZE_MAX -> Z.of_nat n <= 2 ^ 63 -> qrun vmax sched (qstart n) = ORet es q ->
  nth_error (q_thr q) t = Some p -> p <> QIdle -> qstep vmax (QGo t) q = ORet es' q' ->
  (exists p', nth_error (q_thr q') t = Some p' /\ (steps_left p' < steps_left p)%nat) \/
  (q' = q /\ exists t' p', t' <> t /\ nth_error (q_thr q) t' = Some p' /\ wants_lock p' = false /\ p' <> QIdle).
Proof. exact (fun X vmax n sched es q t p es' q' Hv Hn => waits_for_holder vmax Hv n Hn sched es q t p es' q'). Qed.
Print Assumptions C60_waits_for_another.

(** Thread 0 waits for the lock that threads 1 and 2 have as readers. *)
Example C60_case :
  qrun 100 (firstn 23 busy) (qstart 3) = ORet (fst busy_mid) (snd busy_mid) /\
  q_thr (snd busy_mid) = [PushWrite 30; PopTake 1; PopTake 0] /\
  zlen (q_pop (snd busy_mid)) + cnt pushing (q_thr (snd busy_mid)) = 3 /\
  qstep 100 (QGo 0) (snd busy_mid) = ORet [] (snd busy_mid).
Proof. vm_compute. auto. Qed.

(** ** C61 No two threads access the same slot *)
(** [slot_of q p] - the slot of [pop_array] out of which a thread at [p] takes a
    value with its next step; [qrd p], [qwr p] - it has the shared, the exclusive
    lock.  Accesses of the arrays themselves (growing, replacing, swapping) are
    made with the exclusive lock. *)
Theorem C61_no_conflict : forall X vmax n sched es (q : qst X) t t' p p',
  0 <= vmax <= ISIZE_MAX -> Z.of_nat n <= 2 ^ 63 -> qrun vmax sched (qstart n) = ORet es q ->
  t <> t' -> nth_error (q_thr q) t = Some p -> nth_error (q_thr q) t' = Some p' ->
  (qwr p = true -> qrd p' = false /\ qwr p' = false) /\ (forall i, slot_of q p = Some i -> slot_of q p' <> Some i).
Proof. exact (fun X vmax n sched es q t t' p p' Hv Hn => no_conflict vmax Hv n Hn sched es q t t' p p'). Qed.
Print Assumptions C61_no_conflict.

Example C61_case :
  nth_error (q_thr (snd busy_mid)) 1 = Some (PopTake 1) /\ nth_error (q_thr (snd busy_mid)) 2 = Some (PopTake 0) /\
  slot_of (snd busy_mid) (PopTake 1) = Some 1 /\ slot_of (snd busy_mid) (PopTake 0) = Some 0.
Proof. vm_compute. auto. Qed.

(** ** C67 Free slots for concurrent pushes would be used safely *)
(** [qstart_slots k n] - as [qstart n], but [push_array] has [k] slots (none of the
    code creates any, C49); [inside q] - what is in the initialised slots of
    [push_array] and in [pop_array] from index [next_pop] on.

    No slot is read before it is initialised (that would be undefined), under no
    schedule; only a vector that cannot grow panics. *)
Theorem C67_no_schedule_goes_wrong : forall X vmax k n sched,
  0 <= vmax /\ vmax + Z.of_nat k <= ISIZE_MAX -> Z.of_nat n <= 2 ^ 63 ->
  (exists es q, qrun vmax sched (qstart_slots (X := X) k n) = ORet es q) \/
  (exists q, qrun vmax sched (qstart_slots (X := X) k n) = OPanic q /\ vmax <= zlen (q_pop q)).
Proof. exact (fun X vmax k n sched Hv Hn => slots_returns vmax k Hv n Hn sched). Qed.
Print Assumptions C67_no_schedule_goes_wrong.

Theorem C67_conservation : forall X vmax k n sched es (q : qst X),
  0 <= vmax /\ vmax + Z.of_nat k <= ISIZE_MAX -> Z.of_nat n <= 2 ^ 63 ->
  qrun vmax sched (qstart_slots k n) = ORet es q ->
  Permutation (push_calls es)
    (pop_returns es ++ flat_map (fun p => carried (qphase_of (q_pop q) p)) (q_thr q) ++ inside q).
Proof. exact (fun X vmax k n sched es q Hv Hn => slots_conservation vmax k Hv n Hn sched es q). Qed.
Print Assumptions C67_conservation.

Theorem C67_none_only_if_empty : forall X vmax k n sched es (q : qst X) es1 t es2,
  0 <= vmax /\ vmax + Z.of_nat k <= ISIZE_MAX -> Z.of_nat n <= 2 ^ 63 ->
  qrun vmax sched (qstart_slots k n) = ORet es q ->
  es = es1 ++ QLin t CPop None :: es2 -> Permutation (pushed es1) (popped es1).
Proof. exact (fun X vmax k n sched es q es1 t es2 Hv Hn => slots_none_empty vmax k Hv n Hn sched es q es1 t es2). Qed.
Print Assumptions C67_none_only_if_empty.

Theorem C67_effect_within_call : forall X vmax k n sched es (q : qst X) t,
  0 <= vmax /\ vmax + Z.of_nat k <= ISIZE_MAX -> Z.of_nat n <= 2 ^ 63 ->
  qrun vmax sched (qstart_slots k n) = ORet es q -> exists ph, qfollows t XIdle es ph.
Proof. exact (fun X vmax k n sched es q t Hv Hn => slots_life vmax k Hv n Hn sched es q t). Qed.
Print Assumptions C67_effect_within_call.

(** Neither counter wraps: [ISIZE_MAX + n] fits. *)
Theorem C67_counter_bound : forall X vmax k n sched es (q : qst X),
  0 <= vmax /\ vmax + Z.of_nat k <= ISIZE_MAX -> Z.of_nat n <= 2 ^ 63 ->
  qrun vmax sched (qstart_slots k n) = ORet es q ->
  0 <= q_next_pop q <= ISIZE_MAX + Z.of_nat n /\ 0 <= q_next_push q <= ISIZE_MAX + Z.of_nat n.
Proof. exact (fun X vmax k n sched es q Hv Hn => slots_counters vmax k Hv n Hn sched es q). Qed.
Print Assumptions C67_counter_bound.

(** [pop_slot q p], [push_slot q p] - the slots that a thread at [p] takes from or
    stores into with its next step. *)
Theorem C67_no_conflict : forall X vmax k n sched es (q : qst X) t t' p p',
  0 <= vmax /\ vmax + Z.of_nat k <= ISIZE_MAX -> Z.of_nat n <= 2 ^ 63 ->
  qrun vmax sched (qstart_slots k n) = ORet es q ->
  t <> t' -> nth_error (q_thr q) t = Some p -> nth_error (q_thr q) t' = Some p' ->
  (qwr p = true -> qrd p' = false /\ qwr p' = false) /\
  (forall i, pop_slot q p = Some i -> pop_slot q p' <> Some i) /\
  (forall i, push_slot q p = Some i -> push_slot q p' <> Some i).
Proof. exact (fun X vmax k n sched es q t t' p p' Hv Hn => slots_no_conflict vmax k Hv n Hn sched es q t t' p p'). Qed.
Print Assumptions C67_no_conflict.

(** Threads 0 and 1 push at the same time; thread 2, which has seen that something is
    being pushed, waits for them and pops. *)
Example C67_case :
  qrun 100 slots_busy (qstart_slots 2 3) = ORet (fst slots_end) (snd slots_end) /\
  q_thr (snd slots_mid) = [PushPut 10 0; PushPut 20 1; QIdle] /\
  push_slot (snd slots_mid) (PushPut 10 0) = Some 0 /\ push_slot (snd slots_mid) (PushPut 20 1) = Some 1 /\
  push_calls (fst slots_end) = [10; 20] /\ pop_returns (fst slots_end) = [20] /\ inside (snd slots_end) = [10].
Proof. vm_compute. auto 10. Qed.

(** But with slots, the cache would not be a FIFO queue any more (compare C28):
    the value pushed last is popped first. *)
Theorem C67_fifo_refuted : exists es (q : qst Z),
  qrun 100 (solo_ops [CPush 10; CPush 20; CPop]) (qstart_slots 2 1) = ORet es q /\
  all_returns es = [None; None; Some 20] /\ inside q = [10] /\
  all_returns es <> queue_results [CPush 10; CPush 20; CPop] [].
Proof. exact slots_not_fifo. Qed.
Print Assumptions C67_fifo_refuted.
