(** Properties C57 and C58: the [GlobalBlinkAlloc] used by any number of threads.

    Vocabulary (GConc.v): [mrun su sched (mstart su n) = ORet es m] - [n] threads call alloc,
    alloc_zeroed, dealloc, realloc and reset and write to their blocks, as the schedule
    [sched] says; between any two of their steps somebody else may use the underlying
    allocator; the modes are switched while no thread is in a call.  [g_tab (m_g m)] - the
    blocks obtained in blink mode; [o_tab (m_o m)] - those obtained in direct mode, and those of
    other users of the underlying allocator; [mmem m] - the memory; [all_ready m] - no thread is
    in a call; [m_lost m] - how many live blocks were invalidated by resets. *)
From Verif Require Import Base Alloc Arena BlinkAlloc History Setup SetupFacts SetupProps Concrete
  Conc ConcFacts ConcSteps ConcProps ConcDemo Shared SharedFacts SharedProps GConc GConcFacts GConcProps GConcLive.

(** ** C57 The global allocator is safe under every schedule *)
Theorem C57_no_schedule_goes_wrong : forall su n sched,
  setup_ok su -> exists es m, mrun su sched (mstart su n) = ORet es m.
Proof. exact (fun su n sched Hok => mrun_returns su Hok n sched). Qed.
Print Assumptions C57_no_schedule_goes_wrong.

Theorem C57_blink_blocks : forall su n sched es m h u,
  setup_ok su -> mrun su sched (mstart su n) = ORet es m -> get h (g_tab (m_g m)) = Some u ->
  0 < u_ptr u /\ u_ptr u mod l_align (u_layout u) = 0 /\ l_size (u_layout u) <= u_len u /\
  u_ptr u + u_len u <= su_amax su /\
  exists k, In k (oheld (m_o m)) /\ inside u k /\
    forall h' v, get h' (o_tab (m_o m)) = Some v ->
      forall x, u_ptr k <= x < u_ptr k + u_len k -> ~ u_ptr v <= x < u_ptr v + u_len v.
Proof.
  exact (fun su n sched es m h u Hok E => oinv_block su Hok (m_o m) _ _ (mreached_o su Hok n sched es m E) h u).
Qed.
Print Assumptions C57_blink_blocks.

Theorem C57_direct_blocks : forall su n sched es m h u,
  setup_ok su -> mrun su sched (mstart su n) = ORet es m -> get h (o_tab (m_o m)) = Some u ->
  0 < u_ptr u /\ u_ptr u mod l_align (u_layout u) = 0 /\ l_size (u_layout u) <= u_len u /\
  u_ptr u + u_len u <= su_amax su /\ In u (oheld (m_o m)).
Proof.
  exact (fun su n sched es m h u Hok E => oinv_their_block su Hok (m_o m) _ _ (mreached_o su Hok n sched es m E) h u).
Qed.
Print Assumptions C57_direct_blocks.

Theorem C57_all_disjoint : forall su n sched es m,
  setup_ok su -> mrun su sched (mstart su n) = ORet es m ->
  (forall h1 h2 u1 u2, h1 <> h2 -> get h1 (g_tab (m_g m)) = Some u1 -> get h2 (g_tab (m_g m)) = Some u2 ->
    forall x, u_ptr u1 <= x < u_ptr u1 + u_len u1 -> ~ u_ptr u2 <= x < u_ptr u2 + u_len u2) /\
  (forall h1 h2 u1 u2, h1 <> h2 -> get h1 (o_tab (m_o m)) = Some u1 -> get h2 (o_tab (m_o m)) = Some u2 ->
    forall x, u_ptr u1 <= x < u_ptr u1 + u_len u1 -> ~ u_ptr u2 <= x < u_ptr u2 + u_len u2) /\
  (forall h1 h2 u1 u2, get h1 (g_tab (m_g m)) = Some u1 -> get h2 (o_tab (m_o m)) = Some u2 ->
    forall x, u_ptr u1 <= x < u_ptr u1 + u_len u1 -> ~ u_ptr u2 <= x < u_ptr u2 + u_len u2).
Proof. exact (fun su n sched es m Hok E => oinv_disjoint su Hok (m_o m) _ _ (mreached_o su Hok n sched es m E)). Qed.
Print Assumptions C57_all_disjoint.

Theorem C57_upstream_calls_legal : forall su n sched es m,
  setup_ok su -> mrun su sched (mstart su n) = ORet es m ->
  legal (su_bmax su) (bw_trace (snd (g_aw (m_g m)))).
Proof. exact (fun su n sched es m Hok E => oinv_legal su (m_o m) _ _ (mreached_o su Hok n sched es m E)). Qed.
Print Assumptions C57_upstream_calls_legal.

(** The memory is what the operations, in the order in which they took effect, make of
    independent buffers. *)
Theorem C57_blink_contents : forall su n sched es m,
  setup_ok su -> mrun su sched (mstart su n) = ORet es m ->
  agrees (mmem m) (g_tab (m_g m))
    (srun (lin_ops (our_events (inner_events es)))
          (map (option_map b_len) (lin_results (our_events (inner_events es)))) []).
Proof. exact (fun su n sched es m Hok => mreached_blink su Hok n sched es m). Qed.
Print Assumptions C57_blink_contents.

Theorem C57_direct_contents : forall su n sched es m,
  setup_ok su -> mrun su sched (mstart su n) = ORet es m ->
  agrees (mmem m) (o_tab (m_o m))
    (srun (their_ops (inner_events es)) (map (option_map b_len) (their_results (inner_events es))) []).
Proof. exact (fun su n sched es m Hok => mreached_direct su Hok n sched es m). Qed.
Print Assumptions C57_direct_contents.

(** When alloc ([z = false]) or alloc_zeroed ([z = true]) returns block [h] to thread [t], the
    block is live, nobody else is working on it, and it is filled with zeros if asked for -
    although it was zeroed after the lock had been released. *)
Theorem C57_returned_block : forall su n sched es m c es' m' t h z,
  setup_ok su -> mrun su sched (mstart su n) = ORet es m -> mstep su c m = ORet es' m' -> In (Got t h z) es' ->
  exists u, get h (g_tab (m_g m')) = Some u /\
    (forall t' p, t' <> t -> nth_error (g_thr (m_g m')) t' = Some p -> pc_handle p <> Some h) /\
    (z = true -> forall i, 0 <= i < u_len u -> mmem m' (u_ptr u + i) = Byte 0).
Proof. exact (fun su n sched es m c es' m' t h z Hok => got_block su Hok n sched es m c es' m' t h z). Qed.
Print Assumptions C57_returned_block.

(** No deadlock: wherever a schedule stops, the threads can finish all calls, including
    resets ([only_steps]: steps of threads that are in calls). *)
Theorem C57_calls_finish : forall su n sched es m,
  setup_ok su -> mrun su sched (mstart su n) = ORet es m ->
  exists sched2 es2 m2, Forall only_steps sched2 /\ mrun su sched2 m = ORet es2 m2 /\ all_ready m2 = true.
Proof. exact (fun su n sched es m Hok => all_finish su Hok n sched es m). Qed.
Print Assumptions C57_calls_finish.

(** Thread 0 is about to reset while thread 1 holds the exclusive lock. *)
Example C57_case_busy : setup_ok cs0 /\
  mrun cs0 gbusy (mstart cs0 2) = ORet (mevents cs0 2 gbusy) (mfinal cs0 2 gbusy) /\
  m_post (mfinal cs0 2 gbusy) = [PReset; PAlloc true] /\
  g_thr (m_g (mfinal cs0 2 gbusy)) = [Idle; Slow (JAlloc (La 16 8))].
Proof.
  split; [apply demo_ok|]. split; [apply mfinal_reached, demo_ok|]. split; vm_compute; reflexivity.
Qed.

(** A direct block, two racing allocations in blink mode (one zeroed), a move and a
    deallocation at the same time. *)
Example C57_case : setup_ok cs0 /\
  mrun cs0 gmixed (mstart cs0 2) = ORet (mevents cs0 2 gmixed) (mfinal cs0 2 gmixed) /\
  g_tab (m_g (mfinal cs0 2 gmixed)) = [Some (mkU 3145784 64 (La 64 8)); None] /\
  o_tab (m_o (mfinal cs0 2 gmixed)) = [Some (mkU 1048576 40 (La 40 8))] /\
  map (mmem (mfinal cs0 2 gmixed)) [3145784; 3145785; 3145786; 1048577; 1048578] =
    [Byte 5; Byte 6; Undef; Byte 0; Byte 9] /\
  In (Got 1 1 true) (mevents cs0 2 gmixed) /\ m_count (mfinal cs0 2 gmixed) = 1.
Proof.
  split; [apply demo_ok|]. split; [apply mfinal_reached, demo_ok|]. vm_compute. auto 40.
Qed.

(** ** C58 The leak check of debug builds *)

(** The counter is right whenever no thread is in a call ... *)
Theorem C58_counter : forall su n sched es m,
  setup_ok su -> mrun su sched (mstart su n) = ORet es m -> su_dbg su = true -> all_ready m = true ->
  m_count m = (nlive (g_tab (m_g m)) + m_lost m) mod 2 ^ 64.
Proof. exact (fun su n sched es m Hok => counter su Hok n sched es m). Qed.
Print Assumptions C58_counter.

(** ... and then, unless blocks were lost before, reset and direct_mode panic exactly if there
    is a block that was not given back.

    The full claim - for every reached state [m], also if other threads are in calls - is
    false, see below. *)
Theorem C58_check_partial : forall su n sched es m t p,
  setup_ok su -> mrun su sched (mstart su n) = ORet es m -> su_dbg su = true -> all_ready m = true ->
  m_lost m = 0 -> nth_error (g_thr (m_g m)) t = Some p ->
  (mstep su (MReset t) m = ORet [Panicked] m <-> exists h u, get h (g_tab (m_g m)) = Some u) /\
  (mstep su MDirect m = ORet [Panicked] m <-> exists h u, get h (g_tab (m_g m)) = Some u).
Proof. exact (fun su n sched es m t p Hok => reset_exact su Hok n sched es m t p). Qed.
Print Assumptions C58_check_partial.

(** Resets that no other call overlaps lose nothing. *)
Theorem C58_calm_resets : forall su n sched es m t es' m',
  setup_ok su -> mrun su sched (mstart su n) = ORet es m -> su_dbg su = true -> all_ready m = true -> m_lost m = 0 ->
  mrun su [MReset t; MNext t] m = ORet es' m' \/ mrun su [MDirect] m = ORet es' m' -> m_lost m' = 0.
Proof. exact (fun su n sched es m t es' m' Hok => calm_reset su Hok n sched es m t es' m'). Qed.
Print Assumptions C58_calm_resets.

Example C58_case : let m := mfinal cs0 2 gmixed in
  setup_ok cs0 /\ su_dbg cs0 = true /\ all_ready m = true /\ m_lost m = 0 /\ leak_check cs0 m = true /\
  let m' := mfinal cs0 2 (gmixed ++ whole 1 (MDealloc 1 0)) in
  all_ready m' = true /\ m_lost m' = 0 /\ m_count m' = 0 /\ leak_check cs0 m' = false.
Proof. split; [apply demo_ok|]. vm_compute. auto 20. Qed.

(** Thread 0 checks, thread 1 allocates, thread 0 resets: no panic, but the block of
    thread 1 is gone.  From then on there is always one block too many on the count, and every
    reset panics although nothing is left to be given back. *)
Theorem C58_refuted : exists su sched es m,
  setup_ok su /\ su_dbg su = true /\ mrun su sched (mstart su 2) = ORet es m /\
  ~ In Panicked es /\ In (Got 1 0 false) es /\ lin_ops (our_events (inner_events es)) = [OpAlloc (La 16 8) false; OpReset true] /\
  all_ready m = true /\ live_blocks m = [] /\ mstep su (MReset 0) m = ORet [Panicked] m.
Proof. exact check_misses. Qed.
Print Assumptions C58_refuted.

(** Every block has been given back, but thread 1 has not counted that yet: reset panics. *)
Theorem C58_spurious_refuted : exists su sched es m,
  setup_ok su /\ su_dbg su = true /\ mrun su sched (mstart su 2) = ORet es m /\ m_lost m = 0 /\
  live_blocks m = [] /\ g_thr (m_g m) = [Idle; Idle] /\ mstep su (MReset 0) m = ORet [Panicked] m.
Proof. exact check_panics. Qed.
Print Assumptions C58_spurious_refuted.
