(** Property C56: a [SyncBlinkAlloc] used by any number of threads, over an underlying
    allocator that others use as well.

    Vocabulary (Shared.v): [orun su sched (ostart su n) = ORet es o] - [n] threads use the
    allocator as for C24-C26 ([Ours c]), and between any two of their steps somebody else may
    call the underlying allocator or write to blocks of it ([Theirs op]); the run ends in
    [o], and [es] is the record of what happened.  [g_tab (o_g o)] - the blocks of the
    allocator's clients; [o_tab o] - the blocks of the others; [omem o] - the memory;
    [oheld o] - what is outstanding at the underlying allocator. *)
From Verif Require Import Base Alloc Arena BlinkAlloc History Setup SetupFacts SetupProps Concrete
  Conc ConcFacts ConcSteps ConcProps ConcDrain ConcDemo Shared SharedFacts SharedProps.

(** ** C56 The arena coexists with other users of its underlying allocator *)
Theorem C56_no_schedule_goes_wrong : forall su n sched,
  setup_ok su -> exists es o, orun su sched (ostart su n) = ORet es o.
Proof. exact (fun su n sched Hok => orun_returns su Hok n sched). Qed.
Print Assumptions C56_no_schedule_goes_wrong.

(** A block of ours lies in memory outstanding at the underlying allocator in which no
    block of the others lies. *)
Theorem C56_our_blocks : forall su n sched es o h u,
  setup_ok su -> orun su sched (ostart su n) = ORet es o -> get h (g_tab (o_g o)) = Some u ->
  0 < u_ptr u /\ u_ptr u mod l_align (u_layout u) = 0 /\ l_size (u_layout u) <= u_len u /\
  u_ptr u + u_len u <= su_amax su /\
  exists k, In k (oheld o) /\ inside u k /\
    forall h' v, get h' (o_tab o) = Some v ->
      forall x, u_ptr k <= x < u_ptr k + u_len k -> ~ u_ptr v <= x < u_ptr v + u_len v.
Proof. exact (fun su n sched es o h u Hok E => oinv_block su Hok o _ _ (oreached_inv su Hok n sched es o E) h u). Qed.
Print Assumptions C56_our_blocks.

(** What the others got and did not give back is still theirs. *)
Theorem C56_their_blocks : forall su n sched es o h u,
  setup_ok su -> orun su sched (ostart su n) = ORet es o -> get h (o_tab o) = Some u ->
  0 < u_ptr u /\ u_ptr u mod l_align (u_layout u) = 0 /\ l_size (u_layout u) <= u_len u /\
  u_ptr u + u_len u <= su_amax su /\ In u (oheld o).
Proof. exact (fun su n sched es o h u Hok E => oinv_their_block su Hok o _ _ (oreached_inv su Hok n sched es o E) h u). Qed.
Print Assumptions C56_their_blocks.

Theorem C56_all_disjoint : forall su n sched es o,
  setup_ok su -> orun su sched (ostart su n) = ORet es o ->
  (forall h1 h2 u1 u2, h1 <> h2 -> get h1 (g_tab (o_g o)) = Some u1 -> get h2 (g_tab (o_g o)) = Some u2 ->
    forall x, u_ptr u1 <= x < u_ptr u1 + u_len u1 -> ~ u_ptr u2 <= x < u_ptr u2 + u_len u2) /\
  (forall h1 h2 u1 u2, h1 <> h2 -> get h1 (o_tab o) = Some u1 -> get h2 (o_tab o) = Some u2 ->
    forall x, u_ptr u1 <= x < u_ptr u1 + u_len u1 -> ~ u_ptr u2 <= x < u_ptr u2 + u_len u2) /\
  (forall h1 h2 u1 u2, get h1 (g_tab (o_g o)) = Some u1 -> get h2 (o_tab o) = Some u2 ->
    forall x, u_ptr u1 <= x < u_ptr u1 + u_len u1 -> ~ u_ptr u2 <= x < u_ptr u2 + u_len u2).
Proof. exact (fun su n sched es o Hok E => oinv_disjoint su Hok o _ _ (oreached_inv su Hok n sched es o E)). Qed.
Print Assumptions C56_all_disjoint.

Theorem C56_upstream_calls_legal : forall su n sched es o,
  setup_ok su -> orun su sched (ostart su n) = ORet es o ->
  legal (su_bmax su) (bw_trace (snd (g_aw (o_g o)))).
Proof. exact (fun su n sched es o Hok E => oinv_legal su o _ _ (oreached_inv su Hok n sched es o E)). Qed.
Print Assumptions C56_upstream_calls_legal.

(** Both sides see independent buffers: what is in memory is what their own operations, in
    the order in which they took effect, make of them. *)
Theorem C56_our_contents : forall su n sched es o,
  setup_ok su -> orun su sched (ostart su n) = ORet es o ->
  agrees (omem o) (g_tab (o_g o))
    (srun (lin_ops (our_events es)) (map (option_map b_len) (lin_results (our_events es))) []).
Proof. exact (fun su n sched es o Hok => oreached_ours su Hok n sched es o). Qed.
Print Assumptions C56_our_contents.

Theorem C56_their_contents : forall su n sched es o,
  setup_ok su -> orun su sched (ostart su n) = ORet es o ->
  agrees (omem o) (o_tab o) (srun (their_ops es) (map (option_map b_len) (their_results es)) []).
Proof. exact (fun su n sched es o Hok => oreached_theirs su Hok n sched es o). Qed.
Print Assumptions C56_their_contents.

(** While only one side is active, no byte of the other's blocks changes, known or not. *)
Theorem C56_ours_keep_theirs : forall su n sched es o cs es' o' h u i,
  setup_ok su -> orun su sched (ostart su n) = ORet es o -> orun su (map Ours cs) o = ORet es' o' ->
  get h (o_tab o) = Some u -> 0 <= i < u_len u ->
  get h (o_tab o') = Some u /\ omem o' (u_ptr u + i) = omem o (u_ptr u + i).
Proof. exact (fun su n sched es o cs es' o' h u i Hok => oreached_ours_keep su Hok n sched es o cs es' o' h u i). Qed.
Print Assumptions C56_ours_keep_theirs.

Theorem C56_theirs_keep_ours : forall su n sched es o ops es' o' h u i,
  setup_ok su -> orun su sched (ostart su n) = ORet es o -> orun su (map Theirs ops) o = ORet es' o' ->
  get h (g_tab (o_g o)) = Some u -> 0 <= i < u_len u ->
  get h (g_tab (o_g o')) = Some u /\ omem o' (u_ptr u + i) = omem o (u_ptr u + i).
Proof. exact (fun su n sched es o ops es' o' h u i Hok => oreached_theirs_keep su Hok n sched es o ops es' o' h u i). Qed.
Print Assumptions C56_theirs_keep_ours.

(** Whatever the others do, wherever a schedule stops the threads can finish their calls
    ([is_go]: a step of a thread in a call). *)
Theorem C56_calls_finish : forall su n sched es o,
  setup_ok su -> orun su sched (ostart su n) = ORet es o ->
  exists sched2 es2 o2, Forall is_go sched2 /\ orun su (map Ours sched2) o = ORet es2 o2 /\
    forall t p, nth_error (g_thr (o_g o2)) t = Some p -> p = Idle.
Proof. exact (fun su n sched es o Hok => oreached_finish su Hok n sched es o). Qed.
Print Assumptions C56_calls_finish.

(** The others allocate before and after the chunk of the arena and write while thread 1
    moves a block. *)
Example C56_case : setup_ok cs0 /\
  orun cs0 oshared (ostart cs0 2) = ORet (oevents cs0 2 oshared) (ofinal cs0 2 oshared) /\
  o_tab (ofinal cs0 2 oshared) = [None; Some (mkU 2097152 64 (La 64 8))] /\
  g_tab (o_g (ofinal cs0 2 oshared)) = [Some (mkU 3145792 16 (La 16 64))] /\
  oheld (ofinal cs0 2 oshared) = [mkU 3145728 512 (La 512 8); mkU 2097152 64 (La 64 8)] /\
  map (omem (ofinal cs0 2 oshared)) [3145792; 3145793; 3145794; 2097152; 2097153] =
    [Byte 5; Byte 6; Undef; Byte 0; Byte 8].
Proof.
  split; [apply demo_ok|]. split; [apply ofinal_reached, demo_ok|]. repeat split; vm_compute; reflexivity.
Qed.

(** Stopped while both threads are in calls and others have used the underlying allocator. *)
Example C56_case_busy : setup_ok cs0 /\
  orun cs0 obusy (ostart cs0 2) = ORet (oevents cs0 2 obusy) (ofinal cs0 2 obusy) /\
  g_thr (o_g (ofinal cs0 2 obusy)) = [Slow (JAlloc (La 16 8)); WantRead (JAlloc (La 24 8))] /\
  o_tab (ofinal cs0 2 obusy) <> [].
Proof.
  split; [apply demo_ok|]. split; [apply ofinal_reached, demo_ok|]. split; [vm_compute; reflexivity|vm_compute; discriminate].
Qed.
