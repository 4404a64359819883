(** Properties C24-C26: one [SyncBlinkAlloc] used by any number of threads.

    Vocabulary (Conc.v): [crun su sched (cstart su n) = ORet es g] - [n] threads
    follow the schedule [sched], ending in [g], and [es] is the record of what
    happened; a schedule is any list of choices, a choice being "thread t begins
    this operation" (also [reset_unchecked]), "thread t makes its next step (a
    weak compare-exchange fails spuriously or not)", "thread t makes its next
    step and loads this old value of the cursor" or "reset through [&mut]".  [g_tab g] - the blocks owned by
    clients; [cmem g] - the memory; [cheld g] - the chunks held from the
    underlying allocator. *)
From Verif Require Import Base Alloc Arena BlinkAlloc History Setup SetupFacts SetupProps Concrete
  Conc ConcFacts ConcSteps ConcProps ConcKeep ConcDrain ConcDemo.

(** ** C24 Concurrent allocation is safe under every schedule *)
Theorem C24_no_schedule_goes_wrong : forall su n sched,
  setup_ok su -> exists es g, crun su sched (cstart su n) = ORet es g.
Proof. exact (fun su n sched Hok => crun_returns su Hok n sched). Qed.
Print Assumptions C24_no_schedule_goes_wrong.

Theorem C24_blocks_well_placed : forall su n sched es g h u,
  setup_ok su -> crun su sched (cstart su n) = ORet es g -> get h (g_tab g) = Some u ->
  0 < u_ptr u /\ u_ptr u mod l_align (u_layout u) = 0 /\ l_size (u_layout u) <= u_len u /\
  u_ptr u + u_len u <= su_amax su /\ exists k, In k (cheld g) /\ inside u k.
Proof. exact (fun su n sched es g h u Hok => creached_block su Hok n sched es g h u). Qed.
Print Assumptions C24_blocks_well_placed.

Theorem C24_blocks_disjoint : forall su n sched es g h1 h2 u1 u2,
  setup_ok su -> crun su sched (cstart su n) = ORet es g -> h1 <> h2 ->
  get h1 (g_tab g) = Some u1 -> get h2 (g_tab g) = Some u2 ->
  forall x, u_ptr u1 <= x < u_ptr u1 + u_len u1 -> ~ u_ptr u2 <= x < u_ptr u2 + u_len u2.
Proof. exact (fun su n sched es g h1 h2 u1 u2 Hok => creached_disjoint su Hok n sched es g h1 h2 u1 u2). Qed.
Print Assumptions C24_blocks_disjoint.

(** The underlying allocator is used correctly: only valid requests, only
    blocks it gave and that were not returned before. *)
Theorem C24_upstream_calls_legal : forall su n sched es g,
  setup_ok su -> crun su sched (cstart su n) = ORet es g ->
  legal (su_bmax su) (bw_trace (snd (g_aw g))).
Proof. exact (fun su n sched es g Hok => creached_legal su Hok n sched es g). Qed.
Print Assumptions C24_upstream_calls_legal.

(** Threads 1 and 2 raced for the same cursor. *)
Example C24_case : setup_ok cs0 /\
  crun cs0 race_done (cstart cs0 3) = ORet (cevents cs0 3 race_done) (cfinal cs0 3 race_done) /\
  g_tab (cfinal cs0 3 race_done) =
    [Some (mkU 1048608 16 (La 16 8)); Some (mkU 1048624 24 (La 24 8)); Some (mkU 1048648 8 (La 8 8))] /\
  g_thr (cfinal cs0 3 race) =
    [Idle; Cas (JAlloc (La 24 8)) 1048576 1048624; Cas (JAlloc (La 8 8)) 1048576 1048624].
Proof.
  split; [apply demo_ok|]. split; [apply cfinal_reached, demo_ok|]. split; vm_compute; reflexivity.
Qed.

(** Thread 2 loads the cursor as it was before thread 0 allocated; its attempt
    fails, and it gets other memory. *)
Example C24_case_old_value :
  g_thr (cfinal cs0 3 old_load) = [Idle; Idle; Cas (JAlloc (La 8 8)) 1048576 1048608] /\
  g_thr (cfinal cs0 3 old_retry) = [Idle; Idle; Cas (JAlloc (La 8 8)) 1048576 1048624] /\
  g_tab (cfinal cs0 3 old_done) = [Some (mkU 1048608 16 (La 16 8)); Some (mkU 1048624 8 (La 8 8))].
Proof. repeat split; vm_compute; reflexivity. Qed.

(** Thread 1 is in a call of [allocate] while thread 0 resets. *)
Example C24_case_reset :
  g_tab (cfinal cs0 3 reset_mid) = [None; None; None; Some (mkU 1048608 24 (La 24 8))].
Proof. vm_compute. reflexivity. Qed.

(** ** C25 Concurrent use preserves contents *)

(** The memory is what the operations, in the order in which they took effect,
    make of independent buffers. *)
Theorem C25_independent_buffers : forall su n sched es g,
  setup_ok su -> crun su sched (cstart su n) = ORet es g ->
  agrees (cmem g) (g_tab g) (srun (lin_ops es) (map (option_map b_len) (lin_results es)) []).
Proof. exact (fun su n sched es g Hok => creached_agrees su Hok n sched es g). Qed.
Print Assumptions C25_independent_buffers.

(** Every operation takes effect exactly once, between its call and its return. *)
Theorem C25_linearizable : forall su n sched es g t,
  setup_ok su -> crun su sched (cstart su n) = ORet es g -> (t < n)%nat ->
  exists ph, follows t PIdle es ph /\ (ph = PIdle <-> nth_error (g_thr g) t = Some Idle).
Proof. exact (fun su n sched es g t _ => creached_follows su n sched es g t). Qed.
Print Assumptions C25_linearizable.

(** A block nobody writes to, resizes or deallocates stays where it is with all
    its bytes, whatever else happens in the meantime. *)
Theorem C25_others_do_not_touch : forall su n sched es g sched2 es2 g2 h u,
  setup_ok su -> crun su sched (cstart su n) = ORet es g -> crun su sched2 g = ORet es2 g2 ->
  get h (g_tab g) = Some u -> filter (about h) es2 = [] ->
  get h (g_tab g2) = Some u /\
  forall i, 0 <= i < u_len u -> cmem g2 (u_ptr u + i) = cmem g (u_ptr u + i).
Proof. exact (fun su n sched es g sched2 es2 g2 h u Hok => untouched su Hok n sched es g sched2 es2 g2 h u). Qed.
Print Assumptions C25_others_do_not_touch.

(** A block that is only resized, once, keeps the common prefix. *)
Theorem C25_resize_keeps_prefix : forall su n sched es g sched2 es2 g2 h u t old new b,
  setup_ok su -> crun su sched (cstart su n) = ORet es g -> crun su sched2 g = ORet es2 g2 ->
  get h (g_tab g) = Some u -> filter (about h) es2 = [Lin t (OpResize h old new) (Some b)] ->
  get h (g_tab g2) = Some (mkU (b_ptr b) (b_len b) new) /\
  forall i, 0 <= i < Z.min (l_size old) (l_size new) -> i < u_len u -> i < b_len b ->
    cmem g2 (b_ptr b + i) = cmem g (u_ptr u + i).
Proof.
  exact (fun su n sched es g sched2 es2 g2 h u t old new b Hok =>
           resized su Hok n sched es g sched2 es2 g2 h u t old new b).
Qed.
Print Assumptions C25_resize_keeps_prefix.

(** Handle 0 is moved by thread 1 while thread 2 allocates; handle 1 is not touched. *)
Example C25_case :
  let es2 := match crun cs0 moved (cfinal cs0 3 moving) with ORet es _ => es | _ => [] end in
  filter (about 0) es2 = [Lin 1 (OpResize 0 (La 16 8) (La 40 8)) (Some (mkBlock 1048664 40))] /\
  filter (about 1) es2 = [] /\
  get 0 (g_tab (cfinal cs0 3 moving)) = Some (mkU 1048608 16 (La 16 8)) /\
  get 0 (g_tab (cfinal cs0 3 (moving ++ moved))) = Some (mkU 1048664 40 (La 40 8)) /\
  map (cmem (cfinal cs0 3 (moving ++ moved))) [1048664; 1048665; 1048666] = [Byte 5; Byte 6; Undef].
Proof. vm_compute. auto 10. Qed.

Example C25_case_follows : exists ph, follows 2 PIdle (cevents cs0 3 race_lost) ph /\ ph <> PIdle.
Proof.
  destruct (C25_linearizable cs0 3 race_lost _ _ 2%nat (demo_ok _) (cfinal_reached _ _ _ (demo_ok _)) ltac:(lia))
    as (ph & F & H).
  exists ph. split; [exact F|]. intros E. apply H in E. vm_compute in E. discriminate.
Qed.

(** ** C26 Progress *)

(** A compare-exchange of the allocation loop that does not fail spuriously
    fails only if another thread moved the cursor since it was last loaded. *)
Theorem C26_failure_means_progress :
  forall su n sched es t sp sched2 j r cur j' r' cur' es1 es2 es3 g g1 g2 g3,
  setup_ok su -> crun su sched (cstart su n) = ORet es g ->
  cstep su (Go t sp) g = ORet es1 g1 -> nth_error (g_thr g1) t = Some (Cas j r cur) ->
  crun su sched2 g1 = ORet es2 g2 ->
  Forall (fun c => match c with Start t' _ | Go t' _ | Stale t' _ => t' <> t | Exclusive _ => True end) sched2 ->
  cstep su (Go t false) g2 = ORet es3 g3 -> nth_error (g_thr g3) t = Some (Cas j' r' cur') ->
  exists t', t' <> t /\ In (Bump t') es2.
Proof.
  exact (fun su n sched es t sp sched2 j r cur j' r' cur' es1 es2 es3 g g1 g2 g3 Hok =>
    cas_fails su Hok n sched es t sp sched2 j r cur j' r' cur' es1 es2 es3 g g1 g2 g3).
Qed.
Print Assumptions C26_failure_means_progress.

(** A thread running alone, without spurious failures, returns after at most ten
    steps plus one for every byte it has to copy - unless it needs a new chunk
    and somebody else is in the middle of a call with the lock held. *)
Theorem C26_alone_is_fast : forall su n sched es g t p,
  setup_ok su -> crun su sched (cstart su n) = ORet es g -> nth_error (g_thr g) t = Some p ->
  lk_writer (g_lock g) = None \/ lk_writer (g_lock g) = Some t ->
  exists k es2 g2 p2, (k <= 10 + pc_bytes p)%nat /\
    crun su (repeat (Go t false) k) g = ORet es2 g2 /\ nth_error (g_thr g2) t = Some p2 /\
    (p2 = Idle \/
     exists j, p2 = WantWrite j /\ exists t', t' <> t /\ In t' (lk_readers (g_lock g))).
Proof. exact (fun su n sched es g t p Hok => creached_solo su Hok n sched es g t p). Qed.
Print Assumptions C26_alone_is_fast.

(** No deadlock: in every reached state all calls in progress can be completed. *)
Theorem C26_no_deadlock : forall su n sched es g,
  setup_ok su -> crun su sched (cstart su n) = ORet es g ->
  exists sched2 es2 g2,
    Forall (fun c => match c with Go _ false => True | _ => False end) sched2 /\
    crun su sched2 g = ORet es2 g2 /\
    forall t p, nth_error (g_thr g2) t = Some p -> p = Idle.
Proof. exact (fun su n sched es g Hok => creached_drain su Hok n sched es g). Qed.
Print Assumptions C26_no_deadlock.

(** Thread 2 loaded the cursor, thread 1 moved it, the attempt of thread 2 failed. *)
Example C26_case :
  match cstep cs0 (Go 2 false) (cfinal cs0 3 (removelast race)) with
  | ORet [] g1 =>
      nth_error (g_thr g1) 2 = Some (Cas (JAlloc (La 8 8)) 1048576 1048624) /\
      match crun cs0 [Go 1 false] g1 with
      | ORet es2 g2 =>
          match cstep cs0 (Go 2 false) g2 with
          | ORet [] g3 => nth_error (g_thr g3) 2 = Some (Cas (JAlloc (La 8 8)) 1048576 1048648) /\ hd_error es2 = Some (Bump 1)
          | _ => False
          end
      | _ => False
      end
  | _ => False
  end.
Proof. vm_compute. auto. Qed.

(** Thread 0 is about to create the first chunk; alone it returns. *)
Example C26_case_alone :
  let g := cfinal cs0 3 [Start 0 (OpAlloc (La 16 8) false)] in
  nth_error (g_thr g) 0 = Some (WantRead (JAlloc (La 16 8))) /\ lk_writer (g_lock g) = None /\
  match crun cs0 (repeat (Go 0%nat false) 5) g with
  | ORet _ g2 => nth_error (g_thr g2) 0 = Some Idle
  | _ => False
  end.
Proof. vm_compute. auto. Qed.
