(** Property C78, continued: nothing is written outside of what is allocated, by threads that share
    an allocator in other ways than in Properties_Stray.v.  The vocabulary is that of that file. *)
From Verif Require Import Base BaseFacts Alloc AllocFacts Arena BlinkAlloc History HistoryFacts Setup SetupFacts Concrete Conc BlinkDemo Proxy ProxyProps ProxyDemo
  Shared SharedPaperDemo GConc GConcPaperDemo PConc PConcDemo PConcPaperDemo Stray StrayDemo StrayShared StrayPConc StraySharedDemo.

(** Threads on a [SyncBlinkAlloc] whose underlying allocator has other users, which work on their
    own blocks between any two steps: from any moment to any later one, also in the middle of calls; *)
Theorem C78_threads_shared : forall su n sched1 es1 o1 sched2 es2 o2, setup_ok su ->
  orun su sched1 (ostart su n) = ORet es1 o1 -> orun su sched2 o1 = ORet es2 o2 ->
  no_stray (snd (g_aw (o_g o1))) (snd (g_aw (o_g o2))).
Proof. exact shared_tidy. Qed.
Print Assumptions C78_threads_shared.
Example C78_case_threads_shared : is_ret (orun (demo megabytes) (firstn 22 shared_sched) (ostart (demo megabytes) 2)) = true /\
  is_ret (orun (demo megabytes) (skipn 22 shared_sched) o_sh1) = true /\
  let w1 := snd (g_aw (o_g o_sh1)) in let w2 := snd (g_aw (o_g o_sh2)) in
  length (bw_trace w1) = 3%nat /\ length (bw_trace w2) = 10%nat /\
  map (told w1 w2) [1048576; 2097152; 3145728; 5242880; 9437184] = [Some Undef; Some Undef; Some Undef; Some Undef; None] /\
  bw_mem w1 3145728 = Head 3145832 /\ bw_mem w1 1048576 = Byte 0 /\
  ~ no_stray w1 (spoil 3145728 w2).
Proof. exact shared_sched_tidy. Qed.
Print Assumptions C78_case_threads_shared.

(** threads on a [GlobalBlinkAlloc] in both modes, the underlying allocator having other users too; *)
Theorem C78_threads_global : forall su n sched1 es1 m1 sched2 es2 m2, setup_ok su ->
  mrun su sched1 (mstart su n) = ORet es1 m1 -> mrun su sched2 m1 = ORet es2 m2 ->
  no_stray (snd (g_aw (m_g m1))) (snd (g_aw (m_g m2))).
Proof. exact global_threads_tidy. Qed.
Print Assumptions C78_threads_global.
Example C78_case_threads_global : is_ret (mrun (demo megabytes) (firstn 20 global_sched) (mstart (demo megabytes) 2)) = true /\
  is_ret (mrun (demo megabytes) (skipn 20 global_sched) m_gl1) = true /\
  let w1 := snd (g_aw (m_g m_gl1)) in let w2 := snd (g_aw (m_g m_gl2)) in
  length (bw_trace w1) = 3%nat /\ length (bw_trace w2) = 4%nat /\
  map (told w1 w2) [1048576; 1048624; 2097152; 2097152 + 512; 3145728] = [Some Undef; Some Undef; None; Some Undef; None] /\
  bw_mem w1 1048576 = Byte 0 /\ bw_mem w1 2097152 = Head 2097224 /\
  ~ no_stray w1 (spoil 1048576 w2).
Proof. exact global_sched_tidy. Qed.
Print Assumptions C78_case_threads_global.

(** threads on a [SyncBlinkAlloc] and on proxies of it at the same time. *)
Theorem C78_threads_proxies : forall su psmax nmax n sched1 es1 s1 sched2 es2 s2, proxies_ok su psmax nmax ->
  rrun su psmax nmax sched1 (rstart su n) = ORet es1 s1 -> rrun su psmax nmax sched2 s1 = ORet es2 s2 ->
  no_stray (snd (g_aw (r_g s1))) (snd (g_aw (r_g s2))).
Proof. exact thread_proxies_tidy. Qed.
Print Assumptions C78_threads_proxies.
Example C78_case_threads_proxies : is_ret (rrun ps0 (2 ^ 40) (2 ^ 20) (firstn 32 proxy_sched) (rstart ps0 3)) = true /\
  is_ret (rrun ps0 (2 ^ 40) (2 ^ 20) (skipn 32 proxy_sched) r_px1) = true /\
  let w1 := snd (g_aw (r_g r_px1)) in let w2 := snd (g_aw (r_g r_px2)) in
  length (bw_trace w1) = 2%nat /\ length (bw_trace w2) = 5%nat /\
  map (told w1 w2) [1048576; 1048640; 2097152; 3145728; 4194304] = [Some Undef; Some Undef; Some Undef; None; Some Undef] /\
  bw_mem w1 1048640 = Byte 1 /\ bw_mem w1 2097152 = Head 2097440 /\
  ~ no_stray w1 (spoil 1048640 w2).
Proof. exact proxy_sched_tidy. Qed.
Print Assumptions C78_case_threads_proxies.
