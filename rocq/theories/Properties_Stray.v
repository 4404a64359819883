(** Property C78: nothing is written outside of what is allocated.

    Vocabulary (Stray.v).  [no_stray w w'] - from the state [w] of the underlying allocator to [w'],
    every byte whose contents are determined by the calls of that allocator alone has these contents:
    a byte that no block covers keeps what it held, one that was given back holds what the underlying
    allocator left there.  [start_in m0 su] - a fresh [BlinkAlloc], memory has the contents [m0].
    Headers of chunks, values of a [Blink], copies made by [grow] and [shrink], zeroes, and what
    clients write to their blocks are all in this memory. *)
From Verif Require Import Base BaseFacts Alloc AllocFacts Arena BlinkAlloc History HistoryFacts Setup SetupFacts Concrete Paper PaperDemo
  Tower AllocProps Conc ConcFacts ConcProps ConcDemo Blink BlinkInv BlinkEnv BlinkProps BlinkDemo Proxy ProxyFacts ProxyProps ProxyDemo
  Threaded ThreadedContract ThreadedDemo ThreadProxy ThreadProxyFacts ThreadProxyDemo Stray StrayFacts StrayUse StrayConc StrayThread StrayDemo.

(** ** C78 No stray writes *)

(** A [BlinkAlloc], from any moment of its life on, whatever memory held at its beginning; *)
Theorem C78_blink_alloc : forall su m0 ops1 rs1 st1 ops2 rs2 st2, setup_ok su ->
  do_run su ops1 (start_in m0 su) = ORet rs1 st1 -> do_run su ops2 st1 = ORet rs2 st2 ->
  no_stray (snd (c_w st1)) (snd (c_w st2)).
Proof. exact (fun su m0 ops1 rs1 st1 ops2 rs2 st2 Hok => history_tidy su Hok m0 ops1 rs1 st1 ops2 rs2 st2). Qed.
Print Assumptions C78_blink_alloc.
(** every history from there returns, and the blocks behave as independent buffers. *)
Theorem C78_any_memory : forall su m0 ops, setup_ok su -> exists rs st,
  do_run su ops (start_in m0 su) = ORet rs st /\ length rs = length ops /\
  agrees (bw_mem (snd (c_w st))) (c_tab st) (srun ops (map (option_map b_len) rs) []).
Proof. exact run_in_agrees. Qed.
Print Assumptions C78_any_memory.
(** The first chunk is freed, the second is in use, a request is refused; memory was full of other
    things, and the three bytes next to the chunks still hold them. A program that overwrote
    one of them would not have the property. *)
Example C78_case : let w1 := snd (c_w st_p1) in let w2 := snd (c_w st_p2) in
  no_stray w1 w2 /\ length (bw_trace w1) = 1%nat /\ length (bw_trace w2) = 4%nat /\
  map (told w1 w2) [5; 1048575; 1048576; 1048576 + 611; 1048576 + 612; 2097151; 2097152; 2097152 + 2147; 2097152 + 2148] =
    [Some (Byte 5); Some (Byte 148); Some Undef; Some Undef; Some (Byte 8); Some (Byte 46); None; None; Some (Byte 187)] /\
  map (bw_mem w2) [5; 1048575; 1048576; 1048576 + 611; 1048576 + 612; 2097151; 2097152; 2097152 + 2148] =
    [Byte 5; Byte 148; Undef; Undef; Byte 8; Byte 46; Head 2097187; Byte 187] /\
  ~ no_stray w1 (spoil 2097151 w2) /\ ~ no_stray w1 (spoil (1048576 + 8) w2).
Proof.
  cbv zeta. split; [|split; [vm_compute; reflexivity|]; split; [vm_compute; reflexivity|]; split; [vm_compute; reflexivity|];
    split; [vm_compute; reflexivity|]; split].
  - apply (history_tidy (demo generous) (demo_ok _) litter part1 (presults (do_run (demo generous) part1 (start_in litter (demo generous)))) st_p1
      part2 (presults (do_run (demo generous) part2 st_p1)) st_p2); apply is_ret_list; vm_compute; reflexivity.
  - apply (spoiled _ _ _ (Byte 46)); [vm_compute; reflexivity|discriminate].
  - apply (spoiled _ _ _ Undef); [vm_compute; reflexivity|discriminate].
Qed.

(** A tower of [BlinkAlloc]s. *)
Theorem C78_tower : forall dbg bmax S amax l ls ops1 rs1 st1 ops2 rs2 st2,
  0 <= amax <= USIZE_MAX -> amax <= bmax -> honest amax S -> tower_ok dbg bmax amax (l :: ls) ->
  run (lv_smax l) (tower dbg bmax S (l :: ls)) (tower_reset dbg bmax S (l :: ls)) ops1
      (mkCst [] (tower_start (l :: ls))) = ORet rs1 st1 ->
  run (lv_smax l) (tower dbg bmax S (l :: ls)) (tower_reset dbg bmax S (l :: ls)) ops2 st1 = ORet rs2 st2 ->
  no_stray (bottom (l :: ls) (c_w st1)) (bottom (l :: ls) (c_w st2)).
Proof. exact tower_tidy. Qed.
Print Assumptions C78_tower.
Example C78_case_tower : is_ret (climb climb1 st_tw0) = true /\ is_ret (climb climb2 st_tw1) = true /\
  let w1 := bottom c21_levels (c_w st_tw1) in let w2 := bottom c21_levels (c_w st_tw2) in
  length (bw_trace w1) = 1%nat /\ length (bw_trace w2) = 2%nat /\
  map (told w1 w2) [1048575; 1048576; 2097151; 2097152; 2097152 + 32768] = [Some Undef; None; Some Undef; None; Some Undef] /\
  map (bw_mem w2) [2097151; 2097152; 2097152 + 32768] = [Undef; Head 2113568; Undef] /\
  ~ no_stray w1 (spoil (2097152 + 32768) w2).
Proof.
  split; [vm_compute; reflexivity|]. split; [vm_compute; reflexivity|]. cbv zeta. split; [vm_compute; reflexivity|].
  split; [vm_compute; reflexivity|]. split; [vm_compute; reflexivity|]. split; [vm_compute; reflexivity|].
  apply (spoiled _ _ _ Undef); [vm_compute; reflexivity|discriminate].
Qed.

(** A [Blink] with its own [BlinkAlloc]; *)
Theorem C78_blink : forall su bomb fr w os1 s1 os2 s2, setup_ok su -> ISIZE_MAX <= su_smax su ->
  arrives (owned su bomb) fr w os1 s1 -> forallb (sound true) os2 = true -> erun (owned su bomb) os2 s1 = ORet tt s2 ->
  no_stray (snd (bl_w s1)) (snd (bl_w s2)).
Proof. exact (fun su bomb fr w os1 s1 os2 s2 Hok Hs => owned_tidy su Hok Hs bomb fr w os1 s1 os2 s2). Qed.
Print Assumptions C78_blink.
(** with a reference to one that has other clients; *)
Theorem C78_blink_borrowed : forall su bomb fr w os1 s1 os2 s2, setup_ok su -> ISIZE_MAX <= su_smax su ->
  arrives (borrowed su bomb) fr w os1 s1 -> forallb (sound true) os2 = true -> erun (borrowed su bomb) os2 s1 = ORet tt s2 ->
  no_stray (snd (bl_w s1)) (snd (bl_w s2)).
Proof. exact (fun su bomb fr w os1 s1 os2 s2 Hok Hs => borrowed_tidy su Hok Hs bomb fr w os1 s1 os2 s2). Qed.
Print Assumptions C78_blink_borrowed.
(** with any other allocator. *)
Theorem C78_blink_foreign : forall su bomb fr w os1 s1 os2 s2, setup_ok su -> ISIZE_MAX <= su_bmax su ->
  arrives (foreign su bomb) fr w os1 s1 -> forallb (sound false) os2 = true -> erun (foreign su bomb) os2 s1 = ORet tt s2 ->
  no_stray (bl_w s1) (bl_w s2).
Proof. exact foreign_tidy. Qed.
Print Assumptions C78_blink_foreign.
(** Values, a collected iterator that needs a second chunk, and a reset that frees the first. *)
Example C78_case_blink : arrives Eo [] w0 usual s_bl1 /\ forallb (sound true) more = true /\ erun Eo more s_bl1 = ORet tt s_bl2 /\
  let w1 := snd (bl_w s_bl1) in let w2 := snd (bl_w s_bl2) in
  length (bw_trace w1) = 1%nat /\ length (bw_trace w2) = 3%nat /\
  map (told w1 w2) [1048575; 1048576 + 40; 2097151; 2097152; 2097152 + 1024] = [Some Undef; Some Undef; Some Undef; None; Some Undef] /\
  ~ no_stray w1 (spoil (1048576 + 40) w2).
Proof.
  split; [apply last_arrives; [apply fresh_ready| |]; vm_compute; reflexivity|]. split; [vm_compute; reflexivity|].
  split; [apply is_ret_unit; vm_compute; reflexivity|]. cbv zeta. split; [vm_compute; reflexivity|]. split; [vm_compute; reflexivity|].
  split; [vm_compute; reflexivity|]. apply (spoiled _ _ _ Undef); [vm_compute; reflexivity|discriminate].
Qed.

(** Proxies of a [BlinkAlloc]. *)
Theorem C78_proxies : forall su psmax nmax os1 rs1 s1 os2 rs2 s2, proxies_ok su psmax nmax ->
  proxy_run su psmax nmax os1 (proxy_start su) = ORet rs1 s1 -> proxy_run su psmax nmax os2 s1 = ORet rs2 s2 ->
  no_stray (snd (ps_w s1)) (snd (ps_w s2)).
Proof. exact (fun su psmax nmax os1 rs1 s1 os2 rs2 s2 Hok => proxies_tidy su psmax nmax Hok os1 rs1 s1 os2 rs2 s2). Qed.
Print Assumptions C78_proxies.
Example C78_case_proxies : proxies_ok (big megabytes) (2 ^ 40) (2 ^ 20) /\
  is_ret (proxy_run (big megabytes) (2 ^ 40) (2 ^ 20) (firstn 4 tour) (proxy_start (big megabytes))) = true /\
  is_ret (proxy_run (big megabytes) (2 ^ 40) (2 ^ 20) (skipn 4 tour) s_px1) = true /\
  let w1 := snd (ps_w s_px1) in let w2 := snd (ps_w s_px2) in
  length (bw_trace w1) = 1%nat /\ length (bw_trace w2) = 6%nat /\
  map (told w1 w2) [1048576; 2097152; 3145728; 3145728 + 8192] = [Some Undef; Some Undef; Some Undef; Some Undef] /\
  ~ no_stray w1 (spoil 3145728 w2).
Proof.
  split; [apply big_proxies|]. split; [vm_compute; reflexivity|]. split; [vm_compute; reflexivity|]. cbv zeta.
  split; [vm_compute; reflexivity|]. split; [vm_compute; reflexivity|]. split; [vm_compute; reflexivity|].
  apply (spoiled _ _ _ Undef); [vm_compute; reflexivity|discriminate].
Qed.

(** Threads on one [SyncBlinkAlloc], from any moment to any later one, in the middle of calls or
    not, for all schedules; *)
Theorem C78_threads : forall su n sched1 es1 g1 sched2 es2 g2, setup_ok su ->
  crun su sched1 (cstart su n) = ORet es1 g1 -> crun su sched2 g1 = ORet es2 g2 ->
  no_stray (snd (g_aw g1)) (snd (g_aw g2)).
Proof. exact threads_tidy. Qed.
Print Assumptions C78_threads.
(** a [Blink] of one of them; *)
Theorem C78_thread_blink : forall su t bomb fr w os1 s1 os2 s2, setup_ok su -> ISIZE_MAX <= su_smax su ->
  arrives (threading su t bomb) fr w os1 s1 -> forallb (sound true) os2 = true -> erun (threading su t bomb) os2 s1 = ORet tt s2 ->
  no_stray (snd (g_aw (t_g (bl_w s1)))) (snd (g_aw (t_g (bl_w s2)))).
Proof. exact threading_tidy. Qed.
Print Assumptions C78_thread_blink.
(** proxies of one of them. *)
Theorem C78_thread_proxies : forall su t psmax nmax w os1 rs1 s1 os2 rs2 s2, proxies_ok su psmax nmax -> begins su t w ->
  forallb no_shared_reset os1 = true -> forallb no_shared_reset os2 = true ->
  tp_run su t psmax nmax os1 w = ORet rs1 s1 -> tp_run su t psmax nmax os2 s1 = ORet rs2 s2 ->
  no_stray (snd (g_aw (t_g (ps_w s1)))) (snd (g_aw (t_g (ps_w s2)))).
Proof. exact tp_tidy. Qed.
Print Assumptions C78_thread_proxies.
(** Two threads need chunks at the same time, a reset frees all but the last one. *)
Example C78_case_threads :
  crun cs0 turn1 (cstart cs0 3) = ORet (cevents cs0 3 turn1) g_th1 /\ is_ret (crun cs0 turn2 g_th1) = true /\
  let w1 := snd (g_aw g_th1) in let w2 := snd (g_aw g_th2) in
  length (bw_trace w1) = 1%nat /\ length (bw_trace w2) = 5%nat /\
  map (told w1 w2) [1048576; 2097152; 3145727; 3145728; 3145728 + 2048] = [Some Undef; Some Undef; Some Undef; None; Some Undef] /\
  map (bw_mem w1) [1048576; 1048608] = [Head 1048704; Byte 5] /\ ~ no_stray w1 (spoil 2097152 w2).
Proof.
  split; [apply cfinal_reached, demo_ok|]. split; [vm_compute; reflexivity|]. cbv zeta.
  split; [vm_compute; reflexivity|]. split; [vm_compute; reflexivity|]. split; [vm_compute; reflexivity|].
  split; [vm_compute; reflexivity|]. apply (spoiled _ _ _ Undef); [vm_compute; reflexivity|discriminate].
Qed.
Example C78_case_thread_blink : arrives Et [] wt usual s_tb1 /\ forallb (sound true) more = true /\ erun Et more s_tb1 = ORet tt s_tb2 /\
  let w1 := snd (g_aw (t_g (bl_w s_tb1))) in let w2 := snd (g_aw (t_g (bl_w s_tb2))) in
  length (bw_trace w1) = 1%nat /\ length (bw_trace w2) = 2%nat /\
  map (told w1 w2) [1048575; 1048576 + 512; 2097152; 2097152 + 1024] = [Some Undef; Some Undef; None; Some Undef] /\
  ~ no_stray w1 (spoil (1048576 + 512) w2).
Proof.
  split; [apply last_arrives; [apply wt_ready| |]; vm_compute; reflexivity|]. split; [vm_compute; reflexivity|].
  split; [apply is_ret_unit; vm_compute; reflexivity|]. cbv zeta. split; [vm_compute; reflexivity|]. split; [vm_compute; reflexivity|].
  split; [vm_compute; reflexivity|]. apply (spoiled _ _ _ Undef); [vm_compute; reflexivity|discriminate].
Qed.
Example C78_case_thread_proxies : begins ThreadProxyDemo.roomy 1 w_tp /\ forallb no_shared_reset (firstn 3 errands) = true /\
  forallb no_shared_reset (firstn 8 (skipn 3 errands)) = true /\
  is_ret (tp_run ThreadProxyDemo.roomy 1 (2 ^ 40) (2 ^ 20) (firstn 3 errands) w_tp) = true /\
  is_ret (tp_run ThreadProxyDemo.roomy 1 (2 ^ 40) (2 ^ 20) (firstn 8 (skipn 3 errands)) s_tq1) = true /\
  let w1 := snd (g_aw (t_g (ps_w s_tq1))) in let w2 := snd (g_aw (t_g (ps_w s_tq2))) in
  length (bw_trace w1) = 1%nat /\ length (bw_trace w2) = 4%nat /\
  map (told w1 w2) [1048575; 1048576; 2097151; 2097152; 4194304 + 8192] = [Some Undef; None; Some Undef; None; Some Undef].
Proof.
  split; [apply w_tp_begins|]. split; [vm_compute; reflexivity|]. split; [vm_compute; reflexivity|]. split; [vm_compute; reflexivity|].
  split; [vm_compute; reflexivity|]. cbv zeta. split; [vm_compute; reflexivity|]. split; vm_compute; reflexivity.
Qed.
