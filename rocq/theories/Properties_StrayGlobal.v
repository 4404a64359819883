(** Property C78, continued: nothing is written outside of what is allocated, by the global
    allocators and their proxies.  The vocabulary is that of Properties_Stray.v. *)
From Verif Require Import Base BaseFacts Alloc AllocFacts Arena BlinkAlloc History HistoryFacts Setup SetupFacts Concrete BlinkDemo
  Proxy ProxyProps ProxyDemo Global GlobalProps GlobalPaper GlobalPaperDemo GLocal GLocalProps GLocalDemo Stray StrayDemo StrayGlobal StrayGlobalDemo.

(** [UnsafeGlobalBlinkAlloc] ([sync] = false) and [GlobalBlinkAlloc] ([sync] = true), in both
    modes, from any moment to any later one ([lax]: the underlying allocator's [grow] and [shrink]
    accept any sizes, see C45); *)
Theorem C78_global : forall su lax sync os1 rs1 c1 os2 rs2 c2, setup_ok su ->
  plain_run su lax sync os1 (gstart su) = ORet rs1 c1 -> plain_run su lax sync os2 c1 = ORet rs2 c2 ->
  no_stray (snd (g_aw (gc_st c1))) (snd (g_aw (gc_st c2))).
Proof. exact (fun su lax sync os1 rs1 c1 os2 rs2 c2 Hok => global_tidy su Hok lax sync os1 rs1 c1 os2 rs2 c2). Qed.
Print Assumptions C78_global.
Example C78_case_global : forall sync, is_ret (plain_run (demo megabytes) true sync (firstn 3 trip) (gstart (demo megabytes))) = true /\
  is_ret (plain_run (demo megabytes) true sync (skipn 3 trip) (c_tr1 sync)) = true /\
  let w1 := snd (g_aw (gc_st (c_tr1 sync))) in let w2 := snd (g_aw (gc_st (c_tr2 sync))) in
  length (bw_trace w1) = 2%nat /\ length (bw_trace w2) = 5%nat /\
  map (told w1 w2) [1048575; 1048576; 2097152; 2097152 + 32; 3145728; 3145728 + 2048] = [Some Undef; None; Some Undef; Some Undef; None; Some Undef] /\
  bw_mem w1 2097152 = Head 2097284 /\
  ~ no_stray w1 (spoil 2097152 w2).
Proof. exact trip_tidy. Qed.
Print Assumptions C78_case_global.

(** a [GlobalBlinkAlloc] with its proxies. *)
Theorem C78_global_proxies : forall su psmax nmax lax os1 rs1 s1 os2 rs2 s2, proxies_ok su psmax nmax ->
  both_run su psmax nmax lax true os1 (both_start su) = ORet rs1 s1 -> both_run su psmax nmax lax true os2 s1 = ORet rs2 s2 ->
  no_stray (snd (g_aw (gc_st (l_g s1)))) (snd (g_aw (gc_st (l_g s2)))).
Proof. exact both_tidy. Qed.
Print Assumptions C78_global_proxies.
Example C78_case_global_proxies : is_ret (both_run (big megabytes) (2 ^ 40) (2 ^ 20) false true (firstn 5 ltour) (both_start (big megabytes))) = true /\
  is_ret (both_run (big megabytes) (2 ^ 40) (2 ^ 20) false true (skipn 5 ltour) s_lt1) = true /\
  let w1 := snd (g_aw (gc_st (l_g s_lt1))) in let w2 := snd (g_aw (gc_st (l_g s_lt2))) in
  length (bw_trace w1) = 2%nat /\ length (bw_trace w2) = 5%nat /\
  map (told w1 w2) [1048575; 1048576; 2097152; 2097216; 3145728; 3145728 + 8192] = [Some Undef; Some Undef; Some Undef; Some Undef; None; Some Undef] /\
  bw_mem w1 2097216 = Byte 1 /\
  ~ no_stray w1 (spoil 2097216 w2).
Proof. exact ltour_tidy. Qed.
Print Assumptions C78_case_global_proxies.
