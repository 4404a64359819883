(** Property C89: any number of threads on one [SyncBlinkAlloc], on paper.

    Vocabulary (ConcPaper.v): [cp_run min smax S ms (cp0 n) = Some (es, q)] -
    [n] threads make the moves [ms] on paper, an observer records [es], and the
    paper says [q] then: the chunks (where each is, how long, where its free
    part begins), the blocks owned by clients, the calls made to the underlying
    allocator [S], and what each thread is doing.  There are no locks, no
    loads and no compare-exchanges on paper.  A move is one of: a thread calls;
    takes a block from the free part of the newest chunk; lets the last block of
    the newest chunk grow; leaves the block where it is; finds the newest chunk
    too small; gets a block from a fresh chunk (without looking for room again);
    has copied the contents of its block; returns; or the allocator is reset.  [cshows g q] - the state [g] of the code is what the
    paper says: headers in memory, blocks, calls, threads.  [most_called es] -
    the size and alignment of everything the threads ask for in [es]. *)
From Verif Require Import Base Alloc Arena BlinkAlloc History Setup Concrete Conc Paper ProxyPaper ConcPaper ConcPaperFacts ConcPaperDemo ConcPaperAll.

(** ** C89 Threads sharing an allocator do what the moves say *)
Theorem C89_exact : forall su n sched es g,
  setup_ok su -> crun su sched (cstart su n) = ORet es g ->
  exists ms q, cp_run (su_min su) (su_smax su) (su_strat su) ms (cp0 n) = Some (es, q) /\
    (length ms <= length sched)%nat /\ cshows g q.
Proof. exact (fun su n sched es g Hok => threads_exact su Hok n sched es g). Qed.
Print Assumptions C89_exact.

Example C89_case : exists es g q,
  crun (demo megabytes) (case_sched ++ more_sched) (cstart (demo megabytes) 2) = ORet es g /\
  cp_run (su_min (demo megabytes)) (su_smax (demo megabytes)) (su_strat (demo megabytes)) (case_moves ++ more_moves) (cp0 2) = Some (es, q) /\
  cp_tab q = g_tab g /\ cp_calls q = bw_trace (snd (g_aw g)) /\
  cp_chunks q = [mkP 2097152 512 2097604] /\ length es = 34%nat.
Proof. exact case_runs. Qed.
Print Assumptions C89_case.

(** And the other way round: whatever the moves allow happens under some schedule.
    Nothing the threads can do is left out above, and nothing is allowed in vain. *)
Theorem C89_every_move : forall su n ms es q,
  setup_ok su -> cp_run (su_min su) (su_smax su) (su_strat su) ms (cp0 n) = Some (es, q) ->
  exists sched g, crun su sched (cstart su n) = ORet es g /\ cshows g q.
Proof. exact (fun su n ms es q Hok => moves_real su Hok n ms es q). Qed.
Print Assumptions C89_every_move.

(** Two threads find no room and both ask for a chunk; later the last block of the
    newest chunk, which has room to grow, is moved all the same (2097232 to 2097248). *)
Example C89_case_every_move : exists es q,
  cp_run (su_min (demo megabytes)) (su_smax (demo megabytes)) (su_strat (demo megabytes)) turn_moves (cp0 2) = Some (es, q) /\
  length es = 20%nat /\ length (cp_chunks q) = 2%nat /\ map (option_map u_ptr) (cp_tab q) = [None; Some 2097184; Some 2097248].
Proof. exact turn_runs. Qed.
Print Assumptions C89_case_every_move.

(** Threads that ask for no more than what is left of the newest chunk are served
    from it, whatever the schedule: nothing is asked of the underlying allocator,
    and no request is refused. *)
Theorem C89_warm : forall su n sched1 es1 g1 sched2 es2 g2 r c e,
  setup_ok su -> crun su sched1 (cstart su n) = ORet es1 g1 -> Forall (fun p => p = Idle) (g_thr g1) ->
  ar_root (fst (g_aw g1)) = Some r ->
  load (bw_mem (snd (g_aw g1))) (r + CURSOR) 8 = Some c -> load (bw_mem (snd (g_aw g1))) (r + END) 8 = Some e ->
  crun su sched2 g1 = ORet es2 g2 -> forallb no_reset es2 = true -> c + most_called es2 <= e ->
  bw_trace (snd (g_aw g2)) = bw_trace (snd (g_aw g1)) /\ existsb refused es2 = false.
Proof. exact warm. Qed.
Print Assumptions C89_warm.

Example C89_case_warm : exists es1 g1 es2 g2,
  crun (demo megabytes) case_sched (cstart (demo megabytes) 2) = ORet es1 g1 /\ Forall (fun p => p = Idle) (g_thr g1) /\
  ar_root (fst (g_aw g1)) = Some 2097152 /\
  load (bw_mem (snd (g_aw g1))) (2097152 + CURSOR) 8 = Some 2097184 /\ load (bw_mem (snd (g_aw g1))) (2097152 + END) 8 = Some 2097664 /\
  crun (demo megabytes) more_sched g1 = ORet es2 g2 /\ forallb no_reset es2 = true /\ most_called es2 = 443.
Proof. exact case_warm. Qed.
Print Assumptions C89_case_warm.
