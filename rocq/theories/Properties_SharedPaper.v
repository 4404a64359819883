(** Property C90: threads on one [SyncBlinkAlloc], and other users of its
    underlying allocator, on paper.

    Vocabulary (SharedPaper.v): [op_run min smax bmax S ms (op0 n) = Some (es, q)] -
    [n] threads and the others make the moves [ms] on paper, an observer records
    [es], and the paper says [q] then.  A move is a move of a thread
    ([ByUs], the moves of C89) or a call of somebody else to the underlying
    allocator [S] ([ByThem]).  [S] gets to see all the calls so far, those of the
    threads and those of the others, and answers by them; so do both on paper.
    [oshows o q] - the state [o] of the code is what the paper says: headers in
    memory, blocks of the threads, blocks of the others, calls, threads. *)
From Verif Require Import Base Alloc Arena BlinkAlloc History Setup Concrete Conc Paper ProxyPaper ConcPaper
  Shared SharedPaper SharedPaperFacts SharedPaperAll SharedPaperDemo.

(** ** C90 Threads sharing an allocator, among others, do what the moves say *)
Theorem C90_exact : forall su n sched es o,
  setup_ok su -> orun su sched (ostart su n) = ORet es o ->
  exists ms q, op_run (su_min su) (su_smax su) (su_bmax su) (su_strat su) ms (op0 n) = Some (es, q) /\
    (length ms <= length sched)%nat /\ oshows o q.
Proof. exact (fun su n sched es o Hok => others_exact su Hok n sched es o). Qed.
Print Assumptions C90_exact.

Example C90_case : exists es o q,
  orun (demo megabytes) shared_sched (ostart (demo megabytes) 2) = ORet es o /\
  op_run (su_min (demo megabytes)) (su_smax (demo megabytes)) (su_bmax (demo megabytes)) (su_strat (demo megabytes)) shared_moves (op0 2) = Some (es, q) /\
  op_tab q = o_tab o /\ cp_tab (op_in q) = g_tab (o_g o) /\ cp_calls (op_in q) = bw_trace (snd (g_aw (o_g o))) /\
  length es = 17%nat /\ length (cp_calls (op_in q)) = 10%nat /\ map (option_map u_ptr) (op_tab q) = [Some 9437184; None].
Proof. exact shared_runs. Qed.
Print Assumptions C90_case.

(** And the other way round: whatever the moves allow happens under some schedule. *)
Theorem C90_every_move : forall su n ms es q,
  setup_ok su -> op_run (su_min su) (su_smax su) (su_bmax su) (su_strat su) ms (op0 n) = Some (es, q) ->
  exists sched o, orun su sched (ostart su n) = ORet es o /\ oshows o q.
Proof. exact (fun su n ms es q Hok => omoves_real su Hok n ms es q). Qed.
Print Assumptions C90_every_move.

(** Both threads find no room and ask for a chunk; somebody else gets a block between the two. *)
Example C90_case_every_move : exists es q,
  op_run (su_min (demo megabytes)) (su_smax (demo megabytes)) (su_bmax (demo megabytes)) (su_strat (demo megabytes)) crossing_moves (op0 2) = Some (es, q) /\
  length es = 8%nat /\ map p_at (cp_chunks (op_in q)) = [4194304; 2097152] /\ map (option_map u_ptr) (op_tab q) = [Some 1048576; Some 3145728].
Proof. exact crossing_runs. Qed.
Print Assumptions C90_case_every_move.
