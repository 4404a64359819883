(** Property C91: any number of threads on a [GlobalBlinkAlloc], on paper.

    Vocabulary (GConcPaper.v): [mp_run dbg min smax bmax S ms (mp0 n) = Some (es, q)] -
    [n] threads make the moves [ms] on paper, an observer records [es], and
    the paper says [q] then: the mode, the counter of allocations of debug builds
    ([dbg]), what each thread has left to do when the [SyncBlinkAlloc] is done with
    its call, and the paper of C90.  The moves are the calls of [GlobalAlloc],
    in blink mode followed by the moves of C89 ([GInside]) and the steps that
    zero and count; the two steps of [reset]; the two switches of the mode; and
    calls of anybody to the underlying allocator.  [mshows m q] - the
    state [m] of the code is what the paper says. *)
From Verif Require Import Base Alloc Arena BlinkAlloc History Setup Concrete Conc Paper ProxyPaper ConcPaper
  Shared SharedPaper GConc GConcPaper GConcPaperFacts GConcPaperAll GConcPaperDemo.

(** ** C91 Threads on a global allocator do what the moves say *)
Theorem C91_exact : forall su n sched es m,
  setup_ok su -> mrun su sched (mstart su n) = ORet es m ->
  exists ms q, mp_run (su_dbg su) (su_min su) (su_smax su) (su_bmax su) (su_strat su) ms (mp0 n) = Some (es, q) /\
    (length ms <= length sched)%nat /\ mshows m q.
Proof. exact (fun su n sched es m Hok => global_threads_exact su Hok n sched es m). Qed.
Print Assumptions C91_exact.

Example C91_case : exists es m q,
  mrun (demo megabytes) global_sched (mstart (demo megabytes) 2) = ORet es m /\
  mp_run (su_dbg (demo megabytes)) (su_min (demo megabytes)) (su_smax (demo megabytes)) (su_bmax (demo megabytes)) (su_strat (demo megabytes))
    global_moves (mp0 2) = Some (es, q) /\
  mp_on q = m_on m /\ mp_count q = m_count m /\ mp_post q = m_post m /\ cp_tab (op_in (mp_o q)) = g_tab (m_g m) /\
  cp_calls (op_in (mp_o q)) = bw_trace (snd (g_aw (m_g m))) /\ cp_chunks (op_in (mp_o q)) = [mkP 2097152 512 2097184] /\ length es = 28%nat.
Proof. exact global_runs. Qed.
Print Assumptions C91_case.

(** And the other way round: whatever the moves allow happens under some schedule. *)
Theorem C91_every_move : forall su n ms es q,
  setup_ok su -> mp_run (su_dbg su) (su_min su) (su_smax su) (su_bmax su) (su_strat su) ms (mp0 n) = Some (es, q) ->
  exists sched m, mrun su sched (mstart su n) = ORet es m /\ mshows m q.
Proof. exact (fun su n ms es q Hok => mmoves_real su Hok n ms es q). Qed.
Print Assumptions C91_every_move.

(** A thread allocates between the check of [reset] and the rest of it: the block is lost, and the
    counter stays at one, so that every later [reset] panics. *)
Example C91_case_every_move : exists es q,
  mp_run (su_dbg (demo megabytes)) (su_min (demo megabytes)) (su_smax (demo megabytes)) (su_bmax (demo megabytes)) (su_strat (demo megabytes))
    late_moves (mp0 2) = Some (es, q) /\
  last es (Got 0 0 false) = Panicked /\ mp_count q = 1 /\ cp_tab (op_in (mp_o q)) = [None].
Proof. exact late_runs. Qed.
Print Assumptions C91_case_every_move.
