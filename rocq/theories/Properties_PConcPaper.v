(** Property C92: any number of threads, a [SyncBlinkAlloc] and its proxies, on paper.

    Vocabulary (PConcPaper.v): [rp_run dbg min smax psmax nmax S ms (rp0 n) = Some (es, q)] -
    [n] threads make the moves [ms] on paper, an observer records [es], and the paper
    says [q] then: the largest capacity recorded, the proxies as in C86, which
    blocks of the shared allocator are their chunks, what each thread has left to do
    on a proxy, and the paper of C89.  The moves are calls of the shared allocator
    followed by the moves of C89 ([NInside]); [local], which may find an older value
    recorded ([NLocal]); operations on a proxy ([NUse]), which are done at
    once, or call the shared allocator for a chunk, and go on when they
    have it ([NNext]); [reset] and [drop] of a proxy; and [update_max_local_alloc]
    ([NUpdate]).  [rshows s q] - the state [s] of the code
    is what the paper says. *)
From Verif Require Import Base Alloc Arena BlinkAlloc History Setup Concrete Conc Paper ConcPaper GConcPaper Proxy ProxyFacts ProxyProps ProxyPaper
  ProxyDemo PConc PConcDemo PConcPaper PConcPaperFacts PConcPaperAll PConcPaperDemo.

(** ** C92 Threads on a shared allocator and its proxies do what the moves say *)
Theorem C92_exact : forall su psmax nmax n sched es s,
  proxies_ok su psmax nmax -> rrun su psmax nmax sched (rstart su n) = ORet es s ->
  exists ms q, rp_run (su_dbg su) (su_min su) (su_smax su) psmax nmax (su_strat su) ms (rp0 n) = Some (es, q) /\
    (length ms <= length sched)%nat /\ rshows s q.
Proof. exact (fun su psmax nmax n sched es s Hok => proxies_exact su psmax nmax Hok n sched es s). Qed.
Print Assumptions C92_exact.

Example C92_case : exists es s q,
  rrun ps0 (2 ^ 40) (2 ^ 20) proxy_sched (rstart ps0 3) = ORet es s /\ on_paper 3 proxy_moves = Some (es, q) /\
  rp_max q = r_max s /\ rp_chunk q = r_chunk s /\ rp_job q = r_job s /\ rp_prox q = [None; None] /\ cp_tab (rp_in q) = g_tab (r_g s) /\
  cp_calls (rp_in q) = bw_trace (snd (g_aw (r_g s))) /\ cp_chunks (rp_in q) = [mkP 3145728 16384 3145760] /\ length es = 24%nat.
Proof. exact proxies_run. Qed.
Print Assumptions C92_case.

(** And the other way round: whatever the moves allow happens under some schedule. *)
Theorem C92_every_move : forall su psmax nmax n ms es q,
  proxies_ok su psmax nmax -> rp_run (su_dbg su) (su_min su) (su_smax su) psmax nmax (su_strat su) ms (rp0 n) = Some (es, q) ->
  exists sched s, rrun su psmax nmax sched (rstart su n) = ORet es s /\ rshows s q.
Proof. exact (fun su psmax nmax n ms es q Hok => rmoves_real su psmax nmax Hok n ms es q). Qed.
Print Assumptions C92_every_move.

(** A thread has its chunk and has not gone on; the other proxy is gone, and its capacity may or may not be
    what the next proxy finds. *)
Example C92_case_every_move : exists es q, on_paper 2 race_moves = Some (es, q) /\ length es = 12%nat /\
  rp_max q = 224 /\ map (option_map pp_min) (rp_prox q) = [None; Some 0; Some 224; Some 0] /\ rp_chunk q = [1%nat; 0%nat] /\
  nth_error (rp_job q) 1 = Some (RAns 1 (OpAlloc (mkLayout 200 16) true) (mkLayout 256 8) (Some 1%nat)) /\ length (cp_chunks (rp_in q)) = 2%nat.
Proof. exact race_runs. Qed.
Print Assumptions C92_case_every_move.
