(** Property C94, for threads: what the initial chunk size of a [SyncBlinkAlloc] means.

    Vocabulary.  [crun su sched (cstart su n) = ORet es g] (Conc.v) - [n] threads share a new
    allocator, interleaved as [sched] says; an observer records [es]; [most_called es]
    (ConcPaperDemo.v) - the size and alignment of everything they ask for in [es], the worst padding
    included; [no_reset] - not a reset; [cupstream g] (ConcAsk.v) - the calls made to the
    underlying allocator; [given] (ConcInitial.v) - a request that was granted.  Other
    vocabulary as in Properties_Alloc.v. *)
From Verif Require Import Base Alloc Arena BlinkAlloc History Setup SetupFacts Concrete Conc ConcAsk
  Paper ProxyPaper ConcPaper ConcPaperDemo ConcInitial ConcInitialDemo.

(** Threads that ask for no more than the configured size in all may get more than one chunk (C63),
    but no more than one for each thread. *)
Theorem C94_threads : forall su n sched es g, setup_ok su ->
  crun su sched (cstart su n) = ORet es g ->
  forallb no_reset es = true -> most_called es <= su_min su ->
  (length (filter given (cupstream g)) <= n)%nat.
Proof. exact chunk_each. Qed.
Print Assumptions C94_threads.

(** Two threads that ask for 231 bytes of 256 and get two chunks: the bound is reached. *)
Example C94_case_threads : setup_ok (demo megabytes) /\ su_min (demo megabytes) = 256 /\ exists es g,
  crun (demo megabytes) brief_sched (cstart (demo megabytes) 2) = ORet es g /\
  forallb no_reset es = true /\ most_called es = 231 /\ length (filter given (cupstream g)) = 2%nat.
Proof. exact (conj (demo_ok megabytes) brief_runs). Qed.
