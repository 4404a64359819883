(** Property C95: how often threads that share a [SyncBlinkAlloc] make it ask for memory, and how much
    it takes.

    Vocabulary.  [crun su sched (cstart su n) = ORet es g] (Conc.v) - [n] threads share a new
    allocator, interleaved as [sched] says; an observer records [es]; [most_called es]
    (ConcPaperDemo.v) - the size and alignment of everything they ask for in [es], the worst padding
    included; [no_reset] - not a reset; [cupstream g] (ConcAsk.v) - the calls made to the
    underlying allocator; [given] (ConcInitial.v) - a request that was granted;
    [refused] (ConcPaperDemo.v) - a thread got no block; [obtained]
    (ConcGrowth.v) - the bytes it gave.  Other vocabulary as in Properties_Alloc.v. *)
From Verif Require Import Base Alloc Arena BlinkAlloc History Setup SetupFacts Concrete Conc ConcAsk
  Paper ProxyPaper ConcPaper ConcPaperDemo ConcInitial ConcGrowth ConcStampede ConcGrowthDemo.

(** ** C95 Chunks and memory of a shared allocator *)

(** Chunks: one for each thread when there is none yet, and whenever room has run out; and room runs
    out (here [m] times) only as often as the logarithm of what is asked for. *)
Theorem C95_chunks : forall su n sched es g, setup_ok su ->
  crun su sched (cstart su n) = ORet es g -> forallb no_reset es = true ->
  exists m, (length (filter given (cupstream g)) <= n * (1 + m))%nat /\
    32 * 2 ^ Z.of_nat (m / 2) <= most_called es + 32.
Proof. exact chunks_few. Qed.
Print Assumptions C95_chunks.

(** The same for what happens after a reset: from any state in which no call is under way and the
    allocator has no chunk, or one of which nothing is used ([clean], ConcGrowth.v). *)
Theorem C95_after_reset : forall su n sched1 es1 g1 sched2 es2 g2, setup_ok su ->
  crun su sched1 (cstart su n) = ORet es1 g1 -> clean g1 ->
  crun su sched2 g1 = ORet es2 g2 -> forallb no_reset es2 = true ->
  exists m, (length (filter given (cupstream g2)) <= length (filter given (cupstream g1)) + n * (1 + m))%nat /\
    32 * 2 ^ Z.of_nat (m / 2) <= most_called es2 + 32.
Proof. exact chunks_since. Qed.
Print Assumptions C95_after_reset.

(** A reset (of either kind, through [&mut]) that is carried out leads to such a state. *)
Theorem C95_reset_cleans : forall su n sched es g keep es' g', setup_ok su ->
  crun su sched (cstart su n) = ORet es g -> crun su [Exclusive keep] g = ORet es' g' -> es' <> [] -> clean g'.
Proof. exact reset_clean. Qed.
Print Assumptions C95_reset_cleans.

(** The case of C89, which ends with a reset; then both threads find the chunk too small. *)
Example C95_case_after_reset : exists es1 g1 es2 g2,
  crun (demo megabytes) case_sched (cstart (demo megabytes) 2) = ORet es1 g1 /\ clean g1 /\
  crun (demo megabytes) again_sched g1 = ORet es2 g2 /\ forallb no_reset es2 = true /\ most_called es2 = 3922 /\
  length (filter given (cupstream g1)) = 2%nat /\ length (filter given (cupstream g2)) = 4%nat.
Proof. exact again_runs. Qed.

(** Memory is exponential in the number of chunks, whatever they were needed for; *)
Theorem C95_memory : forall su n sched es g, setup_ok su ->
  crun su sched (cstart su n) = ORet es g -> forallb no_reset es = true ->
  64 * 2 ^ Z.of_nat (length (filter given (cupstream g)) / 2) <= obtained (cupstream g) + 64.
Proof. exact chunks_large. Qed.
Print Assumptions C95_memory.

(** so, unlike in C64, it is not in proportion to the requests.  Any number [n] of threads that ask for [l]
    each may take memory exponential in [n], unless one of them is refused. *)
Theorem C95_exponential : forall su n l, setup_ok su -> req_ok (su_smax su) l -> exists sched es g,
  crun su sched (cstart su n) = ORet es g /\ forallb no_reset es = true /\
  most_called es = Z.of_nat n * (l_size l + (l_align l - 1)) /\
  (existsb refused es = true \/
   length (filter given (cupstream g)) = n /\ 64 * 2 ^ Z.of_nat (n / 2) <= obtained (cupstream g) + 64).
Proof. exact stampede_code. Qed.
Print Assumptions C95_exponential.

(** For example 32 threads that ask for one byte each: none is refused, and they take five gigabytes. *)
Theorem C95_stampede : setup_ok (demo vast) /\ su_min (demo vast) = 256 /\ exists sched es g,
  crun (demo vast) sched (cstart (demo vast) 32) = ORet es g /\ forallb no_reset es = true /\ existsb refused es = false /\
  most_called es = 32 /\ length (filter given (cupstream g)) = 32%nat /\ obtained (cupstream g) = 5207001088.
Proof. exact (conj (demo_ok vast) (conj eq_refl stampede_runs)). Qed.
Print Assumptions C95_stampede.

(** Three threads that find no chunk, and two that run out of room later. *)
Example C95_case : setup_ok (demo vast) /\ exists sched es g,
  crun (demo vast) sched (cstart (demo vast) 3) = ORet es g /\ forallb no_reset es = true /\ existsb refused es = false /\
  most_called es = 8132 /\ length (filter given (cupstream g)) = 5%nat /\ obtained (cupstream g) = 18432.
Proof. exact (conj (demo_ok vast) crowd_runs). Qed.
