(** Property C64: how much memory a [BlinkAlloc] takes from the underlying allocator, and how
    often it asks, for any history.  Vocabulary as in Properties_Alloc.v; [cleared before] - the
    history [before] is empty or ends with a reset of either kind; [given tr] - how often the
    underlying allocator gave memory in the calls [tr]; [total_need] - the sizes requested, with
    the worst padding for each alignment. *)
From Verif Require Import Base Alloc Arena ArenaFacts BlinkAlloc BlinkFacts History HistoryFacts Setup SetupFacts SetupProps
  Concrete Tower SteadyBound AllocProps Growth.

(** ** C64 Memory in proportion to the requests, chunks in proportion to their logarithm *)
Theorem C64_memory_linear : forall su before after st,
  setup_ok su -> cleared before -> existsb is_reset after = false -> reached su (before ++ after) st ->
  capacity (tl (held st)) <= 2 * total_need after.
Proof. exact (fun su before after st Hok => linear_held su Hok before after st). Qed.
Print Assumptions C64_memory_linear.

(** And the newest chunk: no more is asked for than a fixed multiple of the same amounts. *)
Theorem C64_request_linear : forall su before after o st r st' lay ans,
  setup_ok su -> cleared before -> existsb is_reset after = false -> is_reset o = false ->
  reached su (before ++ after) st -> do_step su o st = ORet r st' -> calls st' = EvAlloc lay ans :: calls st ->
  l_size lay <= 2 * (Z.max (su_min su) (2 * total_need after) + need o + 97) + 2 ^ 14.
Proof. exact (fun su before after o st r st' lay ans Hok => linear_request su Hok before after o st r st' lay ans). Qed.
Print Assumptions C64_request_linear.

(** With [n] chunks held, at least [32 * (2 ^ ((n - 1) / 2) - 1)] bytes have been requested since
    the last reset. *)
Theorem C64_chunks_logarithmic : forall su before after st,
  setup_ok su -> cleared before -> existsb is_reset after = false -> reached su (before ++ after) st ->
  32 * 2 ^ Z.of_nat ((length (held st) - 1) / 2) <= total_need after + 32.
Proof. exact (fun su before after st Hok => log_held su Hok before after st). Qed.
Print Assumptions C64_chunks_logarithmic.

(** The same for the number of times that memory was obtained since the last reset. *)
Theorem C64_calls_logarithmic : forall su before after st0 rs st,
  setup_ok su -> cleared before -> existsb is_reset after = false ->
  reached su before st0 -> do_run su after st0 = ORet rs st ->
  32 * 2 ^ Z.of_nat ((given (calls st) - given (calls st0) - 1) / 2) <= total_need after + 32.
Proof. exact (fun su before after st0 rs st Hok => log_given su Hok before after st0 rs st). Qed.
Print Assumptions C64_calls_logarithmic.

(** Sixteen requests of 3000 bytes after a reset: five chunks are held, one of them from before. *)
Example C64_case : let before := h1 ++ [OpReset true] in let after := repeat (OpAlloc (L 3000 8) false) 16 in
  cleared before /\ existsb is_reset after = false /\ reached hs (before ++ after) (final hs (before ++ after)) /\
  length (held (final hs (before ++ after))) = 5%nat /\
  given (calls (final hs (before ++ after))) = 6%nat /\ given (calls (final hs before)) = 2%nat /\
  capacity (tl (held (final hs (before ++ after)))) = 45328 /\ total_need after = 48112.
Proof.
  split; [right; exists h1, true; reflexivity|]. split; [reflexivity|]. split; [apply final_reached, demo_ok|].
  split; [vm_compute; reflexivity|]. split; [vm_compute; reflexivity|]. split; [vm_compute; reflexivity|].
  split; vm_compute; reflexivity.
Qed.
