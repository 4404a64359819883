(** C93: a global allocator together with its thread-local proxies, worked out on paper. *)
From Verif Require Import Base Alloc Arena BlinkAlloc History Setup Concrete BlinkDemo Proxy ProxyProps ProxyDemo Global GLocal GLocalProps GLocalDemo
  Paper ProxyPaper GlobalPaper GLocalPaper GLocalPaperFacts GLocalPaperDemo.

(** Any history of a [GlobalBlinkAlloc] and the proxies made by its [local], the operations of the
    global allocator's client and of the proxies' clients in any order, in both modes, over any
    honest allocator ([lax]: one whose [grow] and [shrink] accept any sizes): the answers (panics
    included), the mode, the blocks of every client, the chunks of the global allocator and of
    every proxy with their cursors, the chunk size of new proxies, and the calls to the underlying
    allocator are those of the arithmetic in GLocalPaper.v. *)
Theorem C93_exact su psmax nmax lax os : proxies_ok su psmax nmax ->
  exists rs s q, both_run su psmax nmax lax true os (both_start su) = ORet rs s /\
    lg_run (su_min su) (su_strat su) (su_dbg su) (su_smax su) (whichever lax) psmax nmax os lp0 = (rs, q) /\ lshows s q.
Proof. exact (fun H => both_on_paper su psmax nmax lax H os). Qed.
Print Assumptions C93_exact.

(** A debug build: blocks of proxies and of the global allocator side by side in the same chunk; a
    reset that is not attempted while a proxy has a chunk; a switch to direct mode that panics
    because of a live block; a proxy made in direct mode, whose chunk is at the start of the chunk
    that was kept. *)
Example C93_case : exists rs s, both_run (big megabytes) (2 ^ 40) (2 ^ 20) false true ltour (both_start (big megabytes)) = ORet rs s /\
  lshows s tour_paper /\
  firstn 7 rs = [RGlobal (GPtr 1048576); RProxy PDone; RGlobal GDone; RProxy (PBlock (Some (mkBlock 2097216 100)));
                 RProxy (PBlock None); RGlobal GDone; RGlobal (GPtr 2097440)] /\
  nth_error rs 15 = Some (RGlobal GPanicked) /\ nth_error rs 19 = Some (RProxy (PBlock (Some (mkBlock 3145792 8)))).
Proof. exact tour_on_paper. Qed.
Print Assumptions C93_case.

(** The proxies do not see the mode: with a switch to blink mode in between they get the same
    answers and the same blocks, record the same chunk size, and make the same calls to the
    underlying allocator. *)
Theorem C93_mode_unseen su psmax nmax lax os ps : proxies_ok su psmax nmax ->
  exists rs rs' s s', both_run su psmax nmax lax true (os ++ map LProxy ps) (both_start su) = ORet (rs ++ rs') s /\
    both_run su psmax nmax lax true (os ++ LGlobal GBlink :: map LProxy ps) (both_start su) = ORet (rs ++ RGlobal GDone :: rs') s' /\
    length rs = length os /\ proxy_blocks s = proxy_blocks s' /\ l_max s = l_max s' /\
    bw_trace (snd (g_aw (gc_st (l_g s)))) = bw_trace (snd (g_aw (gc_st (l_g s')))).
Proof. exact (mode_unseen su psmax nmax lax os ps). Qed.
Print Assumptions C93_mode_unseen.

(** A proxy needs a new chunk, in either mode. *)
Example C93_case_mode : exists rs rs' s s',
  both_run (big megabytes) (2 ^ 40) (2 ^ 20) false true (firstn 4 ltour ++ map LProxy [PUse (Some 0%nat) (OpAlloc (L 600 16) false)]) (both_start (big megabytes)) = ORet (rs ++ rs') s /\
  both_run (big megabytes) (2 ^ 40) (2 ^ 20) false true (firstn 4 ltour ++ LGlobal GBlink :: map LProxy [PUse (Some 0%nat) (OpAlloc (L 600 16) false)])
    (both_start (big megabytes)) = ORet (rs ++ RGlobal GDone :: rs') s' /\
  rs' = [RProxy (PBlock (Some (mkBlock 3145792 600)))] /\ g_on (gc_st (l_g s)) = false /\ g_on (gc_st (l_g s')) = true.
Proof. exact tour_mode. Qed.
Print Assumptions C93_case_mode.
