(** C88: the global allocators, worked out on paper. *)
From Verif Require Import Base Alloc Arena BlinkAlloc History Setup Concrete Global GlobalProps Paper ProxyPaper GlobalPaper GlobalPaperFacts GlobalPaperDemo.

(** Any documented-legal history of [UnsafeGlobalBlinkAlloc] ([sync] = false) or
    [GlobalBlinkAlloc] ([sync] = true), over any honest allocator whose [grow] and [shrink]
    accept any sizes (see C45, C46): the answers (panics included), the mode, every block, every
    chunk with its cursor, and the calls to the underlying allocator are those of the arithmetic
    in GlobalPaper.v. *)
Theorem C88_exact su sync os : setup_ok su -> exists rs c q, lenient_run su sync os (gstart su) = ORet rs c /\
  gp_run (su_min su) (su_strat su) (su_dbg su) (su_smax su) (fun _ _ => true) os gp0 = (rs, q) /\ gshows c q.
Proof. exact (fun H => lenient_exact su H sync os). Qed.
Print Assumptions C88_exact.

(** The same over a strict allocator, for clients that never change the size of a block in
    direct mode. *)
Theorem C88_exact_strict su sync os : setup_ok su -> exists rs c q, strict_run su sync os (gstart su) = ORet rs c /\
  gp_run (su_min su) (su_strat su) (su_dbg su) (su_smax su) Z.eqb os gp0 = (rs, q) /\ gshows c q.
Proof. exact (fun H => strict_exact su H sync os). Qed.
Print Assumptions C88_exact_strict.

(** A debug build: a block of direct mode lives through blink mode, where it cannot be freed (the
    client's operation is skipped); a reset with a live block panics and changes nothing; the
    chunk that is kept serves the next blink mode. *)
Example C88_case sync : exists c, lenient_run (demo megabytes) sync trip (gstart (demo megabytes)) =
  ORet [GPtr 1048576; GDone; GPtr 2097184; GPtr 3145760; GPtr 3145760; GSkipped; GDone; GPanicked; GPtr 3145760; GDone; GDone; GNull; GDone;
        GPtr 3145760] c /\
  gshows c (mkGP true [mkP 3145728 2048 3145780] [Some (false, mkU 1048576 100 (L 100 8)); None; None; Some (true, mkU 3145760 20 (L 20 4))]
    [EvResize 1048576 (L 100 8) (L 300 8) None; EvDealloc 2097152 (L 512 8); EvAlloc (L 2048 8) (Some (mkBlock 3145728 2048));
     EvAlloc (L 512 8) (Some (mkBlock 2097152 512)); EvAlloc (L 100 8) (Some (mkBlock 1048576 100))]).
Proof. exact (trip_case sync). Qed.
Print Assumptions C88_case.

(** The two types answer the same and make the same calls. *)
Theorem C88_same_answers len su os : setup_ok su -> exists rs c c', run_of len su false os (gstart su) = ORet rs c /\
  run_of len su true os (gstart su) = ORet rs c' /\ gc_tab c = gc_tab c' /\ g_on (gc_st c) = g_on (gc_st c') /\
  bw_trace (snd (g_aw (gc_st c))) = bw_trace (snd (g_aw (gc_st c'))).
Proof. exact (same_answers len su os). Qed.
Print Assumptions C88_same_answers.

(** In blink mode an operation other than a reset makes one request to the underlying allocator
    at most, and gives nothing back to it. *)
Theorem C88_one_call len su sync os rs c o : setup_ok su ->
  run_of len su sync os (gstart su) = ORet rs c -> g_on (gc_st c) = true -> ends o = false ->
  exists r c', run_of len su sync (os ++ [o]) (gstart su) = ORet (rs ++ [r]) c' /\
    (bw_trace (snd (g_aw (gc_st c'))) = bw_trace (snd (g_aw (gc_st c))) \/
     exists lay b, bw_trace (snd (g_aw (gc_st c'))) = EvAlloc lay b :: bw_trace (snd (g_aw (gc_st c)))).
Proof. exact (fun Hok => blink_one_call len su Hok sync os rs c o). Qed.
Print Assumptions C88_one_call.

(** With room in the newest chunk there is no call, and the answer is the next address of it. *)
Theorem C88_with_room len su sync os rs k older t tr l z : setup_ok su ->
  gp_run (su_min su) (su_strat su) (su_dbg su) (su_smax su) (may_of len) os gp0 = (rs, mkGP true (k :: older) t tr) ->
  layout_okb l = true -> req_okb (su_smax su) l = true -> 1 <= l_size l ->
  let a := least_multiple (p_free k) (l_align l) in
  p_free k + (l_size l + (l_align l - 1)) <= USIZE_MAX -> a + l_size l <= p_end k ->
  exists c, run_of len su sync (os ++ [GAlloc l z]) (gstart su) = ORet (rs ++ [GPtr a]) c /\
    gshows c (mkGP true (mkP (p_at k) (p_len k) (a + l_size l) :: older) (t ++ [Some (true, mkU a (l_size l) l)]) tr).
Proof. exact (fun Hok => blink_with_room len su Hok sync os rs k older t tr l z). Qed.
Print Assumptions C88_with_room.

(** In direct mode nothing happens to the chunks: they wait for the next blink mode. *)
Theorem C88_chunks_wait len su sync os rs c ds : setup_ok su ->
  run_of len su sync os (gstart su) = ORet rs c -> g_on (gc_st c) = false -> forallb stays ds = true ->
  exists rs' c', run_of len su sync (os ++ ds) (gstart su) = ORet rs' c' /\
    ar_root (fst (g_aw (gc_st c'))) = ar_root (fst (g_aw (gc_st c))) /\
    exists ks, headed (bw_mem (snd (g_aw (gc_st c)))) (ar_root (fst (g_aw (gc_st c)))) ks /\
      headed (bw_mem (snd (g_aw (gc_st c')))) (ar_root (fst (g_aw (gc_st c')))) ks.
Proof. exact (fun Hok => direct_waits len su Hok sync os rs c ds). Qed.
Print Assumptions C88_chunks_wait.

Example C88_case_room : exists rs t tr, gp_run (su_min (demo megabytes)) (su_strat (demo megabytes)) true (su_smax (demo megabytes)) (may_of true) trip gp0 =
  (rs, mkGP true [mkP 3145728 2048 3145780] t tr) /\
  least_multiple 3145780 16 + 100 <= p_end (mkP 3145728 2048 3145780) /\
  exists rs' q, gp_run (su_min (demo megabytes)) (su_strat (demo megabytes)) true (su_smax (demo megabytes)) (may_of true) (firstn 12 trip) gp0 = (rs', q) /\
    gp_on q = false /\ gp_chunks q = [mkP 3145728 2048 3145760].
Proof. exact trip_room. Qed.
Print Assumptions C88_case_room.
