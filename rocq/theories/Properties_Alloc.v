(** Properties C01-C21: [BlinkAlloc] (and [SyncBlinkAlloc] used by one thread)
    over an arbitrary contract-abiding underlying allocator.

    Vocabulary (Setup.v, History.v, Alloc.v): [reached su ops st] - a client
    with setup [su] is in state [st] after the history [ops]; [c_tab st] - the
    blocks the client owns, by handle; [memory st] - the memory; [calls st] -
    all calls made to the underlying allocator, newest first; [held st] - the
    chunks currently held from it, newest first.  A setup consists of the build
    mode, the chunk size and the strategy of the underlying allocator. *)
From Verif Require Import Base Alloc Arena ArenaFacts BlinkAlloc BlinkFacts History HistoryFacts Setup SetupFacts SetupProps
  Concrete Tower SteadyBound AllocProps.

(** ** C01 Returned blocks are aligned, large enough and inside a held chunk *)
Theorem C01_blocks_well_placed : forall su ops st h u,
  setup_ok su -> reached su ops st -> get h (c_tab st) = Some u ->
  0 < u_ptr u /\ u_ptr u mod l_align (u_layout u) = 0 /\ l_size (u_layout u) <= u_len u /\
  u_ptr u + u_len u <= su_amax su /\ exists k, In k (held st) /\ inside u k.
Proof. exact (fun su ops st h u Hok => reached_block su Hok ops st h u). Qed.
Print Assumptions C01_blocks_well_placed.

Example C01_case : setup_ok hs /\ reached hs h1 (final hs h1) /\
  get 0 (c_tab (final hs h1)) = Some (mkU 2102240 200 (L 200 32)) /\
  get 2 (c_tab (final hs h1)) = Some (mkU 2097216 5000 (L 5000 64)).
Proof.
  split; [apply demo_ok|]. split; [apply final_reached, demo_ok|]. split; vm_compute; reflexivity.
Qed.

(** ** C02 Live blocks never overlap *)
Theorem C02_live_blocks_disjoint : forall su ops st h1 h2 u1 u2,
  setup_ok su -> reached su ops st -> h1 <> h2 ->
  get h1 (c_tab st) = Some u1 -> get h2 (c_tab st) = Some u2 ->
  forall x, u_ptr u1 <= x < u_ptr u1 + u_len u1 -> ~ u_ptr u2 <= x < u_ptr u2 + u_len u2.
Proof. exact (fun su ops st h1 h2 u1 u2 Hok => reached_disjoint su Hok ops st h1 h2 u1 u2). Qed.
Print Assumptions C02_live_blocks_disjoint.

Example C02_case : reached hs h2 (final hs h2) /\
  c_tab (final hs h2) = [None; None; None; Some (mkU 2097184 64 (L 64 1)); Some (mkU 2097248 3000 (L 3000 8))].
Proof. split; [apply final_reached, demo_ok|vm_compute; reflexivity]. Qed.

(** ** C03 Live blocks behave as independent buffers *)
Theorem C03_independent_buffers : forall su ops,
  setup_ok su -> exists rs st, do_run su ops (start su) = ORet rs st /\ length rs = length ops /\
    agrees (memory st) (c_tab st) (srun ops (map (option_map b_len) rs) []).
Proof. exact refinement. Qed.
Print Assumptions C03_independent_buffers.

(** In the example the buffer of handle 0 keeps the two bytes written before it was moved. *)
Example C03_case : results hs h1 =
    [Some (mkBlock 1048608 100); None; Some (mkBlock 1048708 10); Some (mkBlock 2097216 5000);
     Some (mkBlock 2102240 200); None] /\
  option_map (fun b => (s_len b, s_at b 0, s_at b 1, s_at b 2))
    (get 0 (srun h1 (map (option_map b_len) (results hs h1)) [])) =
  Some (200, Some (Byte 7), Some (Byte 8), None).
Proof. split; vm_compute; reflexivity. Qed.

(** ** C04 Resize preserves the common prefix *)
Theorem C04_resize_keeps_prefix : forall su ops st h u old new b st',
  setup_ok su -> reached su ops st -> get h (c_tab st) = Some u -> fits old u ->
  req_ok (su_smax su) new -> do_step su (OpResize h old new) st = ORet (Some b) st' ->
  get h (c_tab st') = Some (mkU (b_ptr b) (b_len b) new) /\
  0 < b_ptr b /\ b_ptr b mod l_align new = 0 /\ l_size new <= b_len b /\
  (forall i, 0 <= i < Z.min (l_size old) (l_size new) ->
     memory st' (b_ptr b + i) = memory st (u_ptr u + i)) /\
  (forall h' v x, h' <> h -> get h' (c_tab st) = Some v -> in_u x v ->
     get h' (c_tab st') = Some v /\ memory st' x = memory st x).
Proof. exact (fun su ops st h u old new b st' Hok => reached_resize su Hok ops st h u old new b st'). Qed.
Print Assumptions C04_resize_keeps_prefix.

Example C04_case : exists u b st',
  reached hs (firstn 4 h1) (final hs (firstn 4 h1)) /\
  get 0 (c_tab (final hs (firstn 4 h1))) = Some u /\ fits (L 100 16) u /\
  req_ok (su_smax hs) (L 200 32) /\ 
  do_step hs (OpResize 0 (L 100 16) (L 200 32)) (final hs (firstn 4 h1)) = ORet (Some b) st' /\
  b_ptr b <> u_ptr u.
Proof.
  exists (mkU 1048608 100 (L 100 16)).
  destruct (final_step hs (firstn 4 h1) (OpResize 0 (L 100 16) (L 200 32)) (demo_ok _)) as (r & E & Er).
  vm_compute in Er. injection Er as Er. rewrite <- Er in E.
  eexists. eexists. split; [apply final_reached, demo_ok|]. split; [vm_compute; reflexivity|].
  split; [unfold fits; cbn; lia|]. split; [vm_compute; reflexivity|]. split; [exact E|]. discriminate.
Qed.

(** ** C05 A failed allocation or resize changes nothing for the client *)
Theorem C05_failure_changes_nothing : forall su ops st o l st',
  setup_ok su -> reached su ops st -> requests su st o l -> do_step su o st = ORet None st' ->
  c_tab st' = c_tab st /\ held st' = held st /\
  forall h u x, get h (c_tab st) = Some u -> in_u x u -> memory st' x = memory st x.
Proof. exact (fun su ops st o l st' Hok => reached_fail su Hok ops st o l st'). Qed.
Print Assumptions C05_failure_changes_nothing.

Example C05_case : exists u st',
  reached (demo stingy) full_hist (final (demo stingy) full_hist) /\
  get 0 (c_tab (final (demo stingy) full_hist)) = Some u /\
  requests (demo stingy) (final (demo stingy) full_hist) (OpResize 0 (L 480 1) (L 900 1)) (L 900 1) /\
  do_step (demo stingy) (OpResize 0 (L 480 1) (L 900 1)) (final (demo stingy) full_hist) = ORet None st'.
Proof.
  exists (mkU 1048608 480 (L 480 1)).
  destruct (final_step (demo stingy) full_hist (OpResize 0 (L 480 1) (L 900 1)) (demo_ok _)) as (r & E & Er).
  vm_compute in Er. injection Er as Er. rewrite <- Er in E.
  eexists. split; [apply final_reached, demo_ok|]. split; [vm_compute; reflexivity|]. split; [|exact E].
  cbn [requests]. split; [reflexivity|]. split; [vm_compute; reflexivity|].
  exists (mkU 1048608 480 (L 480 1)). split; [vm_compute; reflexivity|unfold fits; cbn; lia].
Qed.

(** ** C06 Shrinking without raising the alignment is free and infallible *)
Theorem C06_shrink_in_place : forall su ops st h u old new,
  setup_ok su -> reached su ops st -> get h (c_tab st) = Some u -> fits old u ->
  req_ok (su_smax su) new -> l_size new <= l_size old -> l_align new <= l_align old ->
  exists st', do_step su (OpResize h old new) st = ORet (Some (mkBlock (u_ptr u) (l_size old))) st' /\
    calls st' = calls st /\ c_w st' = c_w st.
Proof. exact (fun su ops st h u old new Hok => reached_shrink su Hok ops st h u old new). Qed.
Print Assumptions C06_shrink_in_place.

(** A block in an old chunk, which is full, while the underlying allocator refuses everything. *)
Example C06_case : exists u,
  reached (demo stingy) full_hist (final (demo stingy) full_hist) /\
  get 0 (c_tab (final (demo stingy) full_hist)) = Some u /\ fits (L 480 1) u /\
  req_ok (su_smax (demo stingy)) (L 8 1).
Proof.
  exists (mkU 1048608 480 (L 480 1)). split; [apply final_reached, demo_ok|].
  split; [vm_compute; reflexivity|]. split; [unfold fits; cbn; lia|vm_compute; reflexivity].
Qed.

(** ** C07 Documented: shrink never moves, nor fails on, a block that is aligned already *)
Theorem C07_shrink_may_move_refuted : exists su ops st h u old new b st',
  setup_ok su /\ reached su ops st /\ get h (c_tab st) = Some u /\ fits old u /\
  req_ok (su_smax su) new /\ l_size new <= l_size old /\ u_ptr u mod l_align new = 0 /\
  do_step su (OpResize h old new) st = ORet (Some b) st' /\ b_ptr b <> u_ptr u.
Proof. exact shrink_moves. Qed.
Print Assumptions C07_shrink_may_move_refuted.

Theorem C07_shrink_may_fail_refuted : exists su ops st h u old new st',
  setup_ok su /\ reached su ops st /\ get h (c_tab st) = Some u /\ fits old u /\
  req_ok (su_smax su) new /\ l_size new <= l_size old /\ u_ptr u mod l_align new = 0 /\
  do_step su (OpResize h old new) st = ORet None st'.
Proof. exact shrink_fails. Qed.
Print Assumptions C07_shrink_may_fail_refuted.

(** What holds: with an alignment not larger than the old one it is C06.  With a larger one the
    call - shrink or grow - does what an allocation of the new layout would do, and fails when that
    fails; the block always moves, aligned already or not. *)
Theorem C07_raising_alignment_partial : forall su ops st h u old new,
  setup_ok su -> reached su ops st -> get h (c_tab st) = Some u -> fits old u -> req_ok (su_smax su) new ->
  l_align old < l_align new ->
  exists r st1 st2, do_step su (OpAlloc new false) st = ORet r st1 /\ do_step su (OpResize h old new) st = ORet r st2 /\
    calls st2 = calls st1 /\ fst (c_w st2) = fst (c_w st1) /\
    forall b, r = Some b -> 0 < l_size old -> 0 < l_size new -> b_ptr b <> u_ptr u.
Proof. exact raising_alignment. Qed.
Print Assumptions C07_raising_alignment_partial.

Example C07_raising_case : let st := final (demo megabytes) shrink_hist in
  reached (demo megabytes) shrink_hist st /\ get 0 (c_tab st) = Some (mkU 1048608 64 (L 64 1)) /\
  fits (L 64 1) (mkU 1048608 64 (L 64 1)) /\ req_ok (su_smax (demo megabytes)) (L 8 8) /\ 1048608 mod 8 = 0.
Proof.
  split; [apply final_reached, demo_ok|]. split; [vm_compute; reflexivity|].
  split; [unfold fits; cbn; lia|]. split; vm_compute; reflexivity.
Qed.

(** ** C08 Deallocate never disturbs anything *)
Theorem C08_deallocate_is_inert : forall su ops st h u l,
  setup_ok su -> reached su ops st -> get h (c_tab st) = Some u -> fits l u ->
  exists r st', do_step su (OpDealloc h l) st = ORet r st' /\
    fst (c_w st') = fst (c_w st) /\ calls st' = calls st /\ (forall x, memory st' x = memory st x) /\
    forall h' v, h' <> h -> get h' (c_tab st) = Some v -> get h' (c_tab st') = Some v.
Proof. exact (fun su ops st h u l Hok => reached_dealloc su Hok ops st h u l). Qed.
Print Assumptions C08_deallocate_is_inert.

Example C08_case : exists u, reached hs (firstn 5 h1) (final hs (firstn 5 h1)) /\
  get 2 (c_tab (final hs (firstn 5 h1))) = Some u /\ fits (L 5000 64) u.
Proof.
  exists (mkU 2097216 5000 (L 5000 64)). split; [apply final_reached, demo_ok|].
  split; [vm_compute; reflexivity|unfold fits; cbn; lia].
Qed.

(** ** C09 Growing the last block is in place *)
Theorem C09_grow_at_tip : forall su ops st l z b st1 mid rs st2 u old new k,
  setup_ok su -> reached su ops st -> req_ok (su_smax su) l ->
  do_step su (OpAlloc l z) st = ORet (Some b) st1 ->
  forallb is_passive mid = true -> do_run su mid st1 = ORet rs st2 ->
  get (length (c_tab st)) (c_tab st2) = Some u -> fits old u -> req_ok (su_smax su) new ->
  l_align new <= l_align old -> l_size old <= l_size new ->
  In k (held st2) -> inside u k -> u_ptr u + l_size new <= u_ptr k + u_len k ->
  exists b' st3, do_step su (OpResize (length (c_tab st)) old new) st2 = ORet (Some b') st3 /\
    b_ptr b' = u_ptr u /\ b_len b' = l_size new /\ calls st3 = calls st2 /\
    forall x, ~ u_ptr k <= x < u_ptr k + HEADER -> memory st3 x = memory st2 x.
Proof.
  exact (fun su ops st l z b st1 mid rs st2 u old new k Hok =>
           reached_tip su Hok ops st l z b st1 mid rs st2 u old new k).
Qed.
Print Assumptions C09_grow_at_tip.

Example C09_case : exists b rs u k,
  do_step hs (OpAlloc (L 64 1) false) (final hs h1) =
    ORet (Some b) (final hs (h1 ++ [OpAlloc (L 64 1) false])) /\
  do_run hs c09_mid (final hs (h1 ++ [OpAlloc (L 64 1) false])) =
    ORet rs (final hs ((h1 ++ [OpAlloc (L 64 1) false]) ++ c09_mid)) /\
  forallb is_passive c09_mid = true /\ length (c_tab (final hs h1)) = 3%nat /\
  get 3 (c_tab (final hs ((h1 ++ [OpAlloc (L 64 1) false]) ++ c09_mid))) = Some u /\
  In k (held (final hs ((h1 ++ [OpAlloc (L 64 1) false]) ++ c09_mid))) /\
  inside u k /\ u_ptr u + 2000 <= u_ptr k + u_len k.
Proof.
  destruct (final_step hs h1 (OpAlloc (L 64 1) false) (demo_ok _)) as (r & E & Er).
  vm_compute in Er. injection Er as Er. rewrite <- Er in E.
  destruct (final_run hs (h1 ++ [OpAlloc (L 64 1) false]) c09_mid (demo_ok _)) as (rs & E2 & _).
  exists (mkBlock 2102440 64), rs, (mkU 2102440 64 (L 64 1)), (mkU 2097152 8292 (L 8192 8)).
  split; [exact E|]. split; [exact E2|]. split; [reflexivity|]. split; [vm_compute; reflexivity|].
  split; [vm_compute; reflexivity|]. split; [vm_compute; left; reflexivity|].
  unfold inside, HEADER; cbn; lia.
Qed.

(** ** C10 Documented: shrinking at the tip frees memory for reuse *)
Theorem C10_tip_shrink_frees_refuted : exists su ops st u b st',
  setup_ok su /\ ops = [OpAlloc (L 400 1) false; OpResize 0 (L 400 1) (L 10 1)] /\
  reached su ops st /\ c_tab st = [Some u] /\ u_layout u = L 10 1 /\
  do_step su (OpAlloc (L 100 1) false) st = ORet (Some b) st' /\
  exists k1 k2, held st = [k1] /\ inside u k1 /\ 10 + 100 <= u_len k1 - HEADER /\ held st' = [k2; k1].
Proof. exact shrink_frees_nothing. Qed.
Print Assumptions C10_tip_shrink_frees_refuted.

(** Never does a shrink to the same or a smaller alignment free anything: the block is returned
    with its old length, the allocator is as before, and all later requests have the same
    answers as without the shrink. *)
Theorem C10_shrink_frees_never : forall su ops st h u old new reqs rs st',
  setup_ok su -> reached su ops st -> get h (c_tab st) = Some u -> fits old u -> req_ok (su_smax su) new ->
  l_align new <= l_align old -> l_size new <= l_size old ->
  do_run su (map (fun x => OpAlloc (fst x) (snd x)) reqs) st = ORet rs st' ->
  exists st1 st1', do_step su (OpResize h old new) st = ORet (Some (mkBlock (u_ptr u) (l_size old))) st1 /\
    c_w st1 = c_w st /\
    do_run su (map (fun x => OpAlloc (fst x) (snd x)) reqs) st1 = ORet rs st1' /\ c_w st1' = c_w st'.
Proof. exact shrink_frees_never. Qed.
Print Assumptions C10_shrink_frees_never.

Example C10_never_case : let st := final hs [OpAlloc (L 400 1) false] in
  reached hs [OpAlloc (L 400 1) false] st /\ get 0 (c_tab st) = Some (mkU 1048608 400 (L 400 1)) /\
  fits (L 400 1) (mkU 1048608 400 (L 400 1)) /\ req_ok (su_smax hs) (L 10 1) /\
  exists rs st', do_run hs (map (fun x => OpAlloc (fst x) (snd x)) [(L 60 8, false); (L 500 1, true)]) st = ORet rs st'.
Proof.
  split; [apply final_reached, demo_ok|]. split; [vm_compute; reflexivity|]. split; [unfold fits; cbn; lia|].
  split; [vm_compute; reflexivity|].
  destruct (reached_run_total hs (demo_ok _) [OpAlloc (L 400 1) false] (final hs [OpAlloc (L 400 1) false])
    (map (fun x => OpAlloc (fst x) (snd x)) [(L 60 8, false); (L 500 1, true)])) as (rs & st' & E & _);
    [apply final_reached, demo_ok|eauto].
Qed.

(** ** C11 Client writes cannot corrupt the allocator *)
Theorem C11_headers_untouched : forall su ops st h u k x,
  setup_ok su -> reached su ops st -> get h (c_tab st) = Some u -> In k (held st) ->
  in_u x u -> ~ u_ptr k <= x < u_ptr k + HEADER.
Proof. exact (fun su ops st h u k x Hok => reached_header su Hok ops st h u k x). Qed.
Print Assumptions C11_headers_untouched.

(** Whatever was written, everything that follows works as if the blocks were independent buffers:
    this is C03 for histories with writes; here for a continuation of any reached state. *)
Theorem C11_writes_do_not_break_later_calls : forall su ops st h off cs o,
  setup_ok su -> reached su ops st ->
  exists r st1, do_step su (OpWrite h off cs) st = ORet r st1 /\
  exists r' st2, do_step su o st1 = ORet r' st2.
Proof. exact write_then_any. Qed.
Print Assumptions C11_writes_do_not_break_later_calls.

(** A write filling a whole block changes the memory. *)
Example C11_case :
  reached hs h2 (final hs h2) /\ memory (final hs h2) (2097248 + 2999) = Byte 3 /\
  get 4 (c_tab (final hs h2)) = Some (mkU 2097248 3000 (L 3000 8)) /\
  held (final hs h2) = [mkU 2097152 8292 (L 8192 8)].
Proof. split; [apply final_reached, demo_ok|]. repeat split; vm_compute; reflexivity. Qed.

(** ** C12 The underlying allocator's contract is respected *)
Theorem C12_upstream_contract : forall su ops st,
  setup_ok su -> reached su ops st -> legal (su_bmax su) (calls st).
Proof. exact (fun su ops st Hok => reached_legal su Hok ops st). Qed.
Print Assumptions C12_upstream_contract.

Example C12_case : reached hs h2 (final hs h2) /\
  calls (final hs h2) =
    [EvDealloc 1048576 (L 612 8); EvAlloc (L 8192 8) (Some (mkBlock 2097152 8292));
     EvAlloc (L 512 8) (Some (mkBlock 1048576 612))].
Proof. split; [apply final_reached, demo_ok|vm_compute; reflexivity]. Qed.

(** ** C13 Reset keeps at most the newest chunk; final reset and drop return everything *)
Theorem C13_reset_returns_chunks : forall su ops st,
  setup_ok su -> reached su ops st ->
  (exists r st', do_step su (OpReset true) st = ORet r st' /\ held st' = firstn 1 (held st)) /\
  (exists r st', do_step su (OpReset false) st = ORet r st' /\ held st' = []) /\
  (exists w', blink_drop (bot su) (su_dbg su) (c_w st) = ORet tt w' /\ outstanding (bw_trace (snd w')) = []).
Proof. exact (fun su ops st Hok => reached_reset su Hok ops st). Qed.
Print Assumptions C13_reset_returns_chunks.

Example C13_case : reached hs h1 (final hs h1) /\
  held (final hs h1) = [mkU 2097152 8292 (L 8192 8); mkU 1048576 612 (L 512 8)].
Proof. split; [apply final_reached, demo_ok|vm_compute; reflexivity]. Qed.

(** ** C14 A warm allocator does not touch the underlying allocator *)
Theorem C14_warm_allocator : forall su ops st r st1 k work,
  setup_ok su -> reached su ops st -> do_step su (OpReset true) st = ORet r st1 -> held st1 = [k] ->
  existsb is_reset work = false -> total_need work <= u_len k - HEADER ->
  (exists rs st2, do_run su work st1 = ORet rs st2 /\ calls st2 = calls st1) /\
  (forall before o after rs st2 l, work = before ++ o :: after ->
     do_run su before st1 = ORet rs st2 -> requests su st2 o l ->
     exists b st3, do_step su o st2 = ORet (Some b) st3).
Proof. exact (fun su ops st r st1 k work Hok => reached_warm su Hok ops st r st1 k work). Qed.
Print Assumptions C14_warm_allocator.

Example C14_case : exists r,
  do_step hs (OpReset true) (final hs h1) = ORet r (final hs (h1 ++ [OpReset true])) /\
  held (final hs (h1 ++ [OpReset true])) = [mkU 2097152 8292 (L 8192 8)] /\
  total_need [OpAlloc (L 64 1) true; OpAlloc (L 3000 8) false; OpResize 3 (L 64 1) (L 4000 512)]
    <= 8292 - HEADER.
Proof.
  destruct (final_step hs h1 (OpReset true) (demo_ok _)) as (r & E & _). exists r.
  split; [exact E|]. split; [vm_compute; reflexivity|vm_compute; discriminate].
Qed.

(** ** C15 Documented: steady usage converges to one chunk *)
Theorem C15_steady_usage_refuted : exists su work, setup_ok su /\ existsb is_reset work = false /\
  forall n, exists st rs st',
    reached su (concat (repeat (work ++ [OpReset true]) n)) st /\
    do_run su work st = ORet rs st' /\ (2 <= length (held st'))%nat /\ calls st' <> calls st.
Proof. exact steady_needs_chunks. Qed.
Print Assumptions C15_steady_usage_refuted.

(** What is true instead.  The memory held is bounded however often the workload is repeated:
    the chunks besides the newest have at most twice the bytes the workload can need, and no
    chunk that is asked for exceeds a bound that does not depend on the number of rounds. *)
Theorem C15_bounded_partial : forall su work part rest n st,
  setup_ok su -> existsb is_reset work = false -> work = part ++ rest ->
  reached su (concat (repeat (work ++ [OpReset true]) n) ++ part) st ->
  capacity (tl (held st)) <= 2 * total_need work /\
  forall o rest' r st' lay ans, rest = o :: rest' -> do_step su o st = ORet r st' ->
    calls st' = EvAlloc lay ans :: calls st ->
    l_size lay <= 2 * (Z.max (su_min su) (2 * total_need work) + total_need work + 97) + 2 ^ 14.
Proof. exact steady_bounded. Qed.
Print Assumptions C15_bounded_partial.

(** Once the chunk kept by a reset is large enough for the whole workload, every later round
    uses this chunk alone, without calling the underlying allocator, and never fails. *)
Theorem C15_one_chunk_forever_partial : forall su ops st r st1 k work n part o rest rs st2,
  setup_ok su -> reached su ops st -> do_step su (OpReset true) st = ORet r st1 -> held st1 = [k] ->
  existsb is_reset work = false -> total_need work <= u_len k - HEADER -> work = part ++ o :: rest ->
  do_run su (concat (repeat (work ++ [OpReset true]) n) ++ part) st1 = ORet rs st2 ->
  held st2 = [k] /\
  exists r3 st3, do_step su o st2 = ORet r3 st3 /\ calls st3 = calls st2 /\
    forall l, requests su st2 o l -> r3 <> None.
Proof. exact (fun su ops st r st1 k work n part o rest rs st2 Hok => steady_one su Hok ops st r st1 k work n part o rest rs st2). Qed.
Print Assumptions C15_one_chunk_forever_partial.

(** Three rounds of the same requests: the first takes two chunks, the others the larger one. *)
Example C15_bounded_case : let ops := concat (repeat (h1 ++ [OpReset true]) 3) in
  existsb is_reset h1 = false /\ reached hs (ops ++ firstn 3 h1) (final hs (ops ++ firstn 3 h1)) /\
  total_need h1 = 5419 /\ held (final hs ops) = [mkU 2097152 8292 (L 8192 8)] /\ 5419 <= 8292 - HEADER /\
  calls (final hs ops) = calls (final hs (h1 ++ [OpReset true])) /\
  length (calls (final hs ops)) = 3%nat.
Proof.
  split; [reflexivity|]. split; [apply final_reached, demo_ok|]. split; [reflexivity|].
  split; [vm_compute; reflexivity|]. split; [vm_compute; discriminate|]. split; vm_compute; reflexivity.
Qed.

(** ** C16 Chunk growth *)
Theorem C16_chunk_growth : forall su ops st o l r st' lay ans,
  setup_ok su -> reached su ops st -> requests su st o l -> do_step su o st = ORet r st' ->
  calls st' = EvAlloc lay ans :: calls st ->
  HEADER + l_size l <= l_size lay /\ HEADER + su_min su <= l_size lay /\
  (8 < l_align l -> HEADER + l_size l + l_align l <= l_size lay) /\
  forall k older, held st = k :: older ->
    HEADER + capacity older + Z.max (l_size l) 64 <= l_size lay /\
    HEADER + su_min su + Z.max (l_size l) 64 <= l_size lay.
Proof. exact chunk_growth. Qed.
Print Assumptions C16_chunk_growth.

(** The exact size: what is [wanted], rounded to a power of two or to 16 KB; every request makes
    at most one call. *)
Theorem C16_chunk_size : forall su ops st o l r st',
  setup_ok su -> reached su ops st -> requests su st o l -> do_step su o st = ORet r st' ->
  calls st' = calls st \/
  exists lay ans, calls st' = EvAlloc lay ans :: calls st /\ l_align lay = 8 /\
    rounded (wanted (su_min su) (held st) l) (l_size lay).
Proof. exact chunk_size. Qed.
Print Assumptions C16_chunk_size.

Example C16_case : exists r,
  requests hs (final hs (firstn 3 h1)) (OpAlloc (L 5000 64) false) (L 5000 64) /\
  do_step hs (OpAlloc (L 5000 64) false) (final hs (firstn 3 h1)) = ORet r (final hs (firstn 3 h1 ++ [OpAlloc (L 5000 64) false])) /\
  calls (final hs (firstn 3 h1 ++ [OpAlloc (L 5000 64) false])) =
    EvAlloc (L 8192 8) (Some (mkBlock 2097152 8292)) :: calls (final hs (firstn 3 h1)).
Proof.
  destruct (final_step hs (firstn 3 h1) (OpAlloc (L 5000 64) false) (demo_ok _)) as (r & E & _). exists r.
  split; [split; [reflexivity|vm_compute; reflexivity]|]. split; [exact E|vm_compute; reflexivity].
Qed.

(** README's stronger claim, that the new chunk is larger than the exhausted one. *)
Theorem C16_larger_chunk_refuted : exists su ops st k st',
  setup_ok su /\ reached su ops st /\ held st = [k] /\
  (exists b, do_step su (OpAlloc (L 100 8) false) st = ORet (Some b) st') /\
  exists k', held st' = [k'; k] /\ u_len k' < u_len k.
Proof. exact next_chunk_smaller. Qed.
Print Assumptions C16_larger_chunk_refuted.

(** ** C17 Allocation fails only when it must *)
Theorem C17_fails_only_if_refused : forall su ops st o l st',
  setup_ok su -> reached su ops st -> requests su st o l -> do_step su o st = ORet None st' ->
  (exists lay, calls st' = EvAlloc lay None :: calls st /\ st_alloc (su_strat su) (calls st) lay = None) \/
  USIZE_MAX < wanted (su_min su) (held st) l + 7.
Proof. exact fails_only_if_refused. Qed.
Print Assumptions C17_fails_only_if_refused.

(** Both reasons occur. *)
Example C17_case_refused : exists st',
  do_step (demo stingy) (OpAlloc (L 100 8) false) (final (demo stingy) full_hist) = ORet None st'.
Proof.
  destruct (final_step (demo stingy) full_hist (OpAlloc (L 100 8) false) (demo_ok _)) as (r & E & Er).
  vm_compute in Er. injection Er as Er. rewrite <- Er in E. eauto.
Qed.
Example C17_case_overflow : setup_ok (plain USIZE_MAX ISIZE_MAX USIZE_MAX) /\
  results (plain USIZE_MAX ISIZE_MAX USIZE_MAX) [OpAlloc (L 1 1) false] = [None] /\
  calls (final (plain USIZE_MAX ISIZE_MAX USIZE_MAX) [OpAlloc (L 1 1) false]) = [].
Proof. split; [apply plain_ok; unfold USIZE_MAX; lia|]. split; vm_compute; reflexivity. Qed.

(** ** C18 Layouts sent to the underlying allocator are valid *)
(** Full statement: for every chunk size and valid layout.  Proved for configurations with
    [max(amax, chunk size) + smax + 2^15 <= isize::MAX] (part of [setup_ok] when
    [su_bmax = ISIZE_MAX]): all chunk sizes and requests up to 2^61, say.  Beyond that it is false. *)
Theorem C18_layouts_valid_partial : forall su ops st,
  setup_ok su -> su_bmax su = ISIZE_MAX -> reached su ops st ->
  (forall l r, In (EvAlloc l r) (calls st) -> layout_ok l) /\
  (forall p l, In (EvDealloc p l) (calls st) -> layout_ok l).
Proof. exact layouts_valid. Qed.
Print Assumptions C18_layouts_valid_partial.

Example C18_case : su_bmax hs = ISIZE_MAX /\ reached hs h2 (final hs h2) /\ length (calls (final hs h2)) = 3%nat.
Proof. split; [reflexivity|]. split; [apply final_reached, demo_ok|vm_compute; reflexivity]. Qed.

Theorem C18_invalid_layout_refuted : exists su st l r,
  setup_ok su /\ su_min su = CHUNK_START_SIZE /\ layout_ok (mkLayout ISIZE_MAX 1) /\
  reached su [OpAlloc (mkLayout ISIZE_MAX 1) false] st /\ In (EvAlloc l r) (calls st) /\ ~ layout_ok l.
Proof. exact invalid_layout. Qed.
Print Assumptions C18_invalid_layout_refuted.

(** ** C19 No assertion, overflow or undefined behaviour *)
(** Full statement: every chunk size in both build modes.  Proved: every chunk size in release
    builds over an underlying allocator that accepts any layout; non-zero chunk sizes without sums
    beyond what the underlying allocator accepts in debug builds ([setup_ok]).  Outside of this it
    is false. *)
Theorem C19_no_failure_partial : forall su ops,
  setup_ok su -> exists rs st, do_run su ops (start su) = ORet rs st.
Proof. exact no_failure. Qed.
Print Assumptions C19_no_failure_partial.

Example C19_case_debug : setup_ok hs /\ su_dbg hs = true.
Proof. split; [apply demo_ok|reflexivity]. Qed.
Example C19_case_release : setup_ok (zero_chunk false) /\ setup_ok (plain USIZE_MAX ISIZE_MAX USIZE_MAX).
Proof. split; [apply zero_chunk_release|apply plain_ok; unfold USIZE_MAX; lia]. Qed.

Theorem C19_zero_chunk_size_refuted : exists st,
  do_run (zero_chunk true) [OpAlloc (L 0 1) false] (start (zero_chunk true)) = OPanic st.
Proof. exact zero_chunk_panics. Qed.
Print Assumptions C19_zero_chunk_size_refuted.

Theorem C19_extreme_chunk_size_refuted : exists st,
  do_run extreme_chunk [OpAlloc (L 1 1) false] (start extreme_chunk) = OPanic st.
Proof. exact extreme_chunk_panics. Qed.
Print Assumptions C19_extreme_chunk_size_refuted.

Theorem C19_invalid_layout_refuted :
  do_run (plain CHUNK_START_SIZE ISIZE_MAX ISIZE_MAX) [OpAlloc (mkLayout ISIZE_MAX 1) false]
         (start (plain CHUNK_START_SIZE ISIZE_MAX ISIZE_MAX)) = OUB.
Proof. exact invalid_layout_ub. Qed.
Print Assumptions C19_invalid_layout_refuted.

(** ** C20 Zeroed allocation is zero *)
Theorem C20_allocate_zeroed : forall su ops st l b st',
  setup_ok su -> reached su ops st -> req_ok (su_smax su) l ->
  do_step su (OpAlloc l true) st = ORet (Some b) st' ->
  get (length (c_tab st)) (c_tab st') = Some (mkU (b_ptr b) (b_len b) l) /\ l_size l <= b_len b /\
  forall i, 0 <= i < b_len b -> memory st' (b_ptr b + i) = Byte 0.
Proof. exact (fun su ops st l b st' Hok => reached_alloc_zeroed su Hok ops st l b st'). Qed.
Print Assumptions C20_allocate_zeroed.

Theorem C20_grow_zeroed : forall su ops st h u old new b st',
  setup_ok su -> reached su ops st -> get h (c_tab st) = Some u -> fits old u ->
  req_ok (su_smax su) new -> l_size old <= l_size new ->
  do_step su (OpGrowZeroed h old new) st = ORet (Some b) st' ->
  get h (c_tab st') = Some (mkU (b_ptr b) (b_len b) new) /\ l_size new <= b_len b /\
  (forall i, 0 <= i < l_size old -> memory st' (b_ptr b + i) = memory st (u_ptr u + i)) /\
  (forall i, l_size old <= i < b_len b -> memory st' (b_ptr b + i) = Byte 0).
Proof. exact (fun su ops st h u old new b st' Hok => reached_grow_zeroed su Hok ops st h u old new b st'). Qed.
Print Assumptions C20_grow_zeroed.

(** Memory that was written before the reset. *)
Example C20_case : memory (final hs c20_hist) 1048608 = Byte 9 /\ exists b st',
  do_step hs (OpAlloc (L 20 1) true) (final hs c20_hist) = ORet (Some b) st' /\ b_ptr b = 1048608.
Proof.
  split; [vm_compute; reflexivity|].
  destruct (final_step hs c20_hist (OpAlloc (L 20 1) true) (demo_ok _)) as (r & E & Er).
  vm_compute in Er. injection Er as Er. rewrite <- Er in E. eexists. eexists. split; [exact E|reflexivity].
Qed.
Example C20_case_grow : exists b st',
  do_step hs (OpGrowZeroed 0 (L 50 1) (L 90 1)) (final hs (firstn 2 c20_hist)) = ORet (Some b) st'.
Proof.
  destruct (final_step hs (firstn 2 c20_hist) (OpGrowZeroed 0 (L 50 1) (L 90 1)) (demo_ok _)) as (r & E & Er).
  vm_compute in Er. injection Er as Er. rewrite <- Er in E. eauto.
Qed.

(** ** C21 A blink allocator is itself a conforming allocator, to any nesting depth *)
Theorem C21_blink_meets_contract : forall W amax smax smax' (A : Allocator W) own dbg min,
  contract amax smax' A own -> 0 <= amax <= USIZE_MAX ->
  smax <= USIZE_MAX -> smax' <= USIZE_MAX ->
  (dbg = false /\ smax' = USIZE_MAX) \/ (1 <= min /\ Z.max amax min + smax + 2 ^ 15 <= smax') ->
  contract amax smax (blink A dbg) (blink_own amax A own (fun _ _ => True) [] min).
Proof. exact @blink_conforms. Qed.
Print Assumptions C21_blink_meets_contract.

Theorem C21_tower : forall dbg bmax S amax l ls ops,
  0 <= amax <= USIZE_MAX -> amax <= bmax -> honest amax S -> tower_ok dbg bmax amax (l :: ls) ->
  exists rs st,
    run (lv_smax l) (tower dbg bmax S (l :: ls)) (tower_reset dbg bmax S (l :: ls)) ops
        (mkCst [] (tower_start (l :: ls))) = ORet rs st /\
    length rs = length ops /\ Forall (u_ok amax) (live (c_tab st)) /\ pairwise disjoint_u (live (c_tab st)) /\
    agrees (al_mem (tower dbg bmax S (l :: ls)) (c_w st)) (c_tab st) (srun ops (map (option_map b_len) rs) []).
Proof. exact tower_histories. Qed.
Print Assumptions C21_tower.

(** Three levels of default blink allocators in a debug build. *)
Example C21_case : tower_ok true ISIZE_MAX (2 ^ 47) c21_levels /\
  match run (2 ^ 40) (tower true ISIZE_MAX (checked (2 ^ 47) megabytes) c21_levels)
            (tower_reset true ISIZE_MAX (checked (2 ^ 47) megabytes) c21_levels)
            [OpAlloc (L 100 16) false; OpAlloc (L 5000 64) true]
            (mkCst [] (tower_start c21_levels)) with
  | ORet rs _ => rs | _ => [] end = [Some (mkBlock 1048672 100); Some (mkBlock 2097280 5000)].
Proof.
  split; [|vm_compute; reflexivity]. cbn [tower_ok c21_levels lv_min lv_smax top_smax].
  unfold cfg_ok, USIZE_MAX, ISIZE_MAX. repeat split; try lia.
Qed.
