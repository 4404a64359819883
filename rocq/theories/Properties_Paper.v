(** Property C77: a [BlinkAlloc] does exactly what the arithmetic of Paper.v says.

    Vocabulary.  [paper_run min smax S ops paper0] (Paper.v) - the history [ops] on paper: the
    answers, and the chunks ([p_chunks]), blocks ([p_tab]) and calls to the underlying allocator
    ([p_calls]) in the end; plain arithmetic on addresses, independent of the model of the code.
    [do_run su ops (start su)] (Setup.v) - the same history on the model of the code; [calls],
    [held], [memory] - what can be seen of its final state.  [in_memory m k] - the header of the
    chunk [k] is in memory.  Other vocabulary as in Properties_Alloc.v. *)
From Verif Require Import Base Alloc AllocFacts Arena BlinkAlloc History Setup SetupFacts Concrete Paper PaperFacts PaperDemo.

(** ** C77 Exactly the described bump allocator *)

(** Every address and every length answered, every failure, every block the client owns, every
    call made to the underlying allocator with its layout, every chunk held and every cursor are
    what Paper.v says. *)
Theorem C77_exact : forall su ops, setup_ok su ->
  let '(rs, p) := paper_run (su_min su) (su_smax su) (su_strat su) ops paper0 in
  exists st, do_run su ops (start su) = ORet rs st /\
    c_tab st = p_tab p /\ calls st = p_calls p /\
    map (fun k => (u_ptr k, u_len k)) (held st) = map (fun k => (p_at k, p_len k)) (p_chunks p) /\
    Forall (in_memory (memory st)) (p_chunks p).
Proof. exact (fun su ops Hok => exactly_paper su Hok ops). Qed.
Print Assumptions C77_exact.

(** So debug and release builds, and platforms with other addresses, give the same answers to the
    same history over the same underlying allocator; *)
Theorem C77_same_in_every_build : forall su1 su2 ops, setup_ok su1 -> setup_ok su2 ->
  su_min su1 = su_min su2 -> su_smax su1 = su_smax su2 -> su_strat su1 = su_strat su2 ->
  exists rs st1 st2, do_run su1 ops (start su1) = ORet rs st1 /\ do_run su2 ops (start su2) = ORet rs st2 /\
    c_tab st1 = c_tab st2 /\ calls st1 = calls st2.
Proof. exact same_answers. Qed.
Print Assumptions C77_same_in_every_build.

(** and what clients write into their blocks never changes an answer or a call. *)
Theorem C77_contents_do_not_matter : forall su ops rs st, setup_ok su -> do_run su ops (start su) = ORet rs st ->
  exists st', do_run su (filter (fun o => negb (is_write o)) ops) (start su) =
      ORet (map snd (filter (fun q => negb (is_write (fst q))) (combine ops rs))) st' /\
    c_tab st' = c_tab st /\ calls st' = calls st.
Proof. exact writes_change_nothing. Qed.
Print Assumptions C77_contents_do_not_matter.

(** A history with a block that grows where it is, one that must move, one in a new chunk, one
    refused, one shrunk, [grow_zeroed] and [reset]: the answers on paper, *)
Example C77_case_paper : setup_ok (demo generous) /\ on_paper =
  ([Some (mkBlock 1048608 10); Some (mkBlock 1048624 16); Some (mkBlock 1048624 40);
    Some (mkBlock 1048704 10); None; Some (mkBlock 2097184 1000); None; Some (mkBlock 2097184 1000);
    Some (mkBlock 2098184 50); None; None; None; Some (mkBlock 2097184 3)],
   mkPaper [mkP 2097152 2148 2097187] [None; None; None; Some (mkU 2097184 3 (lay 3 1))]
     [EvDealloc 1048576 (lay 612 8); EvAlloc (lay 2113536 8) None;
      EvAlloc (lay 2048 8) (Some (mkBlock 2097152 2148)); EvAlloc (lay 512 8) (Some (mkBlock 1048576 612))]).
Proof. exact (conj (demo_ok generous) busy_paper). Qed.
(** and on the model of the code. *)
Example C77_case_run : results (demo generous) busy = fst on_paper /\
  c_tab (final (demo generous) busy) = p_tab (snd on_paper) /\
  calls (final (demo generous) busy) = p_calls (snd on_paper).
Proof. exact busy_run. Qed.
