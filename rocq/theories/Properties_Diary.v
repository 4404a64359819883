(** Property C85: a [Blink] on a [BlinkAlloc], on paper.

    Vocabulary.  [backed su bomb shared] (Diary.v) - a [Blink] that owns its [BlinkAlloc], or
    ([shared]) has a reference to one.  [diary E] - the same with a diary of the calls the [Blink]
    makes, their answers, and the resets; [entries s] - the diary, most recent entry first;
    [undiaried s] - the state without it.  [replays min S ds c c'] - working out the entries [ds] from
    the chunks and requests [c] with the arithmetic of Paper.v gives the answers in the diary, and
    the chunks and requests [c']: nothing of the model of the code is used.  [do_run su ops (start
    su)] - any history of clients of the [BlinkAlloc] before; [paper_run] - the same on paper (C77).
    [bw_trace], [bw_mem] - requests to and memory of the underlying allocator; [in_memory m k] - the
    header of [k] is what the paper says.  [sound] as in C36, [plain], [truthful], [lead] and [ends]
    as in C79.  [room k n a] - the chunk has room for [n] more bytes with alignment [a].
    [single o = Some lay] - [o] is [put], [emplace], [copy_slice] or [uninit], which needs [lay].
    [answered_at p ev] - the call was answered with the bytes asked for, at [p]. *)
From Verif Require Import Base Alloc AllocFacts Arena BlinkAlloc History HistoryFacts Setup SetupFacts Concrete
  Blink BlinkInv BlinkEnv BlinkYield BlinkProps BlinkDemo Asks AsksMain AsksDemo Paper PaperFacts Diary DiaryFacts DiaryMain DiaryDemo.

(** Keeping a diary changes nothing. *)
Theorem C85_diary_changes_nothing : forall E os s, erun E os (undiaried s) = omap undiaried (erun (diary E) os s).
Proof. exact run_undiaried. Qed.
Print Assumptions C85_diary_changes_nothing.

(** After any program the diary is what the paper says, address by address: every answer, every request to
    the underlying allocator, every chunk that is held, and the headers in memory. *)
Theorem C85_exact : forall su bomb shared ops rs st os s, setup_ok su -> ISIZE_MAX <= su_smax su ->
  do_run su ops (start su) = ORet rs st -> shared = true \/ live (c_tab st) = [] ->
  forallb (sound true) os = true -> erun (diary (backed su bomb shared)) os (bl_new (c_w st, [])) = ORet tt s ->
  let p := snd (paper_run (su_min su) (su_smax su) (su_strat su) ops paper0) in
  let w := snd (fst (bl_w s)) in
  exists ks, replays (su_min su) (su_strat su) (entries s) (p_chunks p, p_calls p) (ks, bw_trace w) /\
    map (fun k => (u_ptr k, u_len k)) (outstanding (bw_trace w)) = map (fun k => (p_at k, p_len k)) ks /\ Forall (in_memory (bw_mem w)) ks.
Proof. exact diary_exact. Qed.
Print Assumptions C85_exact.
Example C85_case : setup_ok (big megabytes) /\ forallb (sound true) used_up = true /\
  erun (diary (backed (big megabytes) calm false)) used_up (bl_new (c_w (start (big megabytes)), [])) = ORet tt s_diary /\
  replays 256 (su_strat (big megabytes)) (entries s_diary) ([], []) ([mkP 2097152 8192 2097192], requests s_diary) /\
  requests s_diary = [EvDealloc 1048576 (mkLayout 512 8); EvAlloc (mkLayout 8192 8) (Some (mkBlock 2097152 8192)); EvAlloc (mkLayout 512 8) (Some (mkBlock 1048576 512))] /\
  firstn 3 (entries s_diary) = [Asked (EvAlloc (mkLayout 8 8) (Some (mkBlock 2097184 8))); Cleared; Asked (EvAlloc (mkLayout 32 8) (Some (mkBlock 2101280 32)))].
Proof. exact used_up_case. Qed.

(** There is an entry about a reset when [Blink::reset] was called and no destructor panicked, and the
    allocator is not shared; at no other time. *)
Theorem C85_resets : forall E o s s', ends (erun1 (diary E) o s) s' ->
  match o with
  | BReset => (erun1 (diary E) o s = ORet tt s' /\ entries s' = (if e_shared E then [] else [Cleared]) ++ entries s) \/
              (erun1 (diary E) o s = OPanic s' /\ entries s' = entries s)
  | _ => exists new, entries s' = map Asked new ++ entries s
  end.
Proof. exact when_cleared. Qed.
Print Assumptions C85_resets.
Example C85_case_resets : well BReset = true /\ entries (after BReset) = Cleared :: entries s_diary /\ entries (after BDropAll) = entries s_diary /\
  map (fun d => match d with Asked _ => false | Cleared => true end) (entries s_diary) = [false; true; false; false; false; false; false; false].
Proof. vm_compute. repeat split; reflexivity. Qed.

(** A value for which the newest chunk has room is at the next multiple of its alignment; nothing is
    requested from the underlying allocator. *)
Theorem C85_value : forall su, setup_ok su -> ISIZE_MAX <= su_smax su -> forall bomb shared ops rs st os s o lay s' newest older,
  do_run su ops (start su) = ORet rs st -> shared = true \/ live (c_tab st) = [] ->
  forallb (sound true) os = true -> erun (diary (backed su bomb shared)) os (bl_new (c_w st, [])) = ORet tt s ->
  single o = Some lay -> sound true o = true -> ends (erun1 (diary (backed su bomb shared)) o s) s' ->
  let p := snd (paper_run (su_min su) (su_smax su) (su_strat su) ops paper0) in
  replays (su_min su) (su_strat su) (entries s) (p_chunks p, p_calls p) (newest :: older, bw_trace (snd (fst (bl_w s)))) ->
  room newest (l_size lay) (l_align lay) ->
  bw_trace (snd (fst (bl_w s'))) = bw_trace (snd (fst (bl_w s))) /\
  exists new, entries s' = map Asked new ++ entries s /\ Forall (answered_at (least_multiple (p_free newest) (l_align lay))) new.
Proof. exact value_stays. Qed.
Print Assumptions C85_value.
Example C85_case_value : single refusing = Some (mkLayout 40 8) /\ sound true refusing = true /\ room (mkP 2097152 8192 2097192) 40 8 /\
  ends (erun1 (diary (backed (big megabytes) calm false)) refusing s_diary) (after refusing) /\ requests (after refusing) = requests s_diary /\
  entries (after refusing) = map Asked [EvDealloc 2097192 (mkLayout 40 8); EvAlloc (mkLayout 40 8) (Some (mkBlock 2097192 40))] ++ entries s_diary.
Proof. exact refusing_case. Qed.

(** Collecting [n] elements whose number is not known never moves them and requests nothing when the newest
    chunk has room for [2 n + 16] of them: the block grows where it is. *)
Theorem C85_collect : forall su, setup_ok su -> ISIZE_MAX <= su_smax su -> forall bomb shared ops rs st os s k tr T it s' newest older,
  do_run su ops (start su) = ORet rs st -> shared = true \/ live (c_tab st) = [] ->
  forallb (sound true) os = true -> erun (diary (backed su bomb shared)) os (bl_new (c_w st, [])) = ORet tt s ->
  0 < t_size T -> plain it = true -> truthful it = true -> ends (erun1 (diary (backed su bomb shared)) (BFromIter k tr T it) s) s' ->
  let p := snd (paper_run (su_min su) (su_smax su) (su_strat su) ops paper0) in
  replays (su_min su) (su_strat su) (entries s) (p_chunks p, p_calls p) (newest :: older, bw_trace (snd (fst (bl_w s)))) ->
  room newest (array_off (dropping k T) T + (2 * Z.of_nat (lead it) + 16) * t_size T) (array_align (dropping k T) T) ->
  bw_trace (snd (fst (bl_w s'))) = bw_trace (snd (fst (bl_w s))) /\
  exists new, entries s' = map Asked new ++ entries s /\
    Forall (answered_at (least_multiple (p_free newest) (array_align (dropping k T) T))) new.
Proof. exact collect_stays. Qed.
Print Assumptions C85_collect.
Example C85_case_collect : plain (unknown 80) = true /\ truthful (unknown 80) = true /\ lead (unknown 80) = 80%nat /\
  room (mkP 2097152 8192 2097192) (array_off true dropper + (2 * 80 + 16) * 8) (array_align true dropper) /\
  ends (erun1 (diary (backed (big megabytes) calm false)) collecting s_diary) (after collecting) /\ requests (after collecting) = requests s_diary /\
  entries (after collecting) = map Asked
    [EvResize 2097192 (mkLayout 592 8) (mkLayout 1168 8) (Some (mkBlock 2097192 1168)); EvResize 2097192 (mkLayout 304 8) (mkLayout 592 8) (Some (mkBlock 2097192 592));
     EvResize 2097192 (mkLayout 160 8) (mkLayout 304 8) (Some (mkBlock 2097192 304)); EvAlloc (mkLayout 160 8) (Some (mkBlock 2097192 160))] ++ entries s_diary.
Proof. exact collecting_case. Qed.
(** Without room it moves, and something is requested. *)
Example C85_case_no_room : truthful (unknown 900) = true /\ ends (erun1 (diary (backed (big megabytes) calm false)) overflowing s_diary) (after overflowing) /\
  length (requests (after overflowing)) = S (length (requests s_diary)) /\
  ~ Forall (answered_at 2097192) [hd (EvDealloc 0 (mkLayout 0 1)) (flat_map (fun d => match d with Asked ev => [ev] | Cleared => [] end) (entries (after overflowing)))].
Proof. exact overflowing_case. Qed.
