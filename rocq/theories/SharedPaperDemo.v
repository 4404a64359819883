(** Worked cases of C90: two threads on a [SyncBlinkAlloc], and others on its underlying allocator. *)
From Verif Require Import Base Alloc Arena BlinkAlloc History Setup Concrete Conc Paper ProxyPaper ConcPaper Shared SharedPaper.

Definition shared_goes (t : nat) (n : nat) : list ochoice := repeat (Ours (Go t false)) n.

(** Thread 0 finds no room.  Before it asks for a chunk somebody else gets a block, so that the chunk is
    elsewhere.  At the end everything is given back but the first block, which is moved. *)
Definition shared_sched : list ochoice :=
  [Theirs (OpAlloc (mkLayout 48 16) true); Ours (Start 0%nat (OpAlloc (mkLayout 40 8) false)); Ours (Start 1%nat (OpAlloc (mkLayout 24 16) false))] ++
  shared_goes 0%nat 3 ++ [Theirs (OpAlloc (mkLayout 100 8) false)] ++ shared_goes 1%nat 6 ++ [Theirs (OpWrite 0%nat 4 [Byte 7])] ++
  shared_goes 0%nat 4 ++ shared_goes 1%nat 4 ++
  [Ours (Start 0%nat (OpAlloc (mkLayout 600 8) false)); Theirs (OpResize 0%nat (mkLayout 48 16) (mkLayout 300 16))] ++ shared_goes 0%nat 8 ++
  [Theirs (OpDealloc 1%nat (mkLayout 100 8)); Ours (Exclusive false); Theirs (OpGrowZeroed 0%nat (mkLayout 48 16) (mkLayout 400 16))].
Definition shared_moves : list omove :=
  [ByThem (OpAlloc (mkLayout 48 16) true); ByUs (MCall 0 (OpAlloc (mkLayout 40 8) false)); ByUs (MCall 1 (OpAlloc (mkLayout 24 16) false));
   ByUs (MFull 0); ByThem (OpAlloc (mkLayout 100 8) false); ByThem (OpWrite 0 4 [Byte 7]); ByUs (MFresh 0); ByUs (MReturn 0); ByUs (MTake 1); ByUs (MReturn 1);
   ByUs (MCall 0 (OpAlloc (mkLayout 600 8) false)); ByThem (OpResize 0 (mkLayout 48 16) (mkLayout 300 16));
   ByUs (MFull 0); ByUs (MFresh 0); ByUs (MReturn 0);
   ByThem (OpDealloc 1 (mkLayout 100 8)); ByUs (MReset false); ByThem (OpGrowZeroed 0 (mkLayout 48 16) (mkLayout 400 16))]%nat.

Lemma shared_computed :
  match orun (demo megabytes) shared_sched (ostart (demo megabytes) 2),
        op_run (su_min (demo megabytes)) (su_smax (demo megabytes)) (su_bmax (demo megabytes)) (su_strat (demo megabytes)) shared_moves (op0 2) with
  | ORet es o, Some (es', q) =>
      (es', op_tab q, cp_tab (op_in q), cp_calls (op_in q), length es, length (cp_calls (op_in q)), map (option_map u_ptr) (op_tab q)) =
      (es, o_tab o, g_tab (o_g o), bw_trace (snd (g_aw (o_g o))), 17%nat, 10%nat, [Some 9437184; None])
  | _, _ => False
  end.
Proof. vm_compute. reflexivity. Qed.
Lemma shared_runs : exists es o q,
  orun (demo megabytes) shared_sched (ostart (demo megabytes) 2) = ORet es o /\
  op_run (su_min (demo megabytes)) (su_smax (demo megabytes)) (su_bmax (demo megabytes)) (su_strat (demo megabytes)) shared_moves (op0 2) = Some (es, q) /\
  op_tab q = o_tab o /\ cp_tab (op_in q) = g_tab (o_g o) /\ cp_calls (op_in q) = bw_trace (snd (g_aw (o_g o))) /\
  length es = 17%nat /\ length (cp_calls (op_in q)) = 10%nat /\ map (option_map u_ptr) (op_tab q) = [Some 9437184; None].
Proof.
  pose proof shared_computed as H.
  destruct (orun (demo megabytes) shared_sched (ostart (demo megabytes) 2)) as [es o| | |]; [|destruct H|destruct H|destruct H].
  destruct (op_run _ _ _ _ shared_moves (op0 2)) as [[es' q]|]; [|destruct H].
  apply pair_equal_spec in H. destruct H as [H H7]. apply pair_equal_spec in H. destruct H as [H H6]. apply pair_equal_spec in H. destruct H as [H H5].
  apply pair_equal_spec in H. destruct H as [H H4]. apply pair_equal_spec in H. destruct H as [H H3]. apply pair_equal_spec in H. destruct H as [H1 H2].
  exists es, o, q. split; [reflexivity|]. split; [rewrite H1; reflexivity|]. do 5 (split; [assumption|]). exact H7.
Qed.

(** Both threads find no room and ask for a chunk. *)
Definition crossing_moves : list omove :=
  [ByUs (MCall 0 (OpAlloc (mkLayout 40 8) false)); ByUs (MCall 1 (OpAlloc (mkLayout 24 16) false));
   ByUs (MFull 0); ByThem (OpAlloc (mkLayout 100 8) false); ByUs (MFull 1); ByUs (MFresh 1); ByUs (MReturn 1);
   ByThem (OpAlloc (mkLayout 5 1) true); ByUs (MFresh 0); ByUs (MReturn 0)]%nat.
Lemma crossing_computed :
  match op_run (su_min (demo megabytes)) (su_smax (demo megabytes)) (su_bmax (demo megabytes)) (su_strat (demo megabytes)) crossing_moves (op0 2) with
  | Some (es, q) => (length es, map p_at (cp_chunks (op_in q)), map (option_map u_ptr) (op_tab q)) = (8%nat, [4194304; 2097152], [Some 1048576; Some 3145728])
  | None => False
  end.
Proof. vm_compute. reflexivity. Qed.
Lemma crossing_runs : exists es q,
  op_run (su_min (demo megabytes)) (su_smax (demo megabytes)) (su_bmax (demo megabytes)) (su_strat (demo megabytes)) crossing_moves (op0 2) = Some (es, q) /\
  length es = 8%nat /\ map p_at (cp_chunks (op_in q)) = [4194304; 2097152] /\ map (option_map u_ptr) (op_tab q) = [Some 1048576; Some 3145728].
Proof.
  pose proof crossing_computed as H. destruct (op_run _ _ _ _ crossing_moves (op0 2)) as [[es q]|]; [|destruct H].
  apply pair_equal_spec in H. destruct H as [H H3]. apply pair_equal_spec in H. destruct H as [H1 H2]. exists es, q. auto.
Qed.
