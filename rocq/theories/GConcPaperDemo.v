(** Worked cases of C91: two threads on a [GlobalBlinkAlloc]. *)
From Verif Require Import Base Alloc Arena BlinkAlloc History Setup Concrete Conc Paper ProxyPaper ConcPaper Shared SharedPaper GConc GConcPaper.

Definition global_goes (t : nat) (n : nat) : list mchoice := repeat (MGo t false) n.

(** A block in direct mode; then blink mode, with a zeroed block of one thread and a block of the other; a reset
    that panics, because both are live; a reallocation that moves the first; both freed; direct mode again (at first
    it panics too, because one block is live). *)
Definition global_sched : list mchoice :=
  [MAlloc 0%nat (mkLayout 48 16) true; MBlink; MAlloc 0%nat (mkLayout 3 8) true; MAlloc 1%nat (mkLayout 24 16) false] ++
  global_goes 0%nat 7 ++ [MElse (OpAlloc (mkLayout 100 8) false)] ++ global_goes 1%nat 3 ++ [MNext 0%nat] ++ global_goes 1%nat 4 ++
  [MNext 0%nat; MNext 1%nat; MReset 0%nat; MRealloc 1%nat 0%nat 40] ++ global_goes 1%nat 16 ++ [MDealloc 0%nat 1%nat] ++ global_goes 0%nat 4 ++
  [MNext 0%nat; MDirect; MDealloc 1%nat 0%nat] ++ global_goes 1%nat 4 ++ [MNext 1%nat; MDirect; MDealloc 1%nat 0%nat].
Definition global_moves : list mmove :=
  [GAlloc 0 (mkLayout 48 16) true; GBlink; GAlloc 0 (mkLayout 3 8) true; GAlloc 1 (mkLayout 24 16) false;
   GInside 0 (MFull 0); GInside 0 (MFresh 0); GInside 0 (MReturn 0); GElse (OpAlloc (mkLayout 100 8) false);
   GInside 1 (MTake 1); GZero 0; GInside 1 (MReturn 1); GUp 0; GUp 1; GCheck 0;
   GRealloc 1 0 40; GInside 1 (MTake 1); GInside 1 (MCopied 1); GInside 1 (MReturn 1);
   GDealloc 0 1; GInside 0 (MStay 0); GInside 0 (MReturn 0); GDown 0; GDirect;
   GDealloc 1 0; GInside 1 (MStay 1); GInside 1 (MReturn 1); GDown 1; GDirect; GDealloc 1 0]%nat.

Lemma global_computed :
  match mrun (demo megabytes) global_sched (mstart (demo megabytes) 2),
        mp_run (su_dbg (demo megabytes)) (su_min (demo megabytes)) (su_smax (demo megabytes)) (su_bmax (demo megabytes)) (su_strat (demo megabytes))
          global_moves (mp0 2) with
  | ORet es m, Some (es', q) =>
      (es', mp_on q, mp_count q, mp_post q, cp_tab (op_in (mp_o q)), cp_calls (op_in (mp_o q)), cp_chunks (op_in (mp_o q)), length es) =
      (es, m_on m, m_count m, m_post m, g_tab (m_g m), bw_trace (snd (g_aw (m_g m))), [mkP 2097152 512 2097184], 28%nat)
  | _, _ => False
  end.
Proof. vm_compute. reflexivity. Qed.
Lemma global_runs : exists es m q,
  mrun (demo megabytes) global_sched (mstart (demo megabytes) 2) = ORet es m /\
  mp_run (su_dbg (demo megabytes)) (su_min (demo megabytes)) (su_smax (demo megabytes)) (su_bmax (demo megabytes)) (su_strat (demo megabytes))
    global_moves (mp0 2) = Some (es, q) /\
  mp_on q = m_on m /\ mp_count q = m_count m /\ mp_post q = m_post m /\ cp_tab (op_in (mp_o q)) = g_tab (m_g m) /\
  cp_calls (op_in (mp_o q)) = bw_trace (snd (g_aw (m_g m))) /\ cp_chunks (op_in (mp_o q)) = [mkP 2097152 512 2097184] /\ length es = 28%nat.
Proof.
  pose proof global_computed as H.
  destruct (mrun (demo megabytes) global_sched (mstart (demo megabytes) 2)) as [es m| | |]; [|destruct H|destruct H|destruct H].
  destruct (mp_run _ _ _ _ _ global_moves (mp0 2)) as [[es' q]|]; [|destruct H]. apply pair_equal_spec in H. destruct H as [H H8].
  apply pair_equal_spec in H. destruct H as [H H7]. apply pair_equal_spec in H. destruct H as [H H6]. apply pair_equal_spec in H. destruct H as [H H5].
  apply pair_equal_spec in H. destruct H as [H H4]. apply pair_equal_spec in H. destruct H as [H H3]. apply pair_equal_spec in H. destruct H as [H1 H2].
  exists es, m, q. split; [reflexivity|]. split; [rewrite H1; reflexivity|]. do 6 (split; [assumption|]). exact H8.
Qed.

(** One thread has passed the check of [reset] and has not reset when another one allocates: the block is lost, and
    the counter stays at one - no later [reset] will pass the check. *)
Definition late_moves : list mmove :=
  [GBlink; GCheck 0; GAlloc 1 (mkLayout 24 16) false; GInside 1 (MFull 1); GInside 1 (MFresh 1); GInside 1 (MReturn 1); GUp 1;
   GReset 0; GCheck 1]%nat.
Lemma late_computed :
  match mp_run (su_dbg (demo megabytes)) (su_min (demo megabytes)) (su_smax (demo megabytes)) (su_bmax (demo megabytes)) (su_strat (demo megabytes))
          late_moves (mp0 2) with
  | Some (es, q) => (last es (Got 0 0 false), mp_count q, cp_tab (op_in (mp_o q))) = (Panicked, 1, [None])
  | None => False
  end.
Proof. vm_compute. reflexivity. Qed.
Lemma late_runs : exists es q,
  mp_run (su_dbg (demo megabytes)) (su_min (demo megabytes)) (su_smax (demo megabytes)) (su_bmax (demo megabytes)) (su_strat (demo megabytes))
    late_moves (mp0 2) = Some (es, q) /\
  last es (Got 0 0 false) = Panicked /\ mp_count q = 1 /\ cp_tab (op_in (mp_o q)) = [None].
Proof.
  pose proof late_computed as H. destruct (mp_run _ _ _ _ _ late_moves (mp0 2)) as [[es q]|]; [|destruct H].
  apply pair_equal_spec in H. destruct H as [H H3]. apply pair_equal_spec in H. destruct H as [H1 H2]. exists es, q. auto.
Qed.
