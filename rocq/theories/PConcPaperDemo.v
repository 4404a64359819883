(** Worked cases of C92: three threads, a shared allocator and two proxies. *)
From Verif Require Import Base Alloc Arena BlinkAlloc History Setup Concrete Conc Paper ConcPaper GConcPaper Proxy ProxyPaper ProxyDemo PConc PConcDemo PConcPaper.

Definition proxy_goes (t : nat) : list rchoice := repeat (RGo t false) 8.

(** The first blocks of two proxies, which threads 0 and 1 want at once, and a block of the shared allocator; a write
    to the one, which thread 1 does, and a resize of the other, which needs a second chunk; while thread 0 has that and
    goes on, proxy 0 is dropped; at the end everything is. *)
Definition proxy_sched : list rchoice :=
  both ++ proxy_goes 0 ++ proxy_goes 2 ++ [RNext 0] ++ proxy_goes 1 ++ [RNext 1;
   RUse 1 0 (OpWrite 0 0 [Byte 1; Byte 2]); RUse 0 1 (OpResize 0 (mkLayout 200 16) (mkLayout 5000 16))] ++ proxy_goes 0 ++
  [RDrop 0; RUpdate 900; RNext 0; RReset 1; RDrop 1; RExclusive true].
Definition proxy_moves : list rmove :=
  [NLocal 0; NLocal 0; NUse 0 0 (OpAlloc (mkLayout 100 8) false); NUse 1 1 (OpAlloc (mkLayout 200 16) true); NCall 2 (OpAlloc (mkLayout 24 8) false);
   NInside 0 (MFull 0); NInside 0 (MFresh 0); NInside 0 (MReturn 0); NInside 2 (MTake 2); NInside 2 (MReturn 2); NNext 0;
   NInside 1 (MFull 1); NInside 1 (MFresh 1); NInside 1 (MReturn 1); NNext 1;
   NUse 1 0 (OpWrite 0 0 [Byte 1; Byte 2]); NUse 0 1 (OpResize 0 (mkLayout 200 16) (mkLayout 5000 16));
   NInside 0 (MFull 0); NInside 0 (MFresh 0); NInside 0 (MReturn 0); NDrop 0; NUpdate 900; NNext 0; NReuse 1; NDrop 1; NReset true]%nat.

Definition on_paper (n : nat) (ms : list rmove) : option (list revent * rpaper) :=
  rp_run (su_dbg ps0) (su_min ps0) (su_smax ps0) (2 ^ 40) (2 ^ 20) (su_strat ps0) ms (rp0 n).

Lemma proxies_computed :
  match rrun ps0 (2 ^ 40) (2 ^ 20) proxy_sched (rstart ps0 3), on_paper 3 proxy_moves with
  | ORet es s, Some (es', q) =>
      (es', rp_max q, rp_chunk q, rp_job q, rp_prox q, cp_tab (rp_in q), cp_calls (rp_in q), cp_chunks (rp_in q), length es) =
      (es, r_max s, r_chunk s, r_job s, [None; None], g_tab (r_g s), bw_trace (snd (g_aw (r_g s))), [mkP 3145728 16384 3145760], 24%nat)
  | _, _ => False
  end.
Proof. vm_compute. reflexivity. Qed.
Lemma proxies_run : exists es s q,
  rrun ps0 (2 ^ 40) (2 ^ 20) proxy_sched (rstart ps0 3) = ORet es s /\ on_paper 3 proxy_moves = Some (es, q) /\
  rp_max q = r_max s /\ rp_chunk q = r_chunk s /\ rp_job q = r_job s /\ rp_prox q = [None; None] /\ cp_tab (rp_in q) = g_tab (r_g s) /\
  cp_calls (rp_in q) = bw_trace (snd (g_aw (r_g s))) /\ cp_chunks (rp_in q) = [mkP 3145728 16384 3145760] /\ length es = 24%nat.
Proof.
  pose proof proxies_computed as H.
  destruct (rrun ps0 (2 ^ 40) (2 ^ 20) proxy_sched (rstart ps0 3)) as [es s| | |]; [|destruct H|destruct H|destruct H].
  destruct (on_paper 3 proxy_moves) as [[es' q]|]; [|destruct H]. apply pair_equal_spec in H. destruct H as [H H9].
  apply pair_equal_spec in H. destruct H as [H H8]. apply pair_equal_spec in H. destruct H as [H H7]. apply pair_equal_spec in H. destruct H as [H H6].
  apply pair_equal_spec in H. destruct H as [H H5]. apply pair_equal_spec in H. destruct H as [H H4]. apply pair_equal_spec in H. destruct H as [H H3].
  apply pair_equal_spec in H. destruct H as [H1 H2]. exists es, s, q. split; [reflexivity|]. split; [rewrite H1; reflexivity|].
  do 7 (split; [assumption|]). exact H9.
Qed.

(** Two threads ask for chunks of 256 bytes for two proxies; the chunk of the shared allocator holds one of them only, so the
    second asks for a new one.  The first is dropped before the second goes on: [local] now finds 224 bytes recorded, or
    still nothing. *)
Definition race_moves : list rmove :=
  [NLocal 0; NLocal 0; NUse 0 0 (OpAlloc (mkLayout 100 8) false); NUse 1 1 (OpAlloc (mkLayout 200 16) true);
   NInside 0 (MFull 0); NInside 0 (MFresh 0); NInside 0 (MReturn 0); NInside 1 (MFull 1); NNext 0;
   NDrop 0; NLocal 224; NLocal 0; NInside 1 (MFresh 1); NInside 1 (MReturn 1)]%nat.
Lemma race_computed :
  match on_paper 2 race_moves with
  | Some (es, q) => (length es, rp_max q, map (option_map pp_min) (rp_prox q), rp_chunk q, nth_error (rp_job q) 1, length (cp_chunks (rp_in q))) =
      (12%nat, 224, [None; Some 0; Some 224; Some 0], [1%nat; 0%nat],
       Some (RAns 1 (OpAlloc (mkLayout 200 16) true) (mkLayout 256 8) (Some 1%nat)), 2%nat)
  | None => False
  end.
Proof. vm_compute. reflexivity. Qed.
Lemma race_runs : exists es q, on_paper 2 race_moves = Some (es, q) /\ length es = 12%nat /\
  rp_max q = 224 /\ map (option_map pp_min) (rp_prox q) = [None; Some 0; Some 224; Some 0] /\ rp_chunk q = [1%nat; 0%nat] /\
  nth_error (rp_job q) 1 = Some (RAns 1 (OpAlloc (mkLayout 200 16) true) (mkLayout 256 8) (Some 1%nat)) /\ length (cp_chunks (rp_in q)) = 2%nat.
Proof.
  pose proof race_computed as H. destruct (on_paper 2 race_moves) as [[es q]|]; [|destruct H].
  apply pair_equal_spec in H. destruct H as [H H6]. apply pair_equal_spec in H. destruct H as [H H5]. apply pair_equal_spec in H. destruct H as [H H4].
  apply pair_equal_spec in H. destruct H as [H H3]. apply pair_equal_spec in H. destruct H as [H1 H2]. exists es, q. auto 8.
Qed.
