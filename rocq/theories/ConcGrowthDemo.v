(** Concrete cases for C95. *)
From Verif Require Import Base Alloc Arena BlinkAlloc History Setup SetupFacts Concrete Conc ConcAsk
  Paper PaperFacts ProxyPaper ConcPaper ConcPaperFacts ConcPaperDemo ConcPaperAll ConcInitial ConcGrowth.

(** Every call gets its own 64 GB; bigger requests are refused. *)
Definition vast (tr : list uevent) (l : Layout) : option block :=
  if l_size l <=? 2 ^ 36 then Some (mkBlock (2 ^ 36 * (1 + Z.of_nat (length tr))) (l_size l)) else None.

(** Everybody asks for one byte, and finds that there is no chunk; then each asks for one. *)
Definition stampede (n : nat) : list cmove :=
  map (fun t => MCall t (OpAlloc (mkLayout 1 1) false)) (seq 0 n) ++ map MFull (seq 0 n) ++
  flat_map (fun t => [MFresh t; MReturn t]) (seq 0 n).

Lemma stampede_computed :
  match cp_run (su_min (demo vast)) (su_smax (demo vast)) (su_strat (demo vast)) (stampede 32) (cp0 32) with
  | Some (es, q) => (forallb no_reset es, existsb refused es, most_called es, length (filter given (cp_calls q)), obtained (cp_calls q)) =
                    (true, false, 32, 32%nat, 5207001088)
  | None => False
  end.
Proof. vm_compute. reflexivity. Qed.

(** Three threads find no chunk; later two of them find the newest chunk too small. *)
Definition crowd : list cmove :=
  (stampede 3 ++
   [MCall 0 (OpAlloc (mkLayout 5000 8) false); MCall 2 (OpAlloc (mkLayout 3000 16) false); MFull 2; MFull 0;
    MFresh 0; MReturn 0; MFresh 2; MReturn 2; MCall 1 (OpAlloc (mkLayout 100 8) false); MTake 1; MReturn 1])%nat.
Lemma crowd_computed :
  match cp_run (su_min (demo vast)) (su_smax (demo vast)) (su_strat (demo vast)) crowd (cp0 3) with
  | Some (es, q) => (forallb no_reset es, existsb refused es, most_called es, length (filter given (cp_calls q)), obtained (cp_calls q)) =
                    (true, false, 8132, 5%nat, 18432)
  | None => False
  end.
Proof. vm_compute. reflexivity. Qed.

(** Both on the model of the code. *)
Lemma on_code ms n m k b :
  match cp_run (su_min (demo vast)) (su_smax (demo vast)) (su_strat (demo vast)) ms (cp0 n) with
  | Some (es, q) => (forallb no_reset es, existsb refused es, most_called es, length (filter given (cp_calls q)), obtained (cp_calls q)) = (true, false, m, k, b)
  | None => False
  end ->
  exists sched es g, crun (demo vast) sched (cstart (demo vast) n) = ORet es g /\ forallb no_reset es = true /\ existsb refused es = false /\
    most_called es = m /\ length (filter given (cupstream g)) = k /\ obtained (cupstream g) = b.
Proof.
  intros H. destruct (cp_run _ _ _ ms (cp0 n)) as [[es q]|] eqn:E; [|destruct H].
  destruct (moves_real (demo vast) (demo_ok vast) n ms es q E) as (sched & g & Eg & _ & _ & Hc & _).
  apply pair_equal_spec in H. destruct H as [H H4]. apply pair_equal_spec in H. destruct H as [H H3].
  apply pair_equal_spec in H. destruct H as [H H2]. apply pair_equal_spec in H. destruct H as [H1 H0].
  exists sched, es, g. unfold cupstream. rewrite Hc. repeat split; assumption.
Qed.
Lemma stampede_runs : exists sched es g,
  crun (demo vast) sched (cstart (demo vast) 32) = ORet es g /\ forallb no_reset es = true /\ existsb refused es = false /\
  most_called es = 32 /\ length (filter given (cupstream g)) = 32%nat /\ obtained (cupstream g) = 5207001088.
Proof. exact (on_code (stampede 32) 32 32 32 5207001088 stampede_computed). Qed.
Lemma crowd_runs : exists sched es g,
  crun (demo vast) sched (cstart (demo vast) 3) = ORet es g /\ forallb no_reset es = true /\ existsb refused es = false /\
  most_called es = 8132 /\ length (filter given (cupstream g)) = 5%nat /\ obtained (cupstream g) = 18432.
Proof. exact (on_code crowd 3 8132 5 18432 crowd_computed). Qed.

(** After the reset in the case of C89, both threads ask for more than is left. *)
Definition again_sched : list choice :=
  [Start 0%nat (OpAlloc (mkLayout 3000 8) false); Start 1%nat (OpAlloc (mkLayout 900 16) false)] ++
  flat_map (fun _ => [Go 0%nat false; Go 1%nat false]) (repeat tt 12).
Lemma again_computed :
  match crun (demo megabytes) case_sched (cstart (demo megabytes) 2) with
  | ORet es1 g1 =>
      match crun (demo megabytes) again_sched g1 with
      | ORet es2 g2 =>
          (g_thr g1, ar_root (fst (g_aw g1)), load (bw_mem (snd (g_aw g1))) (2097152 + CURSOR) 8,
           load (bw_mem (snd (g_aw g1))) (2097152 + PREV) 8, forallb no_reset es2, most_called es2,
           length (filter given (cupstream g1)), length (filter given (cupstream g2)), map g_thr [g2]) =
          ([Idle; Idle], Some 2097152, Some (2097152 + HDR), Some 0, true, 3922, 2%nat, 4%nat, [[Idle; Idle]])
      | _ => False
      end
  | _ => False
  end.
Proof. vm_compute. reflexivity. Qed.
Lemma again_runs : exists es1 g1 es2 g2,
  crun (demo megabytes) case_sched (cstart (demo megabytes) 2) = ORet es1 g1 /\ clean g1 /\
  crun (demo megabytes) again_sched g1 = ORet es2 g2 /\ forallb no_reset es2 = true /\ most_called es2 = 3922 /\
  length (filter given (cupstream g1)) = 2%nat /\ length (filter given (cupstream g2)) = 4%nat.
Proof.
  pose proof again_computed as H.
  destruct (crun (demo megabytes) case_sched (cstart (demo megabytes) 2)) as [es1 g1| | |]; [|destruct H|destruct H|destruct H].
  destruct (crun (demo megabytes) again_sched g1) as [es2 g2| | |] eqn:E; [|destruct H|destruct H|destruct H].
  exists es1, g1, es2, g2. apply pair_equal_spec in H. destruct H as [H _].
  apply pair_equal_spec in H. destruct H as [H H8]. apply pair_equal_spec in H. destruct H as [H H7].
  apply pair_equal_spec in H. destruct H as [H H6]. apply pair_equal_spec in H. destruct H as [H H5].
  apply pair_equal_spec in H. destruct H as [H H4]. apply pair_equal_spec in H. destruct H as [H H3].
  apply pair_equal_spec in H. destruct H as [H1 H2].
  split; [reflexivity|]. split.
  { split; [rewrite H1; constructor; [|constructor; [|constructor]]; reflexivity|]. rewrite H2. split; [exact H3|exact H4]. }
  repeat split; assumption.
Qed.
