(** A concrete case for C94 with threads. *)
From Verif Require Import Base Alloc Arena BlinkAlloc History Setup SetupFacts Concrete Conc ConcAsk
  Paper ProxyPaper ConcPaper ConcPaperDemo ConcInitial.

(** The two threads of C89, up to the reset: both find no chunk. *)
Definition brief_sched : list choice := removelast case_sched.

Lemma brief_computed :
  match crun (demo megabytes) brief_sched (cstart (demo megabytes) 2) with
  | ORet es g => (forallb no_reset es, most_called es, map given (cupstream g)) = (true, 231, [true; true])
  | _ => False
  end.
Proof. vm_compute. reflexivity. Qed.
Lemma brief_runs : su_min (demo megabytes) = 256 /\ exists es g,
  crun (demo megabytes) brief_sched (cstart (demo megabytes) 2) = ORet es g /\
  forallb no_reset es = true /\ most_called es = 231 /\ length (filter given (cupstream g)) = 2%nat.
Proof.
  split; [reflexivity|]. pose proof brief_computed as H.
  destruct (crun (demo megabytes) brief_sched (cstart (demo megabytes) 2)) as [es g| | |]; [|destruct H|destruct H|destruct H].
  apply pair_equal_spec in H. destruct H as [H H3]. apply pair_equal_spec in H. destruct H as [H1 H2].
  exists es, g. split; [reflexivity|]. split; [exact H1|]. split; [exact H2|].
  destruct (cupstream g) as [|x [|y [|z tr]]]; try discriminate H3. cbn in H3. injection H3 as Hx Hy. cbn. rewrite Hx. cbn. rewrite Hy. reflexivity.
Qed.
