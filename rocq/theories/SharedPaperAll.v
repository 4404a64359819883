(** Whatever SharedPaper.v and GConcPaper.v allow happens under some schedule (C90, C91). *)
From Coq Require Import Permutation.
From Verif Require Import Base BaseFacts Alloc AllocFacts Arena ArenaFacts ArenaInv ArenaOps
  BlinkAlloc BlinkFacts History HistoryFacts Setup SetupFacts Frame ProxyFacts Conc ConcFacts ConcSteps ConcProps
  Paper PaperFacts ProxyPaper ProxyPaperFacts ConcPaper ConcPaperFacts ConcPaperAll Shared SharedFacts SharedPaper SharedPaperFacts.

Section All.
  Variable su : setup.
  Hypothesis Hok : setup_ok su.
  Notation ostp := (op_step (su_min su) (su_smax su) (su_bmax su) (su_strat su)).
  Notation opr := (op_run (su_min su) (su_smax su) (su_bmax su) (su_strat su)).

  (** All threads are between two moves. *)
  Definition ogood (o : ost) (q : opaper) : Prop :=
    (exists s s2, oinv su o s s2) /\ oshows o q /\ forall t p, nth_error (g_thr (o_g o)) t = Some p -> settled p.

  Lemma ogood_in o q : ogood o q -> good su false (live (o_tab o)) (omem o) (o_g o) (op_in q).
  Proof. intros ((s & s2 & Hi & _) & [_ Hs] & Ha). split; [exists s; exact Hi|]. split; assumption. Qed.
  Lemma ogood_out o q g' q' : ogood o q -> good su false (live (o_tab o)) (omem o) g' q' -> ogood (mkO (o_tab o) g') (mkOP (op_tab q) q').
  Proof.
    intros ((s & s2 & _ & Ha2) & [Ht _] & _) ((s' & X') & Hs & Ha). split; [|split; [split; assumption|exact Ha]].
    exists s', s2. pose proof X' as (cs & _ & Sm & _). cbn in Sm. split.
    - unfold omem. cbn [o_tab o_g]. apply (xinv_refl su _ _ _ _ X').
    - unfold omem. cbn [o_tab o_g]. apply (agrees_same (omem o) _ _ _ (live (o_tab o))); auto. apply incl_refl.
  Qed.
  Lemma ogood_paced o q : ogood o q -> paced (cp_chunks (op_in q)) (g_thr (o_g o)).
  Proof. intros H. apply (good_near su _ _ _ O _ _ (ogood_in o q H)). Qed.

  Lemma orun_ours sched : forall o es g', crun su sched (o_g o) = ORet es g' ->
    orun su (map Ours sched) o = ORet (map OurEv es) (mkO (o_tab o) g').
  Proof.
    induction sched as [|c sched IH]; intros o es g' E; cbn [map orun crun ostep] in *.
    - injection E as <- <-. destruct o; reflexivity.
    - unfold bind in *. unfold lift_g. destruct (cstep su c (o_g o)) as [e1 g1| | |]; try discriminate E.
      destruct (crun su sched g1) as [e2 g2| | |] eqn:E2; try discriminate E. injection E as <- <-. cbn [ret].
      rewrite (IH (mkO (o_tab o) g1) e2 g2 E2), map_app. reflexivity.
  Qed.

  Lemma theirs_loud a o es o' : theirs su a o = ORet es o' -> (exists k, a = OpReset k) \/ exists r, es = [TheirEv a r].
  Proof.
    unfold theirs. destruct a; try (destruct (step _ _ _ _ _) as [r st| | |]; try discriminate; intros E; injection E as <- _; right; exists r; reflexivity).
    intros _. left. eexists. reflexivity.
  Qed.
  Lemma theirs_happen a o q es q' : ogood o q -> ostp (ByThem a) q = Some (es, q') ->
    exists o', theirs su a o = ORet es o' /\ ogood o' q'.
  Proof.
    intros Hg Em. pose proof Hg as ((s & s2 & Hi) & Hs & Ha). pose proof Hi as ((cs & X) & Ha2).
    pose proof (wp_conj _ _ _ _ (theirs_ok su Hok o s s2 a Hi) (theirs_exact su Hok cs o s s2 a q X Ha2 Hs (ogood_paced o q Hg))) as H.
    apply wp_inv in H. destruct H as (es1 & o' & E & (Hi' & _ & _ & Et & _) & ms & q1 & Er & L & Hf & Hs' & _).
    assert (Y : Some (es, q') = Some (es1, q1)).
    { rewrite <- Em. destruct ms as [|m [|m2 ms]]; [| |cbn in L; lia].
      - injection Er as <- <-. destruct (theirs_loud _ _ _ _ E) as [[k ->]|[r Z]]; [discriminate Em|discriminate Z].
      - pose proof (Forall_inv Hf). subst m. cbn [op_run] in Er. destruct (ostp (ByThem a) q) as [[e2 q2]|]; [|discriminate Er].
        injection Er as <- <-. rewrite app_nil_r. reflexivity. }
    injection Y as <- <-. exists o'. split; [exact E|]. split; [exists s, (tevs es s2); exact Hi'|]. split; [exact Hs'|]. rewrite Et. exact Ha.
  Qed.

  Lemma orun_app s1 : forall s2 o e1 o1, orun su s1 o = ORet e1 o1 ->
    orun su (s1 ++ s2) o = match orun su s2 o1 with ORet e2 o2 => ORet (e1 ++ e2) o2 | OPanic w => OPanic w | OAbort => OAbort | OUB => OUB end.
  Proof.
    induction s1 as [|c s1 IH]; intros s2 o e1 o1 E; cbn [app orun] in *.
    - injection E as <- <-. cbn. destruct (orun su s2 o); reflexivity.
    - unfold bind in *. destruct (ostep su c o) as [ea oa| | |]; try discriminate E.
      destruct (orun su s1 oa) as [eb ob| | |] eqn:Eb; try discriminate E. injection E as <- <-.
      rewrite (IH s2 oa eb ob Eb). destruct (orun su s2 ob); try reflexivity. cbn. rewrite app_assoc. reflexivity.
  Qed.

  Lemma omove_happens m o q es q' : ogood o q -> ostp m q = Some (es, q') ->
    exists sched o', orun su sched o = ORet es o' /\ ogood o' q'.
  Proof.
    intros Hg Em. destruct m as [m|a].
    - cbn [op_step] in Em. destruct (cp_step _ _ _ m (op_in q)) as [[e1 q1]|] eqn:E1; [|discriminate Em]. injection Em as <- <-.
      destruct (move_happens su Hok _ _ _ m _ _ _ _ (ogood_in o q Hg) E1) as (sched & g' & R & Hg' & _).
      exists (map Ours sched), (mkO (o_tab o) g'). split; [apply orun_ours; exact R|apply (ogood_out o q _ _ Hg Hg')].
    - destruct (theirs_happen a o q es q' Hg Em) as (o' & E & Hg'). exists [Theirs a], o'. split; [|exact Hg'].
      cbn [orun ostep]. unfold bind. rewrite E. cbn. rewrite app_nil_r. reflexivity.
  Qed.

  Lemma omoves_happen ms : forall o q es q', ogood o q -> opr ms q = Some (es, q') -> exists sched o', orun su sched o = ORet es o' /\ ogood o' q'.
  Proof.
    induction ms as [|m ms IH]; intros o q es q' Hg Em; cbn [op_run] in Em.
    - injection Em as <- <-. exists [], o. split; [reflexivity|exact Hg].
    - destruct (ostp m q) as [[es1 q1]|] eqn:E1; [|discriminate Em]. destruct (opr ms q1) as [[es2 q2]|] eqn:E2; [|discriminate Em].
      injection Em as <- <-. destruct (omove_happens m o q es1 q1 Hg E1) as (s1 & o1 & R1 & Hg1).
      destruct (IH o1 q1 es2 q2 Hg1 E2) as (s2 & o2 & R2 & Hg2). exists (s1 ++ s2), o2. split; [|exact Hg2].
      rewrite (orun_app _ _ _ _ _ R1), R2. reflexivity.
  Qed.

  Lemma ostart_good n : ogood (ostart su n) (op0 n).
  Proof.
    split; [exists [], []; apply (ostart_inv su Hok n)|]. split; [apply ostart_shows|].
    intros t p Hp. apply nth_error_In, repeat_spec in Hp. subst p. exact I.
  Qed.

  Lemma omoves_real n ms es q : opr ms (op0 n) = Some (es, q) -> exists sched o, orun su sched (ostart su n) = ORet es o /\ oshows o q.
  Proof.
    intros E. destruct (omoves_happen ms _ _ _ _ (ostart_good n) E) as (sched & o & R & (_ & Hs & _)). exists sched, o. auto.
  Qed.
End All.
