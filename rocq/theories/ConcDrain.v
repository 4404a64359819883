(** No deadlock: from every reached state all calls in progress can be completed. *)
From Verif Require Import Base BaseFacts Alloc AllocFacts Arena ArenaFacts ArenaInv ArenaOps
  BlinkAlloc BlinkFacts History HistoryFacts Setup SetupFacts SetupOps Conc ConcFacts ConcSteps ConcProps.

Definition count (f : pc -> bool) (thr : list pc) : nat := length (filter f thr).

Lemma count_set f thr : forall t p p', nth_error thr t = Some p -> f p = true -> f p' = false ->
  (count f (set_nth t p' thr) < count f thr)%nat.
Proof.
  unfold count. induction thr as [|q thr IH]; intros [|t] p p' H F F'; cbn in *; try discriminate.
  - inversion H; subst. rewrite F, F'. cbn. lia.
  - specialize (IH t p p' H F F'). destruct (f q); cbn; lia.
Qed.

Lemma count_zero f thr t p : count f thr = 0%nat -> nth_error thr t = Some p -> f p = false.
Proof.
  unfold count. revert t. induction thr as [|q thr IH]; intros [|t] H E; cbn in *; try discriminate.
  - inversion E; subst. destruct (f p); [discriminate|reflexivity].
  - destruct (f q); [discriminate|]. apply (IH t); auto.
Qed.

Lemma count_pos f thr : count f thr <> 0%nat -> exists t p, nth_error thr t = Some p /\ f p = true.
Proof.
  unfold count. induction thr as [|q thr IH]; cbn; [congruence|]. destruct (f q) eqn:F.
  - intros _. exists 0%nat, q. auto.
  - intros H. destruct (IH H) as (t & p & E). exists (S t), p. exact E.
Qed.

Lemma set_nth_twice {T} t (x y : T) l : set_nth t y (set_nth t x l) = set_nth t y l.
Proof. revert t. induction l as [|z l IH]; intros [|t]; cbn; auto. f_equal. apply IH. Qed.

Definition is_go (c : choice) : Prop := match c with Go _ false => True | _ => False end.

Section Drain.
  Variable su : setup.
  Hypothesis Hok : setup_ok su.
  (** Also if others use the underlying allocator, see [xinv] in ConcFacts.v. *)
  Variable sole : bool.
  Variable ext : list ublock.
  Variable m0 : mem.
  Notation xinv := (xinv su sole ext m0).

  Lemma alone_thr t k : forall g es g' p, nth_error (g_thr g) t = Some p ->
    crun su (repeat (Go t false) k) g = ORet es g' -> exists p', g_thr g' = set_nth t p' (g_thr g).
  Proof.
    induction k as [|k IH]; intros g es g' p Hp; cbn [repeat crun].
    - intros E; inversion E; subst. exists p. symmetry. apply set_nth_same. exact Hp.
    - unfold bind, ret. destruct (cstep su (Go t false) g) as [es1 g1| | |] eqn:E1; try discriminate.
      destruct (crun su (repeat (Go t false) k) g1) as [es2 g2| | |] eqn:E2; try discriminate.
      intros E; inversion E; subst. unfold cstep in E1. unfold bind at 1, get_g in E1. rewrite Hp in E1.
      destruct (go_thread su t p false g Hp _ _ E1) as (p1 & Et & _).
      destruct (IH g1 es2 g' p1) as (p2 & Et2); [rewrite Et; apply (nth_set_same _ _ _ _ Hp)|exact E2|].
      exists p2. rewrite Et2, Et. apply set_nth_twice.
  Qed.

  Lemma alone g s t p : xinv g s -> nth_error (g_thr g) t = Some p ->
    lk_writer (g_lock g) = None \/ lk_writer (g_lock g) = Some t ->
    exists sched es g' s' p', Forall is_go sched /\ crun su sched g = ORet es g' /\ xinv g' s' /\
      g_thr g' = set_nth t p' (g_thr g) /\ (p' = Idle \/ waits t g p').
  Proof.
    intros Hi Hp Hw.
    destruct (solo su Hok _ _ _ (mu g p) g s t p Hi Hp Hw ltac:(lia)) as (es & g' & p' & E & Hp' & Hst).
    pose proof (xcrun_ok su Hok sole ext m0 (repeat (Go t false) (mu g p)) g s Hi) as Hi'.
    apply wp_inv in Hi'. destruct Hi' as (es' & g1 & E' & Hi'). rewrite E in E'. inversion E'; subst es' g1.
    destruct (alone_thr t _ _ _ _ _ Hp E) as (p1 & Et).
    assert (p1 = p'). { rewrite Et, (nth_set_same _ _ _ _ Hp) in Hp'. congruence. } subst p1.
    exists (repeat (Go t false) (mu g p)), es, g', (sevs es s), p'. split.
    { apply Forall_forall. intros c Hc. apply repeat_spec in Hc. subst. exact I. }
    auto.
  Qed.

  Lemma crun_two sched1 sched2 g es1 g1 es2 g2 :
    crun su sched1 g = ORet es1 g1 -> crun su sched2 g1 = ORet es2 g2 ->
    crun su (sched1 ++ sched2) g = ORet (es1 ++ es2) g2.
  Proof. intros E1 E2. rewrite crun_app, E1, E2. reflexivity. Qed.

  Definition quiescent (g : gst) : Prop := lk_writer (g_lock g) = None /\ lk_readers (g_lock g) = [].

  Lemma no_writer g s : xinv g s ->
    (forall t p, nth_error (g_thr g) t = Some p -> writing p = false) -> lk_writer (g_lock g) = None.
  Proof.
    intros (cs & _ & _ & _ & _ & (K1 & K2 & K3) & _) H.
    destruct (lk_writer (g_lock g)) as [t|]; [|reflexivity].
    destruct (proj1 (K2 t) eq_refl) as (p & Hp & W). rewrite (H t p Hp) in W. discriminate.
  Qed.
  Lemma no_reader g s : xinv g s ->
    (forall t p, nth_error (g_thr g) t = Some p -> reading p = false) -> lk_readers (g_lock g) = [].
  Proof.
    intros (cs & _ & _ & _ & _ & (K1 & K2 & K3) & _) H.
    destruct (lk_readers (g_lock g)) as [|t rs]; [reflexivity|].
    destruct (proj1 (K1 t) (or_introl eq_refl)) as (p & Hp & W). rewrite (H t p Hp) in W. discriminate.
  Qed.
  Lemma not_writing g s t p : xinv g s -> lk_writer (g_lock g) = None ->
    nth_error (g_thr g) t = Some p -> writing p = false.
  Proof.
    intros (cs & _ & _ & _ & _ & (K1 & K2 & K3) & _) Hw Hp.
    destruct (writing p) eqn:W; [|reflexivity]. exfalso.
    assert (X : lk_writer (g_lock g) = Some t) by (apply K2; eauto). congruence.
  Qed.

  (** Writers first. *)
  Lemma drain_writer g s : xinv g s -> exists sched es g' s', Forall is_go sched /\
    crun su sched g = ORet es g' /\ xinv g' s' /\ lk_writer (g_lock g') = None.
  Proof.
    intros Hi. destruct (lk_writer (g_lock g)) as [t|] eqn:Ew.
    2: { exists [], [], g, s. auto 10. }
    pose proof Hi as (cs & _ & _ & _ & _ & (K1 & K2 & K3) & _).
    destruct (proj1 (K2 t) Ew) as (p & Hp & Wp).
    destruct (alone g s t p Hi Hp (or_intror Ew)) as (sched & es & g' & s' & p' & F & E & Hi' & Et & Hst).
    exists sched, es, g', s'. split; [exact F|]. split; [exact E|]. split; [exact Hi'|].
    assert (p' = Idle).
    { destruct Hst as [->|(j & _ & t' & _ & Hr)]; [reflexivity|]. rewrite K3 in Hr by congruence. contradiction. }
    subst p'. apply (no_writer g' s' Hi'). intros t1 p1 Hp1. rewrite Et in Hp1.
    destruct (Nat.eq_dec t t1) as [->|N].
    - rewrite (nth_set_same _ _ _ _ Hp) in Hp1. inversion Hp1; reflexivity.
    - rewrite nth_set_other in Hp1 by exact N. destruct (writing p1) eqn:W1; [|reflexivity].
      exfalso. apply N. assert (X : lk_writer (g_lock g) = Some t1) by (apply K2; eauto). congruence.
  Qed.

  (** Then the readers: each returns or comes to wait for the exclusive lock. *)
  Lemma drain_readers n : forall g s, xinv g s -> lk_writer (g_lock g) = None ->
    count reading (g_thr g) = n ->
    exists sched es g' s', Forall is_go sched /\ crun su sched g = ORet es g' /\ xinv g' s' /\ quiescent g'.
  Proof.
    induction n as [n IH] using lt_wf_ind. intros g s Hi Hw Hn.
    destruct (Nat.eq_dec n 0) as [->|N].
    - exists [], [], g, s. split; [constructor|]. split; [reflexivity|]. split; [exact Hi|].
      split; [exact Hw|]. apply (no_reader g s Hi). intros t p Hp. apply (count_zero _ _ _ _ Hn Hp).
    - destruct (count_pos reading (g_thr g)) as (t & p & Hp & Rp); [congruence|].
      destruct (alone g s t p Hi Hp (or_introl Hw)) as (sched & es & g' & s' & p' & F & E & Hi' & Et & Hst).
      assert (Hr' : reading p' = false /\ writing p' = false).
      { destruct Hst as [->|(j & -> & _)]; auto. }
      destruct Hr' as [Rp' Wp'].
      assert (Hw' : lk_writer (g_lock g') = None).
      { apply (no_writer g' s' Hi'). intros t1 p1 Hp1. rewrite Et in Hp1.
        destruct (Nat.eq_dec t t1) as [->|N1].
        - rewrite (nth_set_same _ _ _ _ Hp) in Hp1. inversion Hp1; subst; exact Wp'.
        - rewrite nth_set_other in Hp1 by exact N1. apply (not_writing g s t1); auto. }
      destruct (IH (count reading (g_thr g'))) with (g := g') (s := s') as (sched2 & es2 & g2 & s2 & F2 & E2 & Hi2 & Q2); auto.
      { rewrite <- Hn, Et. apply (count_set reading _ _ p); auto. }
      exists (sched ++ sched2), (es ++ es2), g2, s2. split; [apply Forall_app; auto|].
      split; [apply (crun_two _ _ _ _ _ _ _ E E2)|]. auto.
  Qed.

  (** With the lock free, every call can be completed. *)
  Lemma drain_calls n : forall g s, xinv g s -> quiescent g ->
    count (fun p => negb (is_idle p)) (g_thr g) = n ->
    exists sched es g' s', Forall is_go sched /\ crun su sched g = ORet es g' /\ xinv g' s' /\
      forall t p, nth_error (g_thr g') t = Some p -> p = Idle.
  Proof.
    induction n as [n IH] using lt_wf_ind. intros g s Hi (Hw & Hr) Hn.
    destruct (Nat.eq_dec n 0) as [->|N].
    - exists [], [], g, s. split; [constructor|]. split; [reflexivity|]. split; [exact Hi|].
      intros t p Hp. pose proof (count_zero _ _ _ _ Hn Hp) as X. destruct p; try discriminate; reflexivity.
    - destruct (count_pos _ _ ltac:(rewrite Hn; exact N)) as (t & p & Hp & Ip).
      destruct (alone g s t p Hi Hp (or_introl Hw)) as (sched & es & g' & s' & p' & F & E & Hi' & Et & Hst).
      assert (p' = Idle).
      { destruct Hst as [->|(j & _ & t' & _ & X)]; [reflexivity|]. rewrite Hr in X. contradiction. }
      subst p'.
      assert (Hq : quiescent g').
      { pose proof Hi as (cs & _ & _ & _ & _ & (K1 & K2 & K3) & _). split.
        - apply (no_writer g' s' Hi'). intros t1 p1 Hp1. rewrite Et in Hp1.
          destruct (Nat.eq_dec t t1) as [->|N1].
          + rewrite (nth_set_same _ _ _ _ Hp) in Hp1. inversion Hp1; subst; reflexivity.
          + rewrite nth_set_other in Hp1 by exact N1. apply (not_writing g s t1); auto.
        - apply (no_reader g' s' Hi'). intros t1 p1 Hp1. rewrite Et in Hp1.
          destruct (Nat.eq_dec t t1) as [->|N1].
          + rewrite (nth_set_same _ _ _ _ Hp) in Hp1. inversion Hp1; subst; reflexivity.
          + rewrite nth_set_other in Hp1 by exact N1. destruct (reading p1) eqn:Rp; [|reflexivity].
            exfalso. assert (X : In t1 (lk_readers (g_lock g))) by (apply K1; eauto). rewrite Hr in X. contradiction. }
      destruct (IH (count (fun p => negb (is_idle p)) (g_thr g'))) with (g := g') (s := s')
        as (sched2 & es2 & g2 & s2 & F2 & E2 & Hi2 & Q2); auto.
      { rewrite <- Hn, Et. apply (count_set _ _ _ p); auto. }
      exists (sched ++ sched2), (es ++ es2), g2, s2. split; [apply Forall_app; auto|].
      split; [apply (crun_two _ _ _ _ _ _ _ E E2)|]. auto.
  Qed.

  Lemma drain g s : xinv g s -> exists sched es g' s', Forall is_go sched /\ crun su sched g = ORet es g' /\
    xinv g' s' /\ forall t p, nth_error (g_thr g') t = Some p -> p = Idle.
  Proof.
    intros Hi.
    destruct (drain_writer g _ Hi) as (d1 & e1 & g1 & s1 & F1 & E1 & Hi1 & W1).
    destruct (drain_readers _ g1 s1 Hi1 W1 eq_refl) as (d2 & e2 & g2 & s2 & F2 & E2 & Hi2 & Q2).
    destruct (drain_calls _ g2 s2 Hi2 Q2 eq_refl) as (d3 & e3 & g3 & s3 & F3 & E3 & Hi3 & Q3).
    exists (d1 ++ d2 ++ d3), (e1 ++ e2 ++ e3), g3, s3. split; [|split; [|auto]].
    - apply Forall_app. split; [exact F1|]. apply Forall_app. auto.
    - apply (crun_two _ _ _ _ _ _ _ E1). apply (crun_two _ _ _ _ _ _ _ E2 E3).
  Qed.
End Drain.

Section Sole.
  Variable su : setup.
  Hypothesis Hok : setup_ok su.

  Lemma cinv_drain g s : cinv su g s -> exists sched es g', Forall is_go sched /\ crun su sched g = ORet es g' /\
    forall t p, nth_error (g_thr g') t = Some p -> p = Idle.
  Proof.
    intros Hi. apply (sole_inv su (bw_mem bworld0)) in Hi.
    destruct (drain su Hok _ _ _ g s Hi) as (d & e & g' & _ & F & E & _ & Q). exists d, e, g'. auto.
  Qed.
  Lemma creached_drain n sched es g : creached su n sched es g ->
    exists sched2 es2 g2, Forall is_go sched2 /\ crun su sched2 g = ORet es2 g2 /\
      forall t p, nth_error (g_thr g2) t = Some p -> p = Idle.
  Proof. intros E. exact (cinv_drain g _ (creached_inv su Hok _ _ _ _ E)). Qed.
End Sole.
