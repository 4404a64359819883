(** The cache neither blocks forever nor lets two threads at the same slot (C60, C61). *)
From Verif Require Import Base BaseFacts History SetupOps Conc ConcFacts Cache CacheFacts CacheProps.

(** How many more steps of its own a call needs at most. *)
Definition steps_left {X} (p : qpc X) : nat :=
  match p with
  | QIdle => 0 | QUnlock _ _ => 1 | PopFlush | PushFlush _ => 2 | PopWrite | PushWrite _ => 3 | QRelease _ => 4
  | PopLoad | PushGuard _ _ => 5 | PopGuard _ | PushPut _ _ => 6 | PopTake _ | PushFetch _ => 7
  | PopFetch | PushRead _ => 8 | PopRead => 9
  end.
(** Waiting for the lock. *)
Definition wants_lock {X} (p : qpc X) : bool :=
  match p with PopRead | PopWrite | PushRead _ | PushWrite _ => true | _ => false end.
(** A [push] that has not taken effect. *)
Definition pushing {X} (p : qpc X) : bool :=
  match p with
  | PushRead _ | PushFetch _ | PushPut _ _ | PushGuard _ _ | PushWrite _ | PushFlush _ | QRelease (CPush _) => true
  | _ => false
  end.
Definition only_go {X} (c : qchoice X) : Prop := match c with QGo _ => True | QStart _ _ => False end.

Section Live.
  Context {X : Type}.
  Variable vmax : Z.
  Hypothesis Hvmax : 0 <= vmax <= ISIZE_MAX.

  Ltac crush H :=
    repeat match type of H with
    | context [match ?b with _ => _ end] =>
        match type of b with
        | bool => destruct b eqn:?
        | option _ => destruct b eqn:?
        | list _ => destruct b eqn:?
        | unit => destruct b
        | cop _ => destruct b
        end
    | ORet _ _ = ORet _ _ => inversion H; subst; clear H
    | _ = ORet _ _ => discriminate H
    end.

  (** A step of a thread brings it closer to its end, or it waits for the lock. *)
  Lemma go_moves t p (q q' : qst X) es : qgo vmax t p q = ORet es q' -> p <> QIdle ->
    (q' = q /\ wants_lock p = true /\
       (lk_writer (q_lock q) <> None \/ lk_readers (q_lock q) <> [])) \/
    (exists p', q_thr q' = set_nth t p' (q_thr q) /\ (steps_left p' < steps_left p)%nat).
  Proof.
    intros H N. destruct p; try congruence;
      unfold qgo, flush, bind, get_q, set_lock, set_next_pop, set_next_push, set_arrays, q_become, upd, ret, ub in H;
      cbn [q_pop q_next_pop q_push q_next_push q_lock q_thr] in H; crush H;
      try (left; split; [reflexivity|]; split; [reflexivity|]; first [left; congruence|right; congruence]);
      try (right; eexists; split; [reflexivity|]; cbn; lia).
  Qed.
  Definition holds_lock (p : qpc X) : bool := qrd p || qwr p.

  Lemma holder_acts p : holds_lock p = true -> wants_lock p = false /\ p <> QIdle.
  Proof. destruct p; cbn; intros H; try discriminate; split; try reflexivity; discriminate. Qed.

  (** Whoever waits, waits for a thread that holds the lock and does not wait itself. *)
  Lemma lock_holder (q : qst X) : qinv vmax q -> lk_writer (q_lock q) <> None \/ lk_readers (q_lock q) <> [] ->
    exists t' p', nth_error (q_thr q) t' = Some p' /\ holds_lock p' = true.
  Proof.
    intros (_ & _ & _ & _ & (K1 & K2 & _) & _) [H|H]; unfold holds_lock.
    - destruct (lk_writer (q_lock q)) as [t'|] eqn:Ew; [|congruence]. destruct (proj1 (K2 t') eq_refl) as (p & Hp & Hw).
      exists t', p. split; [exact Hp|]. rewrite Hw. apply orb_true_r.
    - destruct (lk_readers (q_lock q)) as [|t' ts] eqn:Er; [congruence|].
      destruct (proj1 (K1 t') (or_introl eq_refl)) as (p & Hp & Hr). exists t', p. split; [exact Hp|]. rewrite Hr. reflexivity.
  Qed.

  Definition work_left (thr : list (qpc X)) : nat := fold_right (fun p n => (steps_left p + n)%nat) 0%nat thr.

  Lemma work_set (thr : list (qpc X)) : forall t p p', nth_error thr t = Some p ->
    (work_left (set_nth t p' thr) + steps_left p = work_left thr + steps_left p')%nat.
  Proof.
    induction thr as [|a thr IH]; intros [|t] p p' Hp; try discriminate; cbn [nth_error set_nth work_left fold_right] in *.
    - inversion Hp; subst. fold (work_left thr). lia.
    - specialize (IH t p p' Hp). fold (work_left (set_nth t p' thr)) (work_left thr). lia.
  Qed.

  Lemma work_zero (thr : list (qpc X)) : work_left thr = 0%nat -> Forall (fun p => p = QIdle) thr.
  Proof.
    induction thr as [|a thr IH]; intros H; constructor; cbn [work_left fold_right] in H; fold (work_left thr) in H.
    - destruct a; cbn in H; (reflexivity || lia).
    - apply IH. lia.
  Qed.
  Lemma busy_thread (thr : list (qpc X)) : work_left thr <> 0%nat -> exists t p, nth_error thr t = Some p /\ p <> QIdle.
  Proof.
    induction thr as [|a thr IH]; intros H; [cbn in H; congruence|].
    destruct a eqn:Ea; [|exists 0%nat, a; subst; split; [reflexivity|discriminate]..].
    destruct (IH H) as (t & p & Hp & N). exists (S t), p. auto.
  Qed.

  (** There is room for every [push] that is running. *)
  Definition roomy (q : qst X) : Prop := zlen (q_pop q) + cnt pushing (q_thr q) <= vmax.

  Lemma go_roomy t p (q q' : qst X) es : qinv vmax q -> nth_error (q_thr q) t = Some p ->
    roomy q -> qgo vmax t p q = ORet es q' -> roomy q'.
  Proof.
    intros Hi Hp Hr H. pose proof Hi as (E1 & E2 & _ & Hnp & _ & Hpc & _). specialize (Hpc t p Hp). unfold roomy in *.
    assert (Set_ : forall p', cnt pushing (set_nth t p' (q_thr q)) = cnt pushing (q_thr q) - bump1 (pushing p) + bump1 (pushing p'))
      by (intros p'; apply cnt_set; exact Hp).
    assert (Hfl : zlen (queue_of q) <= zlen (q_pop q)).
    { unfold queue_of, remaining, zlen. rewrite skipn_length. lia. }
    destruct p; cbn [qpc_ok] in Hpc; try contradiction.
    all: try (unfold qgo, bind, get_q, set_lock, set_next_pop, set_next_push, set_arrays, q_become, upd, ret, ub in H;
      cbn [q_pop q_next_pop q_push q_next_push q_lock q_thr] in H; crush H;
      cbn [q_pop q_thr]; rewrite ?Set_; cbn [pushing bump1]; unfold bump1; try lia; exact Hr).
    unfold qgo, bind at 1, get_q in H. unfold bind at 1 in H. rewrite (flush_eq q E1 E2) in H.
    unfold bind, get_q, set_arrays, q_become, upd, ret in H. cbn [q_pop q_next_pop q_push q_next_push q_lock q_thr] in H.
    destruct (vmax <=? zlen (queue_of q)); [discriminate|]. inversion H; subst. cbn [q_pop q_thr]. rewrite Set_.
    unfold zlen in *. rewrite app_length. cbn [length pushing bump1] in *. unfold bump1 in *. lia.
  Qed.

  Lemma cnt_pos {P} (f : P -> bool) thr t p : nth_error thr t = Some p -> f p = true -> 1 <= cnt f thr.
  Proof.
    intros Hp Hf. unfold cnt, zlen. pose proof (nth_error_In _ _ Hp) as Hin.
    assert (In p (filter f thr)) by (apply filter_In; auto). destruct (filter f thr); [contradiction|]. cbn [length]. lia.
  Qed.

  Lemma go_returns t p (q : qst X) : qinv vmax q -> nth_error (q_thr q) t = Some p -> roomy q ->
    exists es q', qgo vmax t p q = ORet es q' /\ qinv vmax q' /\ roomy q'.
  Proof.
    intros Hi Hp Hr. pose proof (qgo_ok vmax Hvmax q t p Hi Hp) as G. unfold qgoal in G.
    destruct (qgo vmax t p q) as [es q'|q'| |] eqn:E; try contradiction.
    - exists es, q'. split; [reflexivity|]. split; [apply G|]. apply (go_roomy t p q q' es Hi Hp Hr E).
    - exfalso. clear G. pose proof Hi as (E1 & E2 & _ & Hnp & _ & Hpc & _). specialize (Hpc t p Hp). unfold roomy in *.
      destruct p; cbn [qpc_ok] in Hpc; try contradiction.
      all: try (unfold qgo, bind, get_q, set_lock, set_next_pop, set_next_push, set_arrays, q_become, upd, ret, ub in E;
        cbn [q_pop q_next_pop q_push q_next_push q_lock q_thr] in E;
        repeat match type of E with
        | context [match ?b with _ => _ end] =>
            match type of b with
            | bool => destruct b eqn:?
            | option _ => destruct b eqn:?
            | list _ => destruct b eqn:?
            | cop _ => destruct b
            end
        | _ = OPanic _ => discriminate E
        end; fail).
      unfold qgo, bind at 1, get_q in E. unfold bind at 1 in E. rewrite (flush_eq q E1 E2) in E.
      unfold bind, get_q, set_arrays, q_become, upd, ret in E. cbn [q_pop q_next_pop q_push q_next_push q_lock q_thr] in E.
      destruct (Z.leb_spec vmax (zlen (queue_of q))) as [Hv|_]; [|discriminate].
      pose proof (cnt_pos pushing (q_thr q) t (PushFlush x) Hp eq_refl).
      assert (zlen (queue_of q) <= zlen (q_pop q)) by (unfold queue_of, remaining, zlen; rewrite skipn_length; lia). lia.
  Qed.

  (** All calls that are running can be finished. *)
  Lemma drain_cache n : forall q : qst X, (work_left (q_thr q) <= n)%nat -> qinv vmax q -> roomy q ->
    exists sched es q', Forall only_go sched /\ qrun vmax sched q = ORet es q' /\ Forall (fun p => p = QIdle) (q_thr q').
  Proof.
    induction n as [|n IH]; intros q Hw Hi Hr.
    - exists [], [], q. split; [constructor|]. split; [reflexivity|]. apply work_zero. lia.
    - destruct (Nat.eq_dec (work_left (q_thr q)) 0) as [Z0|Z0].
      { exists [], [], q. split; [constructor|]. split; [reflexivity|]. apply work_zero. exact Z0. }
      assert (Go : exists t p, nth_error (q_thr q) t = Some p /\ p <> QIdle /\
                (wants_lock p = true -> lk_writer (q_lock q) = None /\ lk_readers (q_lock q) = [])).
      { destruct (lk_writer (q_lock q)) as [t0|] eqn:Ew.
        - destruct (lock_holder q Hi) as (t' & p' & Hp' & Hh); [left; congruence|]. destruct (holder_acts p' Hh) as [A B].
          exists t', p'. split; [exact Hp'|]. split; [exact B|congruence].
        - destruct (lk_readers (q_lock q)) as [|t0 ts] eqn:Er.
          + destruct (busy_thread _ Z0) as (t & p & Hp & N). exists t, p. auto.
          + destruct (lock_holder q Hi) as (t' & p' & Hp' & Hh); [right; congruence|]. destruct (holder_acts p' Hh) as [A B].
            exists t', p'. split; [exact Hp'|]. split; [exact B|congruence]. }
      destruct Go as (t & p & Hp & N & Hfree).
      destruct (go_returns t p q Hi Hp Hr) as (es & q1 & E & Hi1 & Hr1).
      destruct (go_moves t p q q1 es E N) as [(_ & Hwl & [Hb|Hb])|(p' & Et & Hlt)].
      + destruct (Hfree Hwl). congruence.
      + destruct (Hfree Hwl). congruence.
      + pose proof (work_set (q_thr q) t p p' Hp) as Ws.
        destruct (IH q1) as (sched & es2 & q2 & Fs & E2 & Fi); [rewrite Et; lia|exact Hi1|exact Hr1|].
        exists (QGo t :: sched), (es ++ es2), q2. split; [constructor; [exact I|exact Fs]|]. split; [|exact Fi].
        cbn [qrun]. unfold bind. unfold qstep, bind, get_q. rewrite Hp, E, E2. reflexivity.
  Qed.

  Variable m : nat.
  Hypothesis Hm : Z.of_nat m <= 2 ^ 63.

  Lemma calls_finish sched es (q : qst X) :
    qrun vmax sched (qstart m) = ORet es q -> zlen (q_pop q) + cnt pushing (q_thr q) <= vmax ->
    exists sched' es' q', Forall only_go sched' /\ qrun vmax sched' q = ORet es' q' /\ Forall (fun p => p = QIdle) (q_thr q').
  Proof.
    intros H Hr. destruct (qreached vmax Hvmax m Hm sched es q H) as (Hi & _).
    apply (drain_cache (work_left (q_thr q)) q (le_n _) Hi Hr).
  Qed.

  (** Which steps do nothing. *)
  Lemma waits_for_holder sched es (q : qst X) t p es' q' :
    qrun vmax sched (qstart m) = ORet es q -> nth_error (q_thr q) t = Some p -> p <> QIdle ->
    qstep vmax (QGo t) q = ORet es' q' ->
    (exists p', nth_error (q_thr q') t = Some p' /\ (steps_left p' < steps_left p)%nat) \/
    (q' = q /\ exists t' p', t' <> t /\ nth_error (q_thr q) t' = Some p' /\ wants_lock p' = false /\ p' <> QIdle).
  Proof.
    intros H Hp N E. destruct (qreached vmax Hvmax m Hm sched es q H) as (Hi & _).
    unfold qstep, bind, get_q in E. rewrite Hp in E.
    destruct (go_moves t p q q' es' E N) as [(-> & Hwl & Hb)|(p' & Et & Hlt)].
    - right. split; [reflexivity|]. destruct (lock_holder q Hi Hb) as (t' & p' & Hp' & Hh).
      destruct (holder_acts p' Hh) as [A B]. exists t', p'. split; [|auto]. intros ->. congruence.
    - left. exists p'. split; [|exact Hlt]. rewrite Et. apply (nth_set_same _ _ _ _ Hp).
  Qed.
End Live.

(** ** Slots *)
Section Slots.
  Context {X : Type}.
  Variable vmax : Z.
  Hypothesis Hvmax : 0 <= vmax <= ISIZE_MAX.

  (** The slot of [pop_array] that the next step of a thread takes a value out of. *)
  Definition slot_of (q : qst X) (p : qpc X) : option Z :=
    match p with PopTake idx => if idx <? zlen (q_pop q) then Some idx else None | _ => None end.

  Definition own_slots (q : qst X) : Prop :=
    forall t p i, nth_error (q_thr q) t = Some p -> slot_of q p = Some i ->
      0 <= i < q_next_pop q /\ forall t' p', t' <> t -> nth_error (q_thr q) t' = Some p' -> slot_of q p' <> Some i.

  (** A step that leaves the array alone and keeps the counter from falling below a slot. *)
  Lemma own_move (q q' : qst X) t p p' : own_slots q -> nth_error (q_thr q) t = Some p ->
    q_pop q' = q_pop q -> q_thr q' = set_nth t p' (q_thr q) ->
    slot_of q p' = None -> (q_next_pop q <= q_next_pop q' \/ zlen (q_pop q) <= q_next_pop q') ->
    own_slots q'.
  Proof.
    intros Ho Hp Ea Et Hs Hn t1 p1 i H1 S1. rewrite Et in H1.
    assert (Hsl : forall p, slot_of q' p = slot_of q p) by (intros []; unfold slot_of; rewrite ?Ea; reflexivity).
    rewrite Hsl in S1.
    destruct (Nat.eq_dec t1 t) as [->|N]; [rewrite (nth_set_same _ _ _ _ Hp) in H1; inversion H1; subst; congruence|].
    rewrite nth_set_other in H1 by congruence. destruct (Ho t1 p1 i H1 S1) as [B D]. split.
    - assert (i < zlen (q_pop q)).
      { unfold slot_of in S1. destruct p1; try discriminate. destruct (Z.ltb_spec idx (zlen (q_pop q))); [|discriminate]. inversion S1; subst; auto. }
      lia.
    - intros t2 p2 N2 H2 S2. rewrite Hsl in S2. rewrite Et in H2.
      destruct (Nat.eq_dec t2 t) as [->|N3]; [rewrite (nth_set_same _ _ _ _ Hp) in H2; inversion H2; subst; congruence|].
      rewrite nth_set_other in H2 by congruence. exact (D t2 p2 N2 H2 S2).
  Qed.

  (** Taking the next index. *)
  Lemma own_fetch (q q' : qst X) t : own_slots q -> nth_error (q_thr q) t = Some PopFetch -> 0 <= q_next_pop q ->
    q_pop q' = q_pop q -> q_thr q' = set_nth t (PopTake (q_next_pop q)) (q_thr q) -> q_next_pop q' = q_next_pop q + 1 ->
    own_slots q'.
  Proof.
    intros Ho Hp H0 Ea Et En t1 p1 i H1 S1. rewrite Et in H1.
    assert (Hsl : forall p, slot_of q' p = slot_of q p) by (intros []; unfold slot_of; rewrite ?Ea; reflexivity).
    rewrite Hsl in S1. rewrite En.
    assert (Hnew : forall j, slot_of q (PopTake (q_next_pop q)) = Some j -> j = q_next_pop q).
    { intros j. cbn [slot_of]. destruct (_ <? _); congruence. }
    destruct (Nat.eq_dec t1 t) as [->|N].
    - rewrite (nth_set_same _ _ _ _ Hp) in H1. inversion H1; subst p1. apply Hnew in S1. subst i. split; [lia|].
      intros t2 p2 N2 H2 S2. rewrite Hsl in S2. rewrite Et, nth_set_other in H2 by congruence. destruct (Ho t2 p2 _ H2 S2) as [B _]. lia.
    - rewrite nth_set_other in H1 by congruence. destruct (Ho t1 p1 i H1 S1) as [B D]. split; [lia|].
      intros t2 p2 N2 H2 S2. rewrite Hsl in S2. rewrite Et in H2. destruct (Nat.eq_dec t2 t) as [->|N3].
      + rewrite (nth_set_same _ _ _ _ Hp) in H2. inversion H2; subst p2. apply Hnew in S2. lia.
      + rewrite nth_set_other in H2 by congruence. exact (D t2 p2 N2 H2 S2).
  Qed.

  (** Nobody is at a slot while a thread has the exclusive lock. *)
  Lemma exclusive (q : qst X) t p t' p' : qinv vmax q -> nth_error (q_thr q) t = Some p -> qwr p = true ->
    t' <> t -> nth_error (q_thr q) t' = Some p' -> qrd p' = false /\ qwr p' = false.
  Proof.
    intros (_ & _ & _ & _ & (K1 & K2 & K3) & _) Hp Hw N Hp'. assert (Ew : lk_writer (q_lock q) = Some t) by (apply K2; eauto).
    split.
    - destruct (qrd p') eqn:E; [|reflexivity]. assert (In t' (lk_readers (q_lock q))) by (apply K1; eauto).
      rewrite K3 in H by congruence. destruct H.
    - destruct (qwr p') eqn:E; [|reflexivity]. assert (lk_writer (q_lock q) = Some t') by (apply K2; eauto). congruence.
  Qed.

  Lemma own_go t p (q q' : qst X) es : qinv vmax q -> own_slots q -> nth_error (q_thr q) t = Some p ->
    qgo vmax t p q = ORet es q' -> own_slots q'.
  Proof.
    intros Hi Ho Hp H. pose proof Hi as (E1 & E2 & _ & Hnp & _ & Hpc & Hlen). specialize (Hpc t p Hp).
    destruct p; cbn [qpc_ok] in Hpc; try contradiction.
    3: { pose proof (cnt_less late _ _ _ Hp eq_refl) as C. unfold zlen in *. cbn in H. unfold ret in H. inversion H; subst.
         eapply own_fetch; [exact Ho|exact Hp|lia|reflexivity|reflexivity|]. cbn [q_next_pop]. unfold wrap.
         apply Z.mod_small. unfold ISIZE_MAX in *. lia. }
    4: { assert (En : exists v, prevent_overflow idx (zlen (q_pop q)) = Some v /\ v = zlen (q_pop q) \/ prevent_overflow idx (zlen (q_pop q)) = None)
           by (unfold prevent_overflow; destruct (_ <=? _); [exists (zlen (q_pop q)); auto|exists 0; auto]).
         destruct En as (v & [[En Ev]|En]); unfold qgo, bind, get_q in H; rewrite En in H; cbn in H; unfold ret in H; inversion H; subst;
         (eapply own_move; [exact Ho|exact Hp|reflexivity|reflexivity|reflexivity|cbn [q_next_pop]; lia]). }
    7: { unfold qgo, bind at 1, get_q in H. unfold bind at 1 in H. rewrite (flush_eq q E1 E2) in H.
         unfold bind, get_q, set_arrays, q_become, upd, ret in H. cbn [q_pop q_next_pop q_push q_next_push q_lock q_thr] in H.
         destruct (vmax <=? zlen (queue_of q)); [discriminate|]. inversion H; subst.
         intros t1 p1 i H1 S1. cbn [q_thr] in H1. exfalso.
         destruct (Nat.eq_dec t1 t) as [->|N]; [rewrite (nth_set_same _ _ _ _ Hp) in H1; inversion H1; subst; discriminate|].
         rewrite nth_set_other in H1 by congruence. destruct (exclusive q t _ t1 p1 Hi Hp eq_refl N H1) as [A _].
         destruct p1; cbn in A, S1; discriminate. }
    all: unfold qgo, bind, get_q, set_lock, set_next_pop, set_next_push, set_arrays, q_become, upd, ret, ub, prevent_overflow in H;
      cbn [q_pop q_next_pop q_push q_next_push q_lock q_thr] in H;
      repeat match type of H with
      | context [match ?b with _ => _ end] =>
          match type of b with
          | bool => destruct b eqn:?
          | option _ => destruct b eqn:?
          | list _ => destruct b eqn:?
          | cop _ => destruct b
          end
      end; try discriminate; inversion H; subst; try exact Ho;
      (eapply own_move; [exact Ho|exact Hp|cbn [q_pop]; congruence|reflexivity|reflexivity|cbn [q_next_pop]; lia]).
  Qed.

  Lemma own_run sched : forall (q q' : qst X) es, qinv vmax q -> own_slots q -> qrun vmax sched q = ORet es q' -> own_slots q'.
  Proof.
    induction sched as [|c sched IH]; intros q q' es Hi Ho H; cbn [qrun] in H; [inversion H; subst; exact Ho|].
    unfold bind in H. destruct (qstep vmax c q) as [es1 q1|q1| |] eqn:E1; try discriminate.
    destruct (qrun vmax sched q1) as [es2 q2|q2| |] eqn:E2; try discriminate. inversion H; subst. clear H.
    pose proof (qstep_ok vmax Hvmax q c Hi) as Hs. rewrite E1 in Hs. destruct Hs as (Hi1 & _).
    apply (IH q1 q' es2 Hi1); [|exact E2].
    unfold qstep, bind at 1, get_q in E1. destruct c as [t o|t]; destruct (nth_error (q_thr q) t) as [p|] eqn:Hp;
      try (inversion E1; subst; exact Ho).
    - destruct p; try (inversion E1; subst; exact Ho). cbn in E1. unfold ret in E1. inversion E1; subst.
      eapply own_move; [exact Ho|exact Hp|reflexivity|reflexivity|destruct o; reflexivity|cbn [q_next_pop]; lia].
    - exact (own_go t p q q1 es1 Hi Ho Hp E1).
  Qed.

  Variable m : nat.
  Hypothesis Hm : Z.of_nat m <= 2 ^ 63.

  Lemma no_conflict sched es (q : qst X) t t' p p' :
    qrun vmax sched (qstart m) = ORet es q -> t <> t' -> nth_error (q_thr q) t = Some p -> nth_error (q_thr q) t' = Some p' ->
    (qwr p = true -> qrd p' = false /\ qwr p' = false) /\ (forall i, slot_of q p = Some i -> slot_of q p' <> Some i).
  Proof.
    intros H N Hp Hp'. destruct (qreached vmax Hvmax m Hm sched es q H) as (Hi & _). split.
    - intros Hw. apply (exclusive q t p t' p' Hi Hp Hw); [congruence|exact Hp'].
    - intros i S1. assert (Ho : own_slots q).
      { apply (own_run sched (qstart m) q es); [apply (qstart_inv vmax Hvmax m Hm)| |exact H].
        intros t1 p1 j H1 S2. cbn [qstart q_thr] in H1. apply nth_error_In, repeat_spec in H1. subst. discriminate. }
      exact (proj2 (Ho t p i Hp S1) t' p' (not_eq_sym N) Hp').
  Qed.
End Slots.
