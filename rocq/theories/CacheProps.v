(** Consequences of the invariant of the cache. *)
From Verif Require Import Base BaseFacts History SetupOps Conc ConcFacts Cache CacheFacts.
Require Import Permutation.

(** ** What a record of events says *)
Section Events.
  Context {X : Type}.
  Definition qthread (e : qev X) : nat := match e with QCall t _ | QLin t _ _ | QRet t _ => t end.
  (** Values given to [push]. *)
  Definition push_calls (es : list (qev X)) : list X :=
    flat_map (fun e => match e with QCall _ (CPush x) => [x] | _ => [] end) es.
  (** Values whose [push] took effect, and values taken by a [pop]. *)
  Definition pushed (es : list (qev X)) : list X :=
    flat_map (fun e => match e with QLin _ (CPush x) _ => [x] | _ => [] end) es.
  Definition popped (es : list (qev X)) : list X :=
    flat_map (fun e => match e with QLin _ CPop (Some x) => [x] | _ => [] end) es.
  (** Values returned by [pop]; [push] returns nothing. *)
  Definition pop_returns (es : list (qev X)) : list X :=
    flat_map (fun e => match e with QRet _ (Some x) => [x] | _ => [] end) es.
  (** All results, in the order of the returns. *)
  Definition all_returns (es : list (qev X)) : list (option X) :=
    flat_map (fun e => match e with QRet _ r => [r] | _ => [] end) es.
  Definition of_thread (t : nat) (es : list (qev X)) : list (qev X) := filter (fun e => Nat.eqb (qthread e) t) es.
  (** The value travelling with a call that has not taken effect (a push) or
      has not returned (a pop). *)
  Definition carried (ph : qphase X) : list X :=
    match ph with XCalled (CPush x) => [x] | XDone (Some x) => [x] | _ => [] end.

  Lemma queue_run_fifo a es b : queue_run a es b -> a ++ pushed es = popped es ++ b.
  Proof.
    intros H. unfold pushed, popped in *. induction H; cbn [flat_map app] in *; auto.
    - rewrite app_nil_r. reflexivity.
    - rewrite <- IHqueue_run. rewrite <- app_assoc. reflexivity.
    - rewrite IHqueue_run. reflexivity.
  Qed.

  Lemma queue_run_split a es1 : forall es2 c, queue_run a (es1 ++ es2) c ->
    exists b, queue_run (X := X) a es1 b /\ queue_run b es2 c.
  Proof.
    revert a. induction es1 as [|e es1 IH]; intros a es2 c H; cbn in H.
    - exists a. split; [constructor|exact H].
    - inversion H; subst; match goal with K : queue_run _ (es1 ++ es2) _ |- _ => destruct (IH _ _ _ K) as (b & B1 & B2) end;
        exists b; (split; [constructor; exact B1|exact B2]).
  Qed.

  Lemma flat_map_of {T U} (f g : T -> list U) (l : list T) : (forall x, In x l -> f x = g x) -> flat_map f l = flat_map g l.
  Proof.
    induction l as [|x l IH]; intros H; cbn; [reflexivity|].
    rewrite (H x) by (left; reflexivity). rewrite IH; [reflexivity|]. intros y Hy. apply H. right. exact Hy.
  Qed.

  Lemma flat_map_insert {U} (g : nat -> list U) e k : forall l, NoDup l -> In k l ->
    Permutation (flat_map (fun t => if Nat.eqb k t then e :: g t else g t) l) (e :: flat_map g l).
  Proof.
    induction l as [|t l IH]; intros Hn Hi; cbn; [destruct Hi|]. inversion Hn as [|? ? Hnt Hn']; subst.
    destruct (Nat.eqb_spec k t) as [->|N].
    - cbn. apply perm_skip. apply Permutation_app_head.
      rewrite (flat_map_of _ g); [reflexivity|]. intros y Hy. destruct (Nat.eqb_spec t y); [subst; contradiction|reflexivity].
    - destruct Hi as [E|Hi]; [congruence|]. rewrite (IH Hn' Hi). rewrite <- Permutation_middle. reflexivity.
  Qed.

  Lemma by_thread n es : Forall (fun e => (qthread e < n)%nat) es ->
    Permutation es (flat_map (fun t => of_thread t es) (seq 0 n)).
  Proof.
    intros H. induction H as [|e es He H IH]; cbn.
    - induction (seq 0 n); cbn; auto.
    - etransitivity; [apply perm_skip; exact IH|].
      symmetry. apply flat_map_insert; [apply seq_NoDup|]. apply in_seq. lia.
  Qed.

  Lemma flat_map_perm {T U} (f : T -> list U) l1 l2 : Permutation l1 l2 -> Permutation (flat_map f l1) (flat_map f l2).
  Proof.
    intros H. induction H; cbn; auto.
    - apply Permutation_app_head. exact IHPermutation.
    - rewrite !app_assoc. apply Permutation_app_tail. apply Permutation_app_comm.
    - etransitivity; eauto.
  Qed.

  Lemma flat_map_flat {T U V} (f : U -> list V) (g : T -> list U) l :
    flat_map f (flat_map g l) = flat_map (fun t => flat_map f (g t)) l.
  Proof. induction l; cbn; [reflexivity|]. rewrite flat_map_app, IHl. reflexivity. Qed.

  Lemma flat_map_app_perm {T U} (f g : T -> list U) l :
    Permutation (flat_map (fun t => f t ++ g t) l) (flat_map f l ++ flat_map g l).
  Proof.
    induction l as [|t l IH]; cbn; [constructor|].
    rewrite IH. rewrite <- !app_assoc. apply Permutation_app_head.
    rewrite !app_assoc. apply Permutation_app_tail. apply Permutation_app_comm.
  Qed.

  Lemma perm_flat_map {T U} (f g : T -> list U) l : (forall x, In x l -> Permutation (f x) (g x)) ->
    Permutation (flat_map f l) (flat_map g l).
  Proof.
    induction l as [|x l IH]; intros H; cbn; [constructor|].
    apply Permutation_app; [apply H; left; reflexivity|]. apply IH. intros y Hy. apply H. right. exact Hy.
  Qed.

  (** In the life of one thread nothing is lost. *)
  Definition waiting (ph : qphase X) : list X := match ph with XCalled (CPush x) => [x] | _ => [] end.
  Definition returning (ph : qphase X) : list X := match ph with XDone (Some x) => [x] | _ => [] end.

  (** Results of pushes are [None]. *)
  Definition lin_shape (e : qev X) : Prop := match e with QLin _ (CPush _) r => r = None | _ => True end.

  Lemma qfollows_calls t a es b : qfollows t a es b ->
    Permutation (waiting a ++ push_calls (of_thread t es)) (pushed (of_thread t es) ++ waiting b).
  Proof.
    intros H. unfold push_calls, pushed, of_thread.
    induction H as [ph|o es ph H IH|o r es ph H IH|r es ph H IH|ph0 e es ph Hne H IH];
      cbn [filter qthread]; rewrite ?Nat.eqb_refl; cbn [flat_map].
    - rewrite app_nil_r. reflexivity.
    - destruct o; cbn [waiting app] in *; exact IH.
    - destruct o; cbn [waiting app] in *; [apply perm_skip; exact IH|exact IH].
    - exact IH.
    - destruct (Nat.eqb_spec (qthread e) t);
        [contradiction|exact IH].
  Qed.

  Lemma qfollows_returns t a es b : Forall lin_shape es -> qfollows t a es b ->
    Permutation (returning a ++ popped (of_thread t es)) (pop_returns (of_thread t es) ++ returning b).
  Proof.
    intros Hs H. unfold pop_returns, popped, of_thread.
    induction H as [ph|o es ph H IH|o r es ph H IH|r es ph H IH|ph0 e es ph Hne H IH];
      cbn [filter qthread]; rewrite ?Nat.eqb_refl; cbn [flat_map].
    - rewrite app_nil_r. reflexivity.
    - inversion Hs; subst. exact (IH H3).
    - inversion Hs as [|? ? Hs1 Hs2]; subst. destruct o as [x|]; cbn [lin_shape] in Hs1.
      + subst r. exact (IH Hs2).
      + destruct r as [y|]; exact (IH Hs2).
    - inversion Hs as [|? ? Hs1 Hs2]; subst. destruct r as [y|]; cbn [returning app] in *;
        [apply perm_skip; exact (IH Hs2)|exact (IH Hs2)].
    - inversion Hs as [|? ? Hs1 Hs2]; subst.
      destruct (Nat.eqb_spec (qthread e) t);
        [contradiction|exact (IH Hs2)].
  Qed.

  Lemma queue_run_shape a es b : queue_run a es b -> Forall lin_shape es.
  Proof. intros H. induction H; constructor; cbn; auto. Qed.

  Lemma flat_map_seq {T U} (f : T -> list U) (l : list T) : forall s,
    flat_map (fun t => match nth_error l (t - s) with Some p => f p | None => [] end) (seq s (length l)) = flat_map f l.
  Proof.
    induction l as [|p l IH]; intros s; cbn [length seq flat_map]; [reflexivity|].
    rewrite Nat.sub_diag. cbn [nth_error]. f_equal. rewrite <- (IH (S s)). apply flat_map_of.
    intros t Ht. apply in_seq in Ht. replace (t - s)%nat with (S (t - S s)) by lia. reflexivity.
  Qed.
End Events.

(** Between lines 95 and 103 of cache.rs (the exclusive part of [pop]) or between
    lines 111 and 121 (the shared part of [push]). *)
Definition in_dead_code {X} (p : qpc X) : bool :=
  match p with
  | QRelease CPop | PopWrite | PopFlush | PushFetch _ | PushPut _ _ | PushGuard _ _ => true
  | _ => false
  end.

Section Runs.
  Context {X : Type}.
  Variable vmax : Z.
  Hypothesis Hvmax : 0 <= vmax <= ISIZE_MAX.
  Variable n : nat.
  Hypothesis Hn : Z.of_nat n <= 2 ^ 63.

  Lemma qreached sched es (q : qst X) : qrun vmax sched (qstart n) = ORet es q ->
    qinv vmax q /\ queue_run [] es (queue_of q) /\ length (q_thr q) = n /\
    forall t p, nth_error (q_thr q) t = Some p -> qfollows t XIdle es (qphase_of (q_pop q) p).
  Proof.
    intros H. pose proof (qrun_ok vmax Hvmax sched _ (qstart_inv (X := X) vmax Hvmax n Hn)) as Hg.
    rewrite H in Hg. cbn [qgoal] in Hg. destruct Hg as (G1 & G2 & G3 & G4).
    cbn [qstart q_thr] in G3, G4. rewrite repeat_length in G3.
    split; [exact G1|]. split; [exact G2|]. split; [exact G3|].
    intros t p Hp. assert (Ht : (t < n)%nat).
    { rewrite <- G3. apply nth_error_Some. rewrite Hp. discriminate. }
    destruct (G4 t QIdle) as (p' & Hp' & F).
    { rewrite nth_error_repeat by exact Ht. reflexivity. }
    rewrite Hp in Hp'. inversion Hp'; subst. exact F.
  Qed.

  (** Under no schedule does the cache do anything undefined; it panics only
      when the vector cannot grow. *)
  Lemma qrun_returns sched :
    (exists es q, qrun vmax sched (qstart (X := X) n) = ORet es q) \/
    (exists q, qrun vmax sched (qstart (X := X) n) = OPanic q /\ zlen (q_pop q) = vmax).
  Proof.
    pose proof (qrun_ok vmax Hvmax sched _ (qstart_inv (X := X) vmax Hvmax n Hn)) as Hg.
    destruct (qrun vmax sched (qstart n)); cbn [qgoal] in Hg; try contradiction; eauto.
  Qed.

  Lemma go_threads t p (q q' : qst X) es : qgo vmax t p q = ORet es q' -> (t < length (q_thr q))%nat ->
    Forall (fun e => qthread e = t) es.
  Proof.
    unfold qgo, bind, get_q, set_lock, set_next_pop, set_next_push, set_arrays, q_become, upd, ret, flush.
    intros H Ht. destruct p; unfold bind, get_q, set_lock, set_next_pop, set_next_push, set_arrays, q_become, upd, ret, ub in H;
      cbn [q_pop q_next_pop q_push q_next_push q_lock q_thr] in H;
      repeat match type of H with
      | context [match ?b with _ => _ end] =>
          match type of b with
          | bool => destruct b
          | option _ => destruct b
          | list _ => destruct b
          | unit => destruct b
          end
      | ORet _ _ = ORet _ _ => inversion H; subst; clear H
      | _ = ORet _ _ => discriminate H
      end; repeat constructor.
  Qed.

  Lemma run_threads sched : forall (q q' : qst X) es, qrun vmax sched q = ORet es q' -> qinv vmax q ->
    Forall (fun e => (qthread e < length (q_thr q))%nat) es.
  Proof.
    induction sched as [|c sched IH]; intros q q' es H Hi; cbn [qrun] in H.
    - inversion H; subst. constructor.
    - unfold bind in H. destruct (qstep vmax c q) as [es1 q1|q1| |] eqn:E1; try discriminate.
      destruct (qrun vmax sched q1) as [es2 q2|q2| |] eqn:E2; try discriminate.
      cbn in H. inversion H; subst; clear H.
      pose proof (qstep_ok vmax Hvmax q c Hi) as Hs. rewrite E1 in Hs. destruct Hs as (Hi1 & _ & L1 & _).
      apply Forall_app. split.
      + unfold qstep, bind at 1, get_q in E1. destruct c as [t o|t]; destruct (nth_error (q_thr q) t) as [p|] eqn:Hp;
          try (inversion E1; subst; constructor; fail).
        * assert (Ht : (t < length (q_thr q))%nat) by (apply nth_error_Some; congruence).
          destruct p; try (inversion E1; subst; constructor; fail).
          cbn in E1. inversion E1; subst. repeat constructor. exact Ht.
        * assert (Ht : (t < length (q_thr q))%nat) by (apply nth_error_Some; congruence).
          pose proof (go_threads _ _ _ _ _ E1 Ht) as F. eapply Forall_impl; [|exact F]. cbn. intros e ->. exact Ht.
      + rewrite <- L1. eapply IH; eauto.
  Qed.

  (** The values given to [push] are: those returned by [pop], those in the
      hands of running calls, and those inside. *)
  Lemma conservation sched es (q : qst X) : qrun vmax sched (qstart n) = ORet es q ->
    Permutation (push_calls es)
      (pop_returns es ++ flat_map (fun p => carried (qphase_of (q_pop q) p)) (q_thr q) ++ queue_of q).
  Proof.
    intros H. destruct (qreached _ _ _ H) as (I & R & L & F).
    pose proof (run_threads _ _ _ _ H (qstart_inv vmax Hvmax n Hn)) as T.
    cbn [qstart q_thr] in T. rewrite repeat_length in T.
    pose proof (by_thread n es T) as P. pose proof (queue_run_shape _ _ _ R) as Sh.
    set (ph t := match nth_error (q_thr q) t with Some p => qphase_of (q_pop q) p | None => XIdle end).
    assert (Fph : forall t, In t (seq 0 n) -> qfollows t XIdle es (ph t)).
    { intros t Ht. apply in_seq in Ht. unfold ph. destruct (nth_error (q_thr q) t) as [p|] eqn:E.
      - apply F. exact E.
      - apply nth_error_None in E. lia. }
    assert (P1 : Permutation (push_calls es) (pushed es ++ flat_map (fun t => waiting (ph t)) (seq 0 n))).
    { unfold push_calls, pushed. rewrite (flat_map_perm _ _ _ P) at 1. rewrite flat_map_flat.
      rewrite (perm_flat_map _ (fun t => pushed (of_thread t es) ++ waiting (ph t))).
      - rewrite flat_map_app_perm. apply Permutation_app_tail. rewrite (flat_map_perm _ _ _ P) at 1.
        rewrite flat_map_flat. reflexivity.
      - intros t Ht. apply (qfollows_calls t XIdle es (ph t)). apply Fph. exact Ht. }
    assert (P2 : Permutation (popped es) (pop_returns es ++ flat_map (fun t => returning (ph t)) (seq 0 n))).
    { unfold popped, pop_returns. rewrite (flat_map_perm _ _ _ P) at 1. rewrite flat_map_flat.
      rewrite (perm_flat_map _ (fun t => pop_returns (of_thread t es) ++ returning (ph t))).
      - rewrite flat_map_app_perm. apply Permutation_app_tail. rewrite (flat_map_perm _ _ _ P) at 1.
        rewrite flat_map_flat. reflexivity.
      - intros t Ht. apply (qfollows_returns t XIdle es (ph t)); [exact Sh|]. apply Fph. exact Ht. }
    pose proof (queue_run_fifo _ _ _ R) as Q. cbn [app] in Q. rewrite Q in P1. rewrite P2 in P1.
    rewrite P1. rewrite <- !app_assoc. apply Permutation_app_head.
    assert (P3 : Permutation (flat_map (fun p => carried (qphase_of (q_pop q) p)) (q_thr q))
                   (flat_map (fun t => waiting (ph t)) (seq 0 n) ++ flat_map (fun t => returning (ph t)) (seq 0 n))).
    { rewrite <- flat_map_app_perm. rewrite <- (flat_map_seq _ (q_thr q) 0). rewrite L.
      rewrite (flat_map_of _ (fun t => waiting (ph t) ++ returning (ph t))); [reflexivity|].
      intros t Ht. rewrite Nat.sub_0_r. unfold ph. destruct (nth_error (q_thr q) t) as [p|]; [|reflexivity].
      destruct (qphase_of (q_pop q) p) as [|[x|]|[x|]]; reflexivity. }
    rewrite P3. rewrite !app_assoc.
    rewrite (Permutation_app_comm (flat_map (fun t => returning (ph t)) (seq 0 n) ++ queue_of q)).
    rewrite !app_assoc. reflexivity.
  Qed.

  Lemma conservation_idle sched es (q : qst X) : qrun vmax sched (qstart n) = ORet es q ->
    Forall (fun p => p = QIdle) (q_thr q) ->
    Permutation (push_calls es) (pop_returns es ++ queue_of q).
  Proof.
    intros H Hi. rewrite (conservation _ _ _ H).
    assert (E : flat_map (fun p => carried (qphase_of (q_pop q) p)) (q_thr q) = []).
    { clear H. set (pop := q_pop q). clearbody pop. induction Hi as [|p l E0 F IH]; cbn; [reflexivity|].
      subst p. cbn. exact IH. }
    rewrite E. reflexivity.
  Qed.

  Lemma never_twice sched es (q : qst X) : qrun vmax sched (qstart n) = ORet es q ->
    NoDup (push_calls es) -> NoDup (pop_returns es ++ queue_of q).
  Proof.
    intros H Hd. pose proof (Permutation_NoDup (conservation _ _ _ H) Hd) as D.
    assert (P : Permutation (pop_returns es ++ flat_map (fun p => carried (qphase_of (q_pop q) p)) (q_thr q) ++ queue_of q)
                            (flat_map (fun p => carried (qphase_of (q_pop q) p)) (q_thr q) ++ (pop_returns es ++ queue_of q))).
    { rewrite !app_assoc. apply Permutation_app_tail. apply Permutation_app_comm. }
    pose proof (Permutation_NoDup P D) as D2.
    clear - D2. induction (flat_map (fun p => carried (qphase_of (q_pop q) p)) (q_thr q)) as [|y l IH]; [exact D2|].
    apply IH. inversion D2; assumption.
  Qed.

  (** First in, first out. *)
  Lemma fifo sched es (q : qst X) : qrun vmax sched (qstart n) = ORet es q -> pushed es = popped es ++ queue_of q.
  Proof. intros H. destruct (qreached _ _ _ H) as (_ & R & _). apply (queue_run_fifo _ _ _ R). Qed.

  (** A pop comes back empty only if everything pushed before was popped before. *)
  Lemma none_empty sched es (q : qst X) es1 t es2 : qrun vmax sched (qstart n) = ORet es q ->
    es = es1 ++ QLin t CPop None :: es2 -> pushed es1 = popped es1.
  Proof.
    intros H E. destruct (qreached _ _ _ H) as (_ & R & _). rewrite E in R.
    destruct (queue_run_split _ _ _ _ R) as (b & R1 & R2). inversion R2; subst.
    pose proof (queue_run_fifo _ _ _ R1) as Q. rewrite app_nil_r in Q. exact Q.
  Qed.

  (** A call returns what it linearized with, between its start and its return. *)
  Lemma life sched es (q : qst X) t : qrun vmax sched (qstart n) = ORet es q -> exists ph, qfollows t XIdle es ph.
  Proof.
    intros H. destruct (qreached _ _ _ H) as (I & R & L & F).
    destruct (nth_error (q_thr q) t) as [p|] eqn:E; [eauto|].
    exists XIdle. pose proof (run_threads _ _ _ _ H (qstart_inv vmax Hvmax n Hn)) as T.
    cbn [qstart q_thr] in T. rewrite repeat_length in T. apply nth_error_None in E.
    assert (Hn' : (n <= t)%nat) by lia. clear - T Hn'. induction T as [|e es He T IH]; [constructor|].
    apply qf_other; [|exact IH]. unfold qthread in He. destruct e; lia.
  Qed.

  (** ** Counters *)
  Lemma counter_bound sched es (q : qst X) : qrun vmax sched (qstart n) = ORet es q ->
    0 <= q_next_pop q <= ISIZE_MAX + Z.of_nat n /\ q_next_push q = 0.
  Proof.
    intros H. destruct (qreached _ _ _ H) as ((I1 & I2 & I3 & I4 & I5 & I6 & I7) & R & L & F).
    pose proof (cnt_le late (q_thr q)) as C. unfold zlen in C. rewrite L in C. split; [lia|exact I2].
  Qed.

  Lemma dead_code sched es (q : qst X) : qrun vmax sched (qstart n) = ORet es q ->
    q_push q = [] /\ q_next_push q = 0 /\
    forall t p, nth_error (q_thr q) t = Some p -> in_dead_code p = false.
  Proof.
    intros H. destruct (qreached _ _ _ H) as ((I1 & I2 & I3 & I4 & I5 & I6 & I7) & R & L & F).
    split; [exact I1|]. split; [exact I2|]. intros t p Hp. specialize (I6 t p Hp).
    destruct p as [| | | | | | | | | | | | | | |o]; try reflexivity; try destruct o; try reflexivity; destruct I6.
  Qed.

  Lemma fetch_no_wrap sched es (q : qst X) t : qrun vmax sched (qstart n) = ORet es q ->
    nth_error (q_thr q) t = Some PopFetch -> q_next_pop q + 1 <= USIZE_MAX.
  Proof.
    intros H Hp. destruct (qreached _ _ _ H) as ((I1 & I2 & I3 & I4 & I5 & I6 & I7) & R & L & F).
    pose proof (cnt_less late _ _ _ Hp eq_refl) as C. unfold zlen in *.
    unfold USIZE_MAX, ISIZE_MAX in *. lia.
  Qed.

  Lemma exhausted_stays sched es (q : qst X) sched' es' q' : qrun vmax sched (qstart n) = ORet es q ->
    zlen (q_pop q) <= q_next_pop q -> qrun vmax sched' q = ORet es' q' -> pushed es' = [] ->
    zlen (q_pop q') <= q_next_pop q' /\ popped es' = [].
  Proof.
    intros H He H' Hno. destruct (qreached _ _ _ H) as (I & _).
    pose proof (qrun_ok vmax Hvmax sched' q I) as G. rewrite H' in G. destruct G as (I' & R & _ & _).
    pose proof (queue_run_fifo _ _ _ R) as Q. unfold queue_of in Q at 1. rewrite remaining_all in Q by exact He.
    rewrite Hno in Q. cbn in Q. destruct (popped es'); [|discriminate Q]. cbn in Q. split; [|reflexivity].
    destruct (Z_le_gt_dec (zlen (q_pop q')) (q_next_pop q')) as [Hle|Hgt]; [exact Hle|]. exfalso.
    destruct I' as (_ & _ & _ & I4 & _).
    destruct (remaining_next (q_pop q') (q_next_pop q') ltac:(lia)) as (x & _ & E).
    unfold queue_of in Q. rewrite E in Q. discriminate.
  Qed.
End Runs.

(** ** Sequential use *)
Section Solo.
  Context {X : Type}.
  Variable vmax : Z.
  Hypothesis Hvmax : 0 <= vmax <= ISIZE_MAX.

  (** One thread runs each call to its end. *)
  Definition solo_ops (ops : list (cop X)) : list (qchoice X) :=
    flat_map (fun o => QStart 0 o :: repeat (QGo 0) 6) ops.

  (** The results of a queue. *)
  Fixpoint queue_results (ops : list (cop X)) (inside : list X) : list (option X) :=
    match ops with
    | [] => []
    | CPush x :: ops' => None :: queue_results ops' (inside ++ [x])
    | CPop :: ops' =>
        match inside with
        | [] => None :: queue_results ops' []
        | x :: inside' => Some x :: queue_results ops' inside'
        end
    end.

  Definition pushes (ops : list (cop X)) : Z := zlen (filter (fun o => match o with CPush _ => true | CPop => false end) ops).

  Definition calm (q : qst X) : Prop :=
    q_push q = [] /\ q_next_push q = 0 /\ q_lock q = mkLock [] None /\ q_thr q = [QIdle] /\ 0 <= q_next_pop q <= ISIZE_MAX.

  Lemma queue_of_nil np (q : qst X) : q_pop q = [] -> remaining (q_pop q) np = [].
  Proof. intros ->. unfold remaining. apply skipn_nil. Qed.

  Lemma qrun_cons c cs (q q1 q2 : qst X) e es es0 : qstep vmax c q = ORet e q1 -> qrun vmax cs q1 = ORet es q2 ->
    e ++ es = es0 -> qrun vmax (c :: cs) q = ORet es0 q2.
  Proof. intros H1 H2 <-. cbn [qrun]. unfold bind. rewrite H1, H2. reflexivity. Qed.

  Ltac simp := unfold qstep, qgo, bind, get_q, q_become, set_lock, set_next_pop, upd, ret;
    cbn [nth_error q_pop q_next_pop q_push q_next_push q_lock q_thr set_nth lk_writer with_reader lk_readers without remove Z.eqb].
  Ltac go := eapply qrun_cons; [simp; reflexivity| |].
  Ltac go1 := eapply qrun_cons; [simp| |].
  Ltac done := eapply qrun_cons; [simp; destruct (Nat.eq_dec 0 0); [|congruence]; reflexivity| |].

  Lemma solo_pop (q : qst X) : calm q -> zlen (q_pop q) <= vmax -> exists q' es,
    qrun vmax (QStart 0 CPop :: repeat (QGo 0) 6) q = ORet es q' /\ calm q' /\ zlen (q_pop q') <= vmax /\
    all_returns es = [hd_error (queue_of q)] /\ queue_of q' = tl (queue_of q).
  Proof.
    intros (C1 & C2 & C3 & C4 & C5) Hlen. destruct q as [pop np push npush lk thr].
    cbn [q_pop q_next_pop q_push q_next_push q_lock q_thr] in *. subst push npush lk thr.
    destruct pop as [|y pop].
    - eexists (mkQ [] np [] 0 (mkLock [] None) [QIdle]), _. split; [cbn; reflexivity|].
      split; [unfold calm; cbn [q_pop q_next_pop q_push q_next_push q_lock q_thr]; auto|].
      split; [exact Hlen|]. unfold queue_of. rewrite !queue_of_nil by reflexivity. split; reflexivity.
    - remember (y :: pop) as a eqn:Ea.
      assert (Em : match a with [] => PopLoad | _ :: _ => PopFetch end = @PopFetch X) by (rewrite Ea; reflexivity).
      assert (Hw : wrap (np + 1) = np + 1).
      { unfold wrap. apply Z.mod_small. unfold ISIZE_MAX in *. lia. }
      destruct (Z_lt_le_dec np (zlen a)) as [Hlt|Hge].
      + destruct (remaining_next a np ltac:(lia)) as (x & Ex & Ei).
        exists (mkQ a (np + 1) [] 0 (mkLock [] None) [QIdle]), [QCall 0%nat CPop; QLin 0%nat CPop (Some x); QRet 0%nat (Some x)].
        split; [|split; [|split; [exact Hlen|split]]].
        * cbn [repeat]. go.
          { eapply qrun_cons; [simp; rewrite Em; reflexivity| |].
            { go1.
              { rewrite Hw, Ex. destruct (Z.ltb_spec np (zlen a)); [|lia]. reflexivity. }
              { go1.
                { destruct (Z.ltb_spec np (zlen a)); [|lia]. rewrite Ex. reflexivity. }
                { done.
                  { go. { go. { reflexivity. } { reflexivity. } } { reflexivity. } }
                  { reflexivity. } }
                { reflexivity. } }
              { reflexivity. } }
            { reflexivity. } }
          reflexivity.
        * unfold calm. cbn [q_pop q_next_pop q_push q_next_push q_lock q_thr]. split; [reflexivity|]. split; [reflexivity|].
          split; [reflexivity|]. split; [reflexivity|]. unfold ISIZE_MAX in *. lia.
        * cbn. unfold queue_of. cbn [q_pop q_next_pop]. rewrite Ei. reflexivity.
        * unfold queue_of. cbn [q_pop q_next_pop]. rewrite Ei. reflexivity.
      + exists (mkQ a (if ISIZE_MAX <=? np then zlen a else np + 1) [] 0 (mkLock [] None) [QIdle]),
               [QCall 0%nat CPop; QLin 0%nat CPop None; QRet 0%nat None].
        split; [|split; [|split; [exact Hlen|split]]].
        * cbn [repeat]. go.
          { eapply qrun_cons; [simp; rewrite Em; reflexivity| |].
            { go1.
              { rewrite Hw. destruct (Z.ltb_spec np (zlen a)); [lia|]. reflexivity. }
              { go1.
                { destruct (Z.ltb_spec np (zlen a)); [lia|]. reflexivity. }
                { apply (qrun_cons _ _ _ (mkQ a (if ISIZE_MAX <=? np then zlen a else np + 1) [] 0 (mkLock [0%nat] None) [PopLoad]) _ []
                           [QLin 0%nat CPop None; QRet 0%nat None]).
                  { simp. unfold prevent_overflow. destruct (ISIZE_MAX <=? np); reflexivity. }
                  { go.
                    { done. { reflexivity. } { reflexivity. } }
                    { reflexivity. } }
                  { reflexivity. } }
                { reflexivity. } }
              { reflexivity. } }
            { reflexivity. } }
          reflexivity.
        * unfold calm. cbn [q_pop q_next_pop q_push q_next_push q_lock q_thr]. split; [reflexivity|]. split; [reflexivity|].
          split; [reflexivity|]. split; [reflexivity|]. pose proof (zlen_nonneg a).
          destruct (Z.leb_spec ISIZE_MAX np); lia.
        * cbn. unfold queue_of. cbn [q_pop q_next_pop]. rewrite remaining_all by exact Hge. reflexivity.
        * unfold queue_of. cbn [q_pop q_next_pop]. rewrite !remaining_all; [reflexivity|exact Hge|].
          destruct (Z.leb_spec ISIZE_MAX np); lia.
  Qed.

  Lemma solo_push (q : qst X) x : calm q -> zlen (queue_of q) < vmax -> exists q' es,
    qrun vmax (QStart 0 (CPush x) :: repeat (QGo 0) 6) q = ORet es q' /\ calm q' /\ zlen (q_pop q') <= vmax /\
    all_returns es = [None] /\ queue_of q' = queue_of q ++ [x].
  Proof.
    intros (C1 & C2 & C3 & C4 & C5) Hlen.
    exists (mkQ (queue_of q ++ [x]) 0 [] 0 (mkLock [] None) [QIdle]),
           [QCall 0%nat (CPush x); QLin 0%nat (CPush x) None; QRet 0%nat None].
    split; [|split; [|split; [|split]]].
    - destruct q as [pop np push npush lk thr].
      cbn [q_pop q_next_pop q_push q_next_push q_lock q_thr] in *. subst push npush lk thr.
      cbn [repeat]. go.
      { go.
        { done.
          { go.
            { apply (qrun_cons _ _ _ (mkQ (remaining pop np ++ [x]) 0 [] 0 (mkLock [] (Some 0%nat)) [QUnlock true None]) _
                       [QLin 0%nat (CPush x) None] [QRet 0%nat None]).
              { unfold qstep, qgo, bind, get_q. cbn [nth_error q_thr].
                set (q1 := mkQ pop np [] 0 (mkLock [] (Some 0%nat)) [PushFlush x]).
                pose proof (flush_eq q1 eq_refl eq_refl) as Hf. rewrite Hf.
                unfold queue_of in *. cbn [q1 q_pop q_next_pop] in *.
                destruct (Z.leb_spec vmax (zlen (remaining pop np))); [lia|]. reflexivity. }
              { go. { go. { reflexivity. } { reflexivity. } } { reflexivity. } }
              { reflexivity. } }
            { reflexivity. } }
          { reflexivity. } }
        { reflexivity. } }
      reflexivity.
    - unfold calm. cbn [q_pop q_next_pop q_push q_next_push q_lock q_thr]. split; [reflexivity|]. split; [reflexivity|].
      split; [reflexivity|]. split; [reflexivity|]. unfold ISIZE_MAX. lia.
    - cbn [q_pop]. unfold zlen in *. rewrite app_length. cbn [length]. lia.
    - reflexivity.
    - unfold queue_of at 1, remaining. cbn [q_pop q_next_pop]. rewrite Z.min_l by apply zlen_nonneg. reflexivity.
  Qed.

  Lemma qrun_app cs1 : forall cs2 (q q1 q2 : qst X) es1 es2, qrun vmax cs1 q = ORet es1 q1 -> qrun vmax cs2 q1 = ORet es2 q2 ->
    qrun vmax (cs1 ++ cs2) q = ORet (es1 ++ es2) q2.
  Proof.
    induction cs1 as [|c cs1 IH]; intros cs2 q q1 q2 es1 es2 H1 H2; cbn [qrun app] in *.
    - inversion H1; subst. exact H2.
    - unfold bind in *. destruct (qstep vmax c q) as [e qa|qa| |]; try discriminate.
      destruct (qrun vmax cs1 qa) as [es qb|qb| |] eqn:E; try discriminate. cbn in H1. inversion H1; subst.
      rewrite (IH _ _ _ _ _ _ E H2). cbn. rewrite app_assoc. reflexivity.
  Qed.

  Lemma solo_run ops : forall q : qst X, calm q -> zlen (q_pop q) <= vmax -> zlen (queue_of q) + pushes ops <= vmax ->
    exists q' es, qrun vmax (solo_ops ops) q = ORet es q' /\ all_returns es = queue_results ops (queue_of q).
  Proof.
    induction ops as [|o ops IH]; intros q Hc Hl Hp.
    - exists q, []. split; reflexivity.
    - change (solo_ops (o :: ops)) with ((QStart 0 o :: repeat (QGo 0) 6) ++ solo_ops ops).
      destruct o as [x|].
      + unfold pushes in Hp. cbn [filter] in Hp.
        change (zlen (CPush x :: ?l)) with (Z.of_nat (S (length l))) in Hp.
        assert (Hp' : zlen (queue_of q) + 1 + pushes ops <= vmax) by (unfold pushes, zlen in *; cbn [length] in *; lia).
        assert (Hpos : 0 <= pushes ops) by apply zlen_nonneg.
        destruct (solo_push q x Hc ltac:(lia)) as (q1 & es1 & R1 & Hc1 & Hl1 & A1 & Q1).
        destruct (IH q1 Hc1 Hl1) as (q2 & es2 & R2 & A2).
        { rewrite Q1. unfold zlen in *. rewrite app_length. cbn [length]. lia. }
        exists q2, (es1 ++ es2). split; [apply (qrun_app _ _ _ _ _ _ _ R1 R2)|].
        unfold all_returns in *. rewrite flat_map_app, A1, A2, Q1. reflexivity.
      + destruct (solo_pop q Hc Hl) as (q1 & es1 & R1 & Hc1 & Hl1 & A1 & Q1).
        destruct (IH q1 Hc1 Hl1) as (q2 & es2 & R2 & A2).
        { rewrite Q1. unfold pushes in *. cbn [filter] in Hp. unfold zlen in *. destruct (queue_of q); cbn [tl length] in *; lia. }
        exists q2, (es1 ++ es2). split; [apply (qrun_app _ _ _ _ _ _ _ R1 R2)|].
        unfold all_returns in *. rewrite flat_map_app, A1, A2, Q1. cbn [queue_results].
        destruct (queue_of q); reflexivity.
  Qed.

  Lemma sequential ops : pushes ops <= vmax -> exists es q,
    qrun vmax (solo_ops ops) (qstart 1) = ORet es q /\ all_returns es = queue_results ops [].
  Proof.
    intros H. destruct (solo_run ops (qstart 1)) as (q & es & R & A).
    - unfold calm, qstart. cbn [q_pop q_next_pop q_push q_next_push q_lock q_thr repeat].
      split; [reflexivity|]. split; [reflexivity|]. split; [reflexivity|]. split; [reflexivity|]. unfold ISIZE_MAX. lia.
    - cbn. lia.
    - change (queue_of (qstart (X := X) 1)) with (@nil X). cbn. exact H.
    - exists es, q. split; [exact R|]. exact A.
  Qed.
End Solo.
