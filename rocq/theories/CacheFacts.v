(** The cache is a linearizable FIFO queue under every schedule. *)
From Verif Require Import Base BaseFacts History SetupOps Conc ConcFacts Cache.

Lemma zlen_nonneg {T} (l : list T) : 0 <= zlen l.
Proof. unfold zlen. lia. Qed.

(** ** Reader-writer locks, for any kind of thread state *)
Section Lock.
  Context {P : Type}.
  Variables rd wr : P -> bool.

  Definition lockg (k : lock) (thr : list P) : Prop :=
    (forall t, In t (lk_readers k) <-> exists p, nth_error thr t = Some p /\ rd p = true) /\
    (forall t, lk_writer k = Some t <-> exists p, nth_error thr t = Some p /\ wr p = true) /\
    (lk_writer k <> None -> lk_readers k = []).

  Lemma lockg_upd k k' thr t p p' : lockg k thr -> nth_error thr t = Some p ->
    (In t (lk_readers k') <-> rd p' = true) ->
    (forall t', t' <> t -> In t' (lk_readers k') <-> In t' (lk_readers k)) ->
    (lk_writer k' = Some t <-> wr p' = true) ->
    (forall t', t' <> t -> lk_writer k' = Some t' <-> lk_writer k = Some t') ->
    (lk_writer k' <> None -> lk_readers k' = []) ->
    lockg k' (set_nth t p' thr).
  Proof.
    intros (K1 & K2 & K3) Hp R1 R2 W1 W2 H3. split; [|split; [|exact H3]].
    - intros t'. destruct (Nat.eq_dec t' t) as [->|N].
      + rewrite (nth_set_same _ _ _ _ Hp). rewrite R1. split; [intros H; eauto|].
        intros (q & E & H). inversion E; subst; exact H.
      + rewrite nth_set_other by congruence. rewrite (R2 t' N). apply K1.
    - intros t'. destruct (Nat.eq_dec t' t) as [->|N].
      + rewrite (nth_set_same _ _ _ _ Hp). rewrite W1. split; [intros H; eauto|].
        intros (q & E & H). inversion E; subst; exact H.
      + rewrite nth_set_other by congruence. rewrite (W2 t' N). apply K2.
  Qed.

  Lemma lockg_at k thr t p : lockg k thr -> nth_error thr t = Some p ->
    (In t (lk_readers k) <-> rd p = true) /\ (lk_writer k = Some t <-> wr p = true).
  Proof.
    intros (K1 & K2 & K3) Hp. split; [rewrite K1|rewrite K2]; (split; [intros (q & E & H); congruence|eauto]).
  Qed.

  Lemma lockg_same k thr t p p' : lockg k thr -> nth_error thr t = Some p ->
    rd p' = rd p -> wr p' = wr p -> lockg k (set_nth t p' thr).
  Proof.
    intros K Hp Er Ew. destruct (lockg_at _ _ _ _ K Hp) as [A1 A2]. destruct K as (K1 & K2 & K3).
    apply (lockg_upd k k thr t p p'); auto; try tauto; [split; auto|rewrite Er; tauto|rewrite Ew; tauto].
  Qed.

  Lemma lockg_read k thr t p p' : lockg k thr -> nth_error thr t = Some p -> lk_writer k = None ->
    rd p' = true -> wr p' = false -> lockg (with_reader t k) (set_nth t p' thr).
  Proof.
    intros K Hp Hw Er Ew. apply (lockg_upd k _ thr t p p'); auto; cbn.
    - rewrite Er. tauto.
    - intros t' N. split; [intros [E|E]; [congruence|exact E]|auto].
    - rewrite Hw, Ew. split; discriminate.
    - tauto.
    - congruence.
  Qed.

  Lemma lockg_write k thr t p p' : lockg k thr -> nth_error thr t = Some p -> lk_writer k = None ->
    lk_readers k = [] -> rd p' = false -> wr p' = true -> lockg (mkLock [] (Some t)) (set_nth t p' thr).
  Proof.
    intros K Hp Hw Hr Er Ew. apply (lockg_upd k _ thr t p p'); auto; cbn.
    - rewrite Er. split; [tauto|discriminate].
    - intros t' N. rewrite Hr. cbn. tauto.
    - rewrite Ew. tauto.
    - intros t' N. rewrite Hw. split; congruence.
  Qed.

  Lemma lockg_release k thr t p p' w : lockg k thr -> nth_error thr t = Some p ->
    rd p = negb w -> wr p = w -> rd p' = false -> wr p' = false ->
    lockg (without t w k) (set_nth t p' thr).
  Proof.
    intros K Hp Er Ew Er' Ew'. destruct (lockg_at _ _ _ _ K Hp) as [A1 A2].
    pose proof K as (K1 & K2 & K3).
    apply (lockg_upd k _ thr t p p'); auto; destruct w; cbn [without lk_readers lk_writer negb] in *.
    - rewrite Er'. rewrite Er in A1. exact A1.
    - rewrite Er'. split; [intros H; exfalso; apply (remove_In _ _ _ H)|discriminate].
    - tauto.
    - intros t' N. split; intros H; [apply in_remove in H; tauto|apply in_in_remove; auto].
    - rewrite Ew'. split; discriminate.
    - rewrite Ew'. rewrite Ew in A2. exact A2.
    - intros t' N. split; [discriminate|]. rewrite (proj2 A2 Ew). congruence.
    - tauto.
    - congruence.
    - intros H. rewrite (K3 H). reflexivity.
  Qed.
End Lock.

(** ** Counting threads *)
Definition bump1 (b : bool) : Z := if b then 1 else 0.
Definition cnt {P} (f : P -> bool) (thr : list P) : Z := zlen (filter f thr).

Lemma cnt_set {P} (f : P -> bool) thr : forall t p p', nth_error thr t = Some p ->
  cnt f (set_nth t p' thr) = cnt f thr - bump1 (f p) + bump1 (f p').
Proof.
  unfold cnt, zlen, bump1. induction thr as [|q thr IH]; intros [|t] p p' H; cbn in H; try discriminate.
  - inversion H; subst. cbn. destruct (f p), (f p'); cbn [length]; lia.
  - specialize (IH t p p' H). cbn. destruct (f q); cbn [length]; lia.
Qed.

Lemma cnt_nonneg {P} (f : P -> bool) thr : 0 <= cnt f thr.
Proof. apply zlen_nonneg. Qed.

Lemma cnt_le {P} (f : P -> bool) thr : cnt f thr <= zlen thr.
Proof.
  unfold cnt, zlen. induction thr as [|q thr IH]; cbn; [lia|]. destruct (f q); cbn [length]; lia.
Qed.

Lemma cnt_less {P} (f : P -> bool) thr : forall t p, nth_error thr t = Some p -> f p = false ->
  cnt f thr + 1 <= zlen thr.
Proof.
  unfold cnt, zlen. induction thr as [|q thr IH]; intros [|t] p H F; cbn in H; try discriminate; cbn.
  - inversion H; subst. rewrite F. pose proof (cnt_le f thr) as X. unfold cnt, zlen in X. lia.
  - specialize (IH t p H F). destruct (f q); cbn [length]; lia.
Qed.

Section Facts.
  Context {X : Type}.
  Variable vmax : Z.
  Hypothesis Hvmax : 0 <= vmax <= ISIZE_MAX.

  Definition qrd (p : qpc X) : bool :=
    match p with
    | PopFetch | PopTake _ | PopGuard _ | PopLoad | PushFetch _ | PushPut _ _ | PushGuard _ _ | QRelease _ => true
    | QUnlock wr _ => negb wr
    | _ => false
    end.
  Definition qwr (p : qpc X) : bool :=
    match p with PopFlush | PushFlush _ => true | QUnlock wr _ => wr | _ => false end.

  (** A thread that saw a counter beyond [isize::MAX] and has not reset it yet. *)
  Definition late (p : qpc X) : bool :=
    match p with PopTake idx | PopGuard idx => ISIZE_MAX <=? idx | _ => false end.

  Definition qpc_ok (pop : list X) (np : Z) (p : qpc X) : Prop :=
    match p with
    | PopTake idx => 0 <= idx /\ (zlen pop <= idx -> zlen pop <= np)
    | PopGuard idx => zlen pop <= idx /\ zlen pop <= np
    | PopLoad => zlen pop <= np
    | QRelease CPop | PopWrite | PopFlush | PushFetch _ | PushPut _ _ | PushGuard _ _ => False
    | _ => True
    end.

  Definition remaining (pop : list X) (np : Z) : list X := skipn (Z.to_nat (Z.min np (zlen pop))) pop.

  Definition qinv (q : qst X) : Prop :=
    q_push q = [] /\ q_next_push q = 0 /\ zlen (q_pop q) <= vmax /\
    0 <= q_next_pop q <= ISIZE_MAX + cnt late (q_thr q) /\
    lockg qrd qwr (q_lock q) (q_thr q) /\
    (forall t p, nth_error (q_thr q) t = Some p -> qpc_ok (q_pop q) (q_next_pop q) p) /\
    zlen (q_thr q) <= 2 ^ 63.

  Definition queue_of (q : qst X) : list X := remaining (q_pop q) (q_next_pop q).

  (** How far the call of a thread has come. *)
  Definition qphase_of (pop : list X) (p : qpc X) : qphase X :=
    match p with
    | QIdle => XIdle
    | PopRead | PopFetch | PopGuard _ | PopLoad | PopWrite | PopFlush => XCalled CPop
    | PopTake idx => if idx <? zlen pop then XDone (nth_error pop (Z.to_nat idx)) else XCalled CPop
    | PushRead x | PushFetch x | PushPut x _ | PushGuard x _ | PushWrite x | PushFlush x => XCalled (CPush x)
    | QUnlock _ r => XDone r
    | QRelease o => XCalled o
    end.

  (** What a step has to do. *)
  Definition qpost (q : qst X) (es : list (qev X)) (q' : qst X) : Prop :=
    qinv q' /\ queue_run (queue_of q) es (queue_of q') /\
    length (q_thr q') = length (q_thr q) /\
    forall t p, nth_error (q_thr q) t = Some p ->
      exists p', nth_error (q_thr q') t = Some p' /\ qfollows t (qphase_of (q_pop q) p) es (qphase_of (q_pop q') p').

  Definition qevents_of (t : nat) (es : list (qev X)) : Prop :=
    Forall (fun e => match e with QCall t' _ | QLin t' _ _ | QRet t' _ => t' = t end) es.

  Lemma qfollows_others t t' es ph : t' <> t -> qevents_of t' es -> qfollows t ph es ph.
  Proof.
    intros N H. induction H as [|e es He H IH]; [constructor|].
    apply qf_other; [|exact IH]. destruct e; congruence.
  Qed.

  Lemma stay_ok q : qinv q -> qpost q [] q.
  Proof.
    intros H. split; [exact H|]. split; [constructor|]. split; [reflexivity|].
    intros t p Hp. exists p. split; [exact Hp|constructor].
  Qed.

  (** A step of thread [t] that leaves the arrays alone. *)
  Lemma qmove q t p p' np' k' es : qinv q -> nth_error (q_thr q) t = Some p ->
    0 <= np' <= ISIZE_MAX + cnt late (q_thr q) - bump1 (late p) + bump1 (late p') ->
    lockg qrd qwr k' (set_nth t p' (q_thr q)) ->
    qpc_ok (q_pop q) np' p' ->
    (zlen (q_pop q) <= q_next_pop q -> zlen (q_pop q) <= np') ->
    queue_run (queue_of q) es (remaining (q_pop q) np') ->
    qfollows t (qphase_of (q_pop q) p) es (qphase_of (q_pop q) p') ->
    qevents_of t es ->
    qpost q es (mkQ (q_pop q) np' (q_push q) (q_next_push q) k' (set_nth t p' (q_thr q))).
  Proof.
    intros (I1 & I2 & I3 & I4 & I5 & I6 & I7) Hp Hnp Hk Hpc Hmono Hq Hf He.
    split; [|split; [exact Hq|split; [apply set_nth_length|]]].
    - unfold qinv. cbn [q_pop q_next_pop q_push q_next_push q_lock q_thr].
      split; [exact I1|]. split; [exact I2|]. split; [exact I3|].
      split; [rewrite (cnt_set late _ _ _ p' Hp); lia|]. split; [exact Hk|]. split.
      + intros t1 p1 H1. destruct (Nat.eq_dec t t1) as [->|N].
        * rewrite (nth_set_same _ _ _ _ Hp) in H1. inversion H1; subst. exact Hpc.
        * rewrite nth_set_other in H1 by exact N. specialize (I6 t1 p1 H1).
          destruct p1; cbn [qpc_ok] in *; try (destruct o); auto; tauto.
      + unfold zlen in *. rewrite set_nth_length. exact I7.
    - intros t1 p1 H1. cbn [q_thr q_pop]. destruct (Nat.eq_dec t t1) as [->|N].
      + exists p'. rewrite (nth_set_same _ _ _ _ Hp). rewrite Hp in H1. inversion H1; subst. auto.
      + exists p1. rewrite nth_set_other by exact N. split; [exact H1|]. apply (qfollows_others t1 t); auto.
  Qed.

  (** The same without touching the counter or the queue. *)
  Lemma qmove0 q t p p' k' es : qinv q -> nth_error (q_thr q) t = Some p ->
    late p = late p' -> lockg qrd qwr k' (set_nth t p' (q_thr q)) ->
    qpc_ok (q_pop q) (q_next_pop q) p' ->
    queue_run (queue_of q) es (queue_of q) ->
    qfollows t (qphase_of (q_pop q) p) es (qphase_of (q_pop q) p') ->
    qevents_of t es ->
    qpost q es (mkQ (q_pop q) (q_next_pop q) (q_push q) (q_next_push q) k' (set_nth t p' (q_thr q))).
  Proof.
    intros Hi Hp El Hk Hpc Hq Hf He. pose proof Hi as (_ & _ & _ & I4 & _).
    apply (qmove q t p p'); auto. rewrite El. lia.
  Qed.

  Lemma remaining_all pop np : zlen pop <= np -> remaining pop np = [].
  Proof. intros H. unfold remaining. rewrite Z.min_r by exact H. unfold zlen. rewrite Nat2Z.id. apply skipn_all. Qed.

  Lemma skipn_nth (l : list X) : forall n x, nth_error l n = Some x -> skipn n l = x :: skipn (S n) l.
  Proof.
    induction l as [|y l IH]; intros [|n] x H; cbn in H; try discriminate.
    - inversion H; reflexivity.
    - cbn [skipn]. rewrite (IH _ _ H). reflexivity.
  Qed.

  Lemma remaining_next pop np : 0 <= np < zlen pop -> exists x, nth_error pop (Z.to_nat np) = Some x /\
    remaining pop np = x :: remaining pop (np + 1).
  Proof.
    intros H. unfold zlen in H. destruct (nth_error pop (Z.to_nat np)) as [x|] eqn:E.
    - exists x. split; [reflexivity|]. unfold remaining, zlen. rewrite !Z.min_l by lia.
      rewrite (skipn_nth _ _ _ E). f_equal. f_equal. lia.
    - apply nth_error_None in E. lia.
  Qed.

  Lemma flush_eq q : q_push q = [] -> q_next_push q = 0 ->
    flush q = ORet tt (mkQ (queue_of q) 0 [] 0 (q_lock q) (q_thr q)).
  Proof.
    intros E1 E2. unfold flush, bind, get_q, set_next_push, set_next_pop, set_arrays, upd, queue_of, remaining.
    cbn [q_pop q_next_pop q_push q_next_push q_lock q_thr].
    rewrite E1, E2. cbn [zlen length Z.of_nat Z.min Z.compare Z.to_nat firstn fold_right skipn app]. reflexivity.
  Qed.

  Definition qgoal (q : qst X) (r : outcome (qst X) (list (qev X))) : Prop :=
    match r with
    | ORet es q' => qpost q es q'
    | OPanic q' => zlen (q_pop q') = vmax
    | _ => False
    end.

  Lemma qgo_ok q t p : qinv q -> nth_error (q_thr q) t = Some p -> qgoal q (qgo vmax t p q).
  Proof.
    intros Hi Hp. pose proof Hi as (I1 & I2 & I3 & I4 & I5 & I6 & I7).
    pose proof (I6 t p Hp) as Hpc. pose proof (stay_ok q Hi) as Hstay.
    pose proof (zlen_nonneg (q_pop q)) as Zp.
    assert (Hus : USIZE_MAX = ISIZE_MAX + 2 ^ 63) by (unfold USIZE_MAX, ISIZE_MAX; lia).
    unfold qgo, bind, get_q. destruct p; cbn [qpc_ok] in Hpc.
    - exact Hstay.
    - destruct (lk_writer (q_lock q)) eqn:Ew; [exact Hstay|].
      cbn [set_lock q_become upd ret qgoal q_pop q_next_pop q_push q_next_push q_lock q_thr].
      apply (qmove0 q t PopRead); auto; try (destruct (q_pop q); reflexivity).
      + apply (lockg_read _ _ _ _ _ PopRead); auto; destruct (q_pop q); reflexivity.
      + destruct (q_pop q) eqn:Ep; cbn [qpc_ok]; [|exact I]. change (zlen (@nil X)) with 0. lia.
      + constructor.
      + destruct (q_pop q); constructor.
      + constructor.
    - cbn [set_next_pop q_become upd ret qgoal q_pop q_next_pop q_push q_next_push q_lock q_thr].
      pose proof (cnt_less late _ _ _ Hp eq_refl) as Hc. pose proof (cnt_nonneg late (q_thr q)) as Hc0.
      assert (Ewr : wrap (q_next_pop q + 1) = q_next_pop q + 1).
      { unfold wrap. apply Z.mod_small. unfold USIZE_MAX in *. lia. }
      rewrite Ewr. apply (qmove q t PopFetch (PopTake (q_next_pop q))); auto.
      + cbn [late bump1]. destruct (Z.leb_spec ISIZE_MAX (q_next_pop q)); cbn [bump1]; lia.
      + apply (lockg_same _ _ _ _ _ PopFetch); auto.
      + cbn. lia.
      + lia.
      + destruct (Z.ltb_spec (q_next_pop q) (zlen (q_pop q))) as [L|G].
        * destruct (remaining_next (q_pop q) (q_next_pop q) ltac:(lia)) as (x & Ex & Ei).
          rewrite Ex. unfold queue_of. rewrite Ei. constructor. constructor.
        * unfold queue_of. rewrite !remaining_all by lia. constructor.
      + cbn [qphase_of]. destruct (Z.ltb_spec (q_next_pop q) (zlen (q_pop q))) as [L|G].
        * apply qf_lin. constructor.
        * constructor.
      + destruct (q_next_pop q <? zlen (q_pop q)); repeat constructor.
    - destruct (Z.ltb_spec idx (zlen (q_pop q))) as [L|G].
      + destruct (nth_error (q_pop q) (Z.to_nat idx)) as [x|] eqn:Ex.
        2: { apply nth_error_None in Ex. unfold zlen in L. lia. }
        cbn [q_become upd ret qgoal]. apply (qmove0 q t (PopTake idx)); auto.
        * cbn [late]. destruct (Z.leb_spec ISIZE_MAX idx); [lia|reflexivity].
        * apply (lockg_same _ _ _ _ _ (PopTake idx)); auto.
        * exact I.
        * constructor.
        * cbn [qphase_of]. destruct (Z.ltb_spec idx (zlen (q_pop q))); [|lia]. rewrite Ex. constructor.
        * constructor.
      + cbn [q_become upd ret qgoal]. apply (qmove0 q t (PopTake idx)); auto.
        * apply (lockg_same _ _ _ _ _ (PopTake idx)); auto.
        * cbn. tauto.
        * constructor.
        * cbn [qphase_of]. destruct (Z.ltb_spec idx (zlen (q_pop q))); [lia|]. constructor.
        * constructor.
    - pose proof (cnt_nonneg late (set_nth t PopLoad (q_thr q))) as Hc0.
      rewrite (cnt_set late _ _ _ PopLoad Hp) in Hc0.
      unfold prevent_overflow. destruct (Z.leb_spec ISIZE_MAX idx) as [L|G];
        cbn [set_next_pop q_become upd ret qgoal q_pop q_next_pop q_push q_next_push q_lock q_thr].
      + apply (qmove q t (PopGuard idx)); auto.
        * cbn [bump1 late] in *. lia.
        * apply (lockg_same _ _ _ _ _ (PopGuard idx)); auto.
        * cbn. lia.
        * lia.
        * unfold queue_of. rewrite !remaining_all by lia. constructor.
        * constructor.
        * constructor.
      + apply (qmove0 q t (PopGuard idx)); auto.
        * cbn [late]. destruct (Z.leb_spec ISIZE_MAX idx); [lia|reflexivity].
        * apply (lockg_same _ _ _ _ _ (PopGuard idx)); auto.
        * cbn. tauto.
        * constructor.
        * constructor.
        * constructor.
    - rewrite I2. cbn [Z.eqb q_become upd ret qgoal].
      apply (qmove0 q t PopLoad); auto.
      + apply (lockg_same _ _ _ _ _ PopLoad); auto.
      + exact I.
      + unfold queue_of. rewrite remaining_all by lia. constructor. constructor.
      + apply qf_lin. constructor.
      + repeat constructor.
    - contradiction.
    - contradiction.
    - destruct (lk_writer (q_lock q)) eqn:Ew; [exact Hstay|].
      cbn [set_lock q_become upd ret qgoal q_pop q_next_pop q_push q_next_push q_lock q_thr].
      assert (Ep : match q_push q with [] => QRelease (CPush x) | _ => PushFetch x end = QRelease (CPush x)) by (rewrite I1; reflexivity).
      rewrite Ep. apply (qmove0 q t (PushRead x)); auto.
      + apply (lockg_read _ _ _ _ _ (PushRead x)); auto.
      + constructor.
      + constructor.
      + constructor.
    - contradiction.
    - contradiction.
    - contradiction.
    - destruct (lk_writer (q_lock q)) eqn:Ew; [exact Hstay|].
      destruct (lk_readers (q_lock q)) eqn:Er; [|exact Hstay].
      cbn [set_lock q_become upd ret qgoal q_pop q_next_pop q_push q_next_push q_lock q_thr].
      apply (qmove0 q t (PushWrite x)); auto.
      + apply (lockg_write _ _ (q_lock q) _ _ (PushWrite x)); auto.
      + constructor.
      + constructor.
      + constructor.
    - rewrite (flush_eq q I1 I2). cbn [q_pop].
      destruct (lockg_at _ _ _ _ _ _ I5 Hp) as [_ A2].
      pose proof I5 as (K1 & K2 & K3).
      assert (Hnr : forall t1 p1, nth_error (q_thr q) t1 = Some p1 -> qrd p1 = false).
      { intros t1 p1 H1. destruct (qrd p1) eqn:R1; [|reflexivity]. exfalso.
        assert (Hin : In t1 (lk_readers (q_lock q))) by (apply K1; eauto).
        rewrite K3 in Hin; [contradiction|]. rewrite (proj2 A2 eq_refl). discriminate. }
      assert (Hlate : cnt late (set_nth t (QUnlock true None) (q_thr q)) = 0).
      { rewrite (cnt_set late _ _ _ _ Hp). cbn [late bump1].
        assert (X0 : cnt late (q_thr q) = 0); [|lia]. unfold cnt, zlen.
        assert (E : filter late (q_thr q) = []); [|rewrite E; reflexivity].
        assert (Hall : forall p1, In p1 (q_thr q) -> late p1 = false).
        { intros p1 H1. apply In_nth_error in H1. destruct H1 as (t1 & H1).
          pose proof (Hnr t1 p1 H1) as R1. destruct p1; cbn [qrd late] in *; congruence. }
        clear - Hall. induction (q_thr q) as [|y l IH]; cbn; [reflexivity|].
        rewrite (Hall y) by (left; reflexivity). apply IH. intros p1 H1. apply Hall. right; exact H1. }
      assert (Hlen : zlen (queue_of q) <= vmax).
      { unfold queue_of, remaining, zlen in *. rewrite skipn_length. lia. }
      destruct (Z.leb_spec vmax (zlen (queue_of q))) as [L|G].
      { cbn [qgoal q_pop]. lia. }
      cbn [set_arrays q_become upd ret qgoal q_pop q_next_pop q_push q_next_push q_lock q_thr].
      split; [|split; [|split; [apply set_nth_length|]]].
      + unfold qinv. cbn [q_pop q_next_pop q_push q_next_push q_lock q_thr].
        split; [reflexivity|]. split; [reflexivity|].
        split; [unfold zlen in *; rewrite app_length; cbn [length]; lia|].
        split; [rewrite Hlate; unfold ISIZE_MAX; lia|].
        split; [apply (lockg_same _ _ _ _ _ (PushFlush x)); auto|]. split.
        * intros t1 p1 H1. destruct (Nat.eq_dec t t1) as [->|N].
          { rewrite (nth_set_same _ _ _ _ Hp) in H1. inversion H1; subst. exact I. }
          rewrite nth_set_other in H1 by exact N. pose proof (Hnr t1 p1 H1) as R1.
          pose proof (I6 t1 p1 H1) as P1. destruct p1; cbn [qrd qpc_ok] in *; try discriminate; auto.
        * unfold zlen in *. rewrite set_nth_length. exact I7.
      + unfold queue_of at 2. cbn [q_pop q_next_pop]. constructor.
        unfold remaining at 1. cbn [Z.to_nat]. rewrite Z.min_l by apply zlen_nonneg. constructor.
      + intros t1 p1 H1. cbn [q_thr q_pop]. destruct (Nat.eq_dec t t1) as [->|N].
        * rewrite Hp in H1. inversion H1; subst p1. exists (QUnlock true None).
          rewrite (nth_set_same _ _ _ _ Hp). split; [reflexivity|]. cbn. apply qf_lin. constructor.
        * exists p1. rewrite nth_set_other by exact N. split; [exact H1|].
          pose proof (Hnr t1 p1 H1) as R1.
          assert (Eph : qphase_of (queue_of q ++ [x]) p1 = qphase_of (q_pop q) p1) by (destruct p1; cbn [qrd qphase_of] in *; congruence).
          rewrite Eph. apply (qfollows_others t1 t); [congruence|repeat constructor].
    - cbn [set_lock q_become upd ret qgoal q_pop q_next_pop q_push q_next_push q_lock q_thr].
      apply (qmove0 q t (QUnlock wr r)); auto.
      + apply (lockg_release _ _ _ _ _ (QUnlock wr r)); auto.
      + constructor. constructor.
      + apply qf_ret. constructor.
      + repeat constructor.
    - destruct o as [x|]; [|contradiction].
      cbn [set_lock q_become upd ret qgoal q_pop q_next_pop q_push q_next_push q_lock q_thr].
      apply (qmove0 q t (QRelease (CPush x))); auto.
      + apply (lockg_release _ _ _ _ _ (QRelease (CPush x))); auto.
      + constructor.
      + constructor.
      + constructor.
  Qed.

  Lemma qstep_ok q c : qinv q -> qgoal q (qstep vmax c q).
  Proof.
    intros Hi. pose proof (stay_ok q Hi) as Hstay.
    unfold qstep, bind at 1, get_q. destruct c as [t o|t].
    - destruct (nth_error (q_thr q) t) as [p|] eqn:Hp; [|exact Hstay].
      destruct p; try exact Hstay. unfold bind. cbn [q_become upd ret qgoal].
      pose proof Hi as (I1 & I2 & I3 & I4 & I5 & I6 & I7).
      apply (qmove0 q t QIdle); auto; try (destruct o; reflexivity).
      + apply (lockg_same _ _ _ _ _ QIdle); auto; destruct o; reflexivity.

      + constructor. constructor.
      + cbn [qphase_of]. apply qf_call. destruct o; constructor.
      + repeat constructor.
    - destruct (nth_error (q_thr q) t) as [p|] eqn:Hp; [|exact Hstay]. apply qgo_ok; auto.
  Qed.

  Lemma queue_run_app a es1 : forall es2 b c, queue_run a es1 b -> queue_run b es2 c -> queue_run (X := X) a (es1 ++ es2) c.
  Proof. intros es2 b c H1 H2. induction H1; cbn; auto; constructor; auto. Qed.
  Lemma qfollows_app t a es1 es2 b c : qfollows t a es1 b -> qfollows t b es2 c -> qfollows (X := X) t a (es1 ++ es2) c.
  Proof. intros H1 H2. induction H1; cbn; auto; try (constructor; auto; fail). Qed.

  Lemma qrun_ok cs : forall q, qinv q -> qgoal q (qrun vmax cs q).
  Proof.
    induction cs as [|c cs IH]; intros q Hi; cbn [qrun].
    - pose proof (stay_ok q Hi) as Hstay. exact Hstay.
    - unfold bind. pose proof (qstep_ok q c Hi) as H1. destruct (qstep vmax c q) as [es1 q1|q1| |]; try exact H1.
      cbn [qgoal] in H1. destruct H1 as (Hi1 & Q1 & L1 & F1).
      pose proof (IH q1 Hi1) as H2. destruct (qrun vmax cs q1) as [es2 q2|q2| |]; try exact H2.
      cbn [qgoal ret] in *. destruct H2 as (Hi2 & Q2 & L2 & F2).
      split; [exact Hi2|]. split; [apply (queue_run_app _ _ _ _ _ Q1 Q2)|]. split; [congruence|].
      intros t p Hp. destruct (F1 t p Hp) as (p1 & Hp1 & G1). destruct (F2 t p1 Hp1) as (p2 & Hp2 & G2).
      exists p2. split; [exact Hp2|]. apply (qfollows_app _ _ _ _ _ _ G1 G2).
  Qed.

  Lemma qstart_inv n : Z.of_nat n <= 2 ^ 63 -> qinv (qstart n).
  Proof.
    intros Hn. unfold qinv, qstart. cbn [q_pop q_next_pop q_push q_next_push q_lock q_thr].
    assert (Hnth : forall t p, nth_error (repeat (@QIdle X) n) t = Some p -> p = QIdle).
    { intros t p H. apply nth_error_In in H. apply repeat_spec in H. exact H. }
    split; [reflexivity|]. split; [reflexivity|]. split; [unfold zlen; cbn; lia|].
    split; [pose proof (cnt_nonneg late (repeat (@QIdle X) n)); unfold ISIZE_MAX; lia|].
    split; [|split].
    - split; [|split]; cbn.
      + intros t. split; [tauto|]. intros (p & H1 & H2). rewrite (Hnth t p H1) in H2. discriminate.
      + intros t. split; [discriminate|]. intros (p & H1 & H2). rewrite (Hnth t p H1) in H2. discriminate.
      + congruence.
    - intros t p H. rewrite (Hnth t p H). exact I.
    - unfold zlen. rewrite repeat_length. exact Hn.
  Qed.
End Facts.
