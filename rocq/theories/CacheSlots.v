(** The cache with free slots in [push_array].

    [BlinkAllocCache::new] starts with an empty [push_array] and nothing ever
    enlarges it, so the wait-free part of [push] (cache.rs 109-122) and the
    exclusive part of [pop] (95-103) are never reached from there.  Here the same
    machine starts from a cache that was given free slots. *)
From Verif Require Import Base BaseFacts History SetupOps Conc ConcFacts Cache CacheFacts CacheProps.
Require Import Permutation.

(** A cache with [k] uninitialised slots in [push_array], otherwise as after
    [new] (lines 59-68), and [n] threads. *)
Definition qstart_slots {X} (k n : nat) : qst X := mkQ [] 0 (repeat None k) 0 (mkLock [] None) (repeat QIdle n).

(** What is in the initialised slots. *)
Definition stored {X} (l : list (option X)) : list X :=
  flat_map (fun s => match s with Some x => [x] | None => [] end) l.
Definition inside {X} (q : qst X) : list X := stored (q_push q) ++ queue_of q.

(** The slot of [push_array] that a thread stores into with its next step. *)
Definition push_slot {X} (q : qst X) (p : qpc X) : option Z :=
  match p with PushPut _ i => if i <? zlen (q_push q) then Some i else None | _ => None end.
(** The slot of [pop_array] that a thread takes from with its next step. *)
Definition pop_slot {X} (q : qst X) (p : qpc X) : option Z :=
  match p with PopTake i => if i <? zlen (q_pop q) then Some i else None | _ => None end.

(** ** The abstract bag *)
Inductive bag_run {X} : list X -> list (qev X) -> list X -> Prop :=
| br_nil a b : Permutation a b -> bag_run a [] b
| br_push a t x es b : bag_run (x :: a) es b -> bag_run a (QLin t (CPush x) None :: es) b
| br_pop a a' t x es b : Permutation a (x :: a') -> bag_run a' es b -> bag_run a (QLin t CPop (Some x) :: es) b
| br_none t es b : bag_run [] es b -> bag_run [] (QLin t CPop None :: es) b
| br_call a t o es b : bag_run a es b -> bag_run a (QCall t o :: es) b
| br_ret a t r es b : bag_run a es b -> bag_run a (QRet t r :: es) b.

Section Bag.
  Context {X : Type}.
  Lemma bag_perm (a : list X) es b : bag_run a es b -> forall a', Permutation a a' -> bag_run a' es b.
  Proof.
    intros H. induction H; intros a0 P.
    - constructor. rewrite <- P. assumption.
    - constructor. apply IHbag_run. apply perm_skip. exact P.
    - apply (br_pop a0 a'); [rewrite <- P; assumption|]. assumption.
    - apply Permutation_nil in P. subst. constructor. assumption.
    - constructor. auto.
    - constructor. auto.
  Qed.
  Lemma bag_app (a : list X) es1 b : bag_run a es1 b -> forall es2 c, bag_run b es2 c -> bag_run a (es1 ++ es2) c.
  Proof.
    intros H. induction H; intros es2 c H2; cbn [app].
    - apply (bag_perm _ _ _ H2). symmetry. assumption.
    - constructor. auto.
    - apply (br_pop a a'); auto.
    - constructor. auto.
    - constructor. auto.
    - constructor. auto.
  Qed.
  Lemma bag_split es1 : forall (a : list X) es2 c, bag_run a (es1 ++ es2) c -> exists b, bag_run a es1 b /\ bag_run b es2 c.
  Proof.
    induction es1 as [|e es1 IH]; intros a es2 c H; cbn [app] in H.
    - exists a. split; [constructor; reflexivity|exact H].
    - inversion H; subst; match goal with K : bag_run _ (es1 ++ es2) _ |- _ => destruct (IH _ _ _ K) as (d & B1 & B2) end;
        exists d; (split; [|exact B2]); try (constructor; exact B1). eapply br_pop; eauto.
  Qed.
  Lemma bag_balance (a : list X) es b : bag_run a es b -> Permutation (a ++ pushed es) (popped es ++ b).
  Proof.
    intros H. unfold pushed, popped. induction H; cbn [flat_map app] in *; auto.
    - rewrite app_nil_r. assumption.
    - rewrite <- IHbag_run. rewrite <- Permutation_middle. reflexivity.
    - rewrite H. cbn [app]. apply perm_skip. exact IHbag_run.
  Qed.
  Lemma bag_shape (a : list X) es b : bag_run a es b -> Forall lin_shape es.
  Proof. intros H. induction H; constructor; cbn; auto. Qed.

  Lemma stored_app (a b : list (option X)) : stored (a ++ b) = stored a ++ stored b.
  Proof. apply flat_map_app. Qed.
  Lemma stored_none l : (forall i, nth_error l i <> None -> nth_error l i = Some None) -> stored (X := X) l = [].
  Proof.
    induction l as [|s l IH]; intros H; [reflexivity|].
    pose proof (H 0%nat) as H0. cbn in H0. assert (E : Some s = Some None) by (apply H0; discriminate). inversion E; subst.
    cbn. apply IH. intros i. apply (H (S i)).
  Qed.
  Lemma stored_all l : (forall i, nth_error l i <> Some None) ->
    fold_right (fun s acc => match s, acc with Some x, Some l => Some (x :: l) | _, _ => None end) (Some []) l = Some (stored (X := X) l)
    /\ length (stored l) = length l.
  Proof.
    induction l as [|s l IH]; intros H; [split; reflexivity|].
    destruct IH as [E1 E2]; [intros i; apply (H (S i))|].
    destruct s as [x|]; [|destruct (H 0%nat); reflexivity].
    cbn. rewrite E1. split; [reflexivity|]. f_equal. exact E2.
  Qed.
  Lemma stored_set l : forall i x, nth_error l i = Some None -> Permutation (stored (set_nth i (Some x) l)) (x :: stored (X := X) l).
  Proof.
    induction l as [|s l IH]; intros [|i] x H; cbn in H; try discriminate.
    - inversion H; subst. reflexivity.
    - cbn [set_nth stored flat_map]. fold (stored (set_nth i (Some x) l)). fold (stored l). rewrite (IH _ _ H).
      destruct s; cbn [app]; [apply perm_swap|reflexivity].
  Qed.
End Bag.

Lemma nth_skipn {T} (l : list T) : forall m i, nth_error (skipn m l) i = nth_error l (m + i).
Proof.
  induction l as [|y l IH]; intros [|m] i; cbn [skipn Nat.add]; try reflexivity.
  - destruct i; reflexivity.
  - cbn [nth_error]. apply IH.
Qed.
Lemma nth_firstn {T} (l : list T) : forall m i, (i < m)%nat -> nth_error (firstn m l) i = nth_error l i.
Proof.
  induction l as [|y l IH]; intros [|m] i H; try lia; [destruct i; reflexivity|].
  destruct i as [|i]; [reflexivity|]. cbn [firstn nth_error]. apply IH. lia.
Qed.

Section Slots.
  Context {X : Type}.
  Variable vmax : Z.
  Variable k : nat.
  Hypothesis Hvmax : 0 <= vmax /\ vmax + Z.of_nat k <= ISIZE_MAX.

  Definition late2 (p : qpc X) : bool :=
    match p with PushPut _ idx | PushGuard _ idx => ISIZE_MAX <=? idx | _ => false end.

  Definition spc (q : qst X) (p : qpc X) : Prop :=
    match p with
    | PopTake idx => 0 <= idx /\ (zlen (q_pop q) <= idx -> zlen (q_pop q) <= q_next_pop q) /\
                     (idx < zlen (q_pop q) -> idx < q_next_pop q)
    | PopGuard idx => zlen (q_pop q) <= idx /\ zlen (q_pop q) <= q_next_pop q
    | PopLoad => zlen (q_pop q) <= q_next_pop q
    | PushPut x idx => 0 <= idx /\ (zlen (q_push q) <= idx -> zlen (q_push q) <= q_next_push q) /\
                       (idx < zlen (q_push q) -> idx < q_next_push q /\ nth_error (q_push q) (Z.to_nat idx) = Some None)
    | PushGuard x idx => zlen (q_push q) <= idx /\ zlen (q_push q) <= q_next_push q
    | _ => True
    end.

  Record sinv (q : qst X) : Prop := mkS {
    s_len : zlen (q_push q) <= Z.of_nat k /\ zlen (q_pop q) + zlen (q_push q) <= vmax + Z.of_nat k;
    s_np : 0 <= q_next_pop q <= ISIZE_MAX + cnt late (q_thr q);
    s_nu : 0 <= q_next_push q <= ISIZE_MAX + cnt late2 (q_thr q);
    s_lock : lockg qrd qwr (q_lock q) (q_thr q);
    s_pc : forall t p, nth_error (q_thr q) t = Some p -> spc q p;
    s_free : forall i, q_next_push q <= Z.of_nat i -> nth_error (q_push q) i <> None -> nth_error (q_push q) i = Some None;
    s_used : forall i, Z.of_nat i < q_next_push q -> nth_error (q_push q) i = Some None ->
      exists t x, nth_error (q_thr q) t = Some (PushPut x (Z.of_nat i));
    s_push1 : forall t t' p p' i, t <> t' -> nth_error (q_thr q) t = Some p -> nth_error (q_thr q) t' = Some p' ->
      push_slot q p = Some i -> push_slot q p' <> Some i;
    s_pop1 : forall t t' p p' i, t <> t' -> nth_error (q_thr q) t = Some p -> nth_error (q_thr q) t' = Some p' ->
      pop_slot q p = Some i -> pop_slot q p' <> Some i;
    s_thr : zlen (q_thr q) <= 2 ^ 63
  }.

  Definition spost (q : qst X) (es : list (qev X)) (q' : qst X) : Prop :=
    sinv q' /\ bag_run (inside q) es (inside q') /\
    length (q_thr q') = length (q_thr q) /\
    forall t p, nth_error (q_thr q) t = Some p ->
      exists p', nth_error (q_thr q') t = Some p' /\ qfollows t (qphase_of (q_pop q) p) es (qphase_of (q_pop q') p').

  Definition sgoal (q : qst X) (r : outcome (qst X) (list (qev X))) : Prop :=
    match r with
    | ORet es q' => spost q es q'
    | OPanic q' => vmax <= zlen (q_pop q')
    | _ => False
    end.

  Lemma sstay q : sinv q -> spost q [] q.
  Proof.
    intros H. split; [exact H|]. split; [constructor; reflexivity|]. split; [reflexivity|].
    intros t p Hp. exists p. split; [exact Hp|constructor].
  Qed.

  (** Threads after thread [t] moved to [p']. *)
  Lemma nth_moved (thr : list (qpc X)) t p p' t1 p1 : nth_error thr t = Some p -> nth_error (set_nth t p' thr) t1 = Some p1 ->
    (t1 = t /\ p1 = p') \/ (t1 <> t /\ nth_error thr t1 = Some p1).
  Proof.
    intros Hp H1. destruct (Nat.eq_dec t1 t) as [->|N].
    - rewrite (nth_set_same _ _ _ _ Hp) in H1. inversion H1; subst. auto.
    - rewrite nth_set_other in H1 by congruence. auto.
  Qed.

  Lemma follow_moved q t p p' es pop' : nth_error (q_thr q) t = Some p ->
    (forall t1 p1, t1 <> t -> nth_error (q_thr q) t1 = Some p1 -> qphase_of pop' p1 = qphase_of (q_pop q) p1) ->
    qfollows t (qphase_of (q_pop q) p) es (qphase_of pop' p') -> qevents_of t es ->
    forall t1 p1, nth_error (q_thr q) t1 = Some p1 ->
      exists p2, nth_error (set_nth t p' (q_thr q)) t1 = Some p2 /\ qfollows (X := X) t1 (qphase_of (q_pop q) p1) es (qphase_of pop' p2).
  Proof.
    intros Hp Hph Hf He t1 p1 H1. destruct (Nat.eq_dec t1 t) as [->|N].
    - exists p'. rewrite (nth_set_same _ _ _ _ Hp). rewrite Hp in H1. inversion H1; subst. auto.
    - exists p1. rewrite nth_set_other by congruence. split; [exact H1|]. rewrite (Hph _ _ N H1).
      apply (qfollows_others t1 t); auto.
  Qed.

  (** A step of thread [t] that leaves the arrays alone and acquires no slot of [push_array]. *)
  Lemma smove q t p p' np' nu' l' es : sinv q -> nth_error (q_thr q) t = Some p ->
    0 <= np' <= ISIZE_MAX + cnt late (q_thr q) - bump1 (late p) + bump1 (late p') ->
    0 <= nu' <= ISIZE_MAX + cnt late2 (q_thr q) - bump1 (late2 p) + bump1 (late2 p') ->
    (q_next_pop q <= np' \/ zlen (q_pop q) <= np') ->
    (nu' = q_next_push q \/ zlen (q_push q) <= q_next_push q /\ zlen (q_push q) <= nu') ->
    lockg qrd qwr l' (set_nth t p' (q_thr q)) ->
    spc (mkQ (q_pop q) np' (q_push q) nu' l' (set_nth t p' (q_thr q))) p' ->
    push_slot q p = None -> push_slot q p' = None ->
    (forall i, pop_slot q p' = Some i -> q_next_pop q <= i) ->
    bag_run (inside q) es (stored (q_push q) ++ remaining (q_pop q) np') ->
    qfollows t (qphase_of (q_pop q) p) es (qphase_of (q_pop q) p') ->
    qevents_of t es ->
    spost q es (mkQ (q_pop q) np' (q_push q) nu' l' (set_nth t p' (q_thr q))).
  Proof.
    intros Hi Hp Hnp Hnu Mp Mu Hk Hpc Hs Hs' Ht' Hq Hf He. destruct Hi as [I1 I2 I3 I4 I5 I6 I7 I8 I9 I10].
    split; [|split; [exact Hq|split; [apply set_nth_length|]]].
    2: { apply (follow_moved q t p p' es (q_pop q)); auto. }
    constructor; cbn [q_pop q_next_pop q_push q_next_push q_lock q_thr]; auto.
    - rewrite (cnt_set late _ _ _ p' Hp). lia.
    - rewrite (cnt_set late2 _ _ _ p' Hp). lia.
    - intros t1 p1 H1. destruct (nth_moved _ _ _ _ _ _ Hp H1) as [[-> ->]|[N H1']]; [exact Hpc|].
      specialize (I5 t1 p1 H1'). destruct p1; cbn [spc q_pop q_next_pop q_push q_next_push q_lock q_thr] in *; auto; try lia.
      destruct I5 as (A & B & C). split; [lia|]. split; [lia|]. intros L. destruct (C L). split; [lia|assumption].
    - intros i Hi Hn. destruct Mu as [->|[M1 M2]]; [auto|].
      exfalso. apply Hn. apply nth_error_None. unfold zlen in *. lia.
    - intros i Hi Hn. assert (Hlt : (i < length (q_push q))%nat) by (apply nth_error_Some; congruence).
      destruct (I7 i) as (t1 & x1 & H1); [unfold zlen in *; destruct Mu as [->|[M1 M2]]; lia|exact Hn|].
      exists t1, x1. rewrite nth_set_other; [exact H1|]. intros ->. rewrite Hp in H1. inversion H1; subst p.
      cbn [push_slot] in Hs. destruct (Z.ltb_spec (Z.of_nat i) (zlen (q_push q))); [discriminate|unfold zlen in *; lia].
    - intros t1 t2 p1 p2 i N H1 H2. change (push_slot _ ?x) with (push_slot q x).
      destruct (nth_moved _ _ _ _ _ _ Hp H1) as [[-> ->]|[N1 H1']]; [congruence|].
      destruct (nth_moved _ _ _ _ _ _ Hp H2) as [[-> ->]|[N2 H2']]; [congruence|]. eauto.
    - intros t1 t2 p1 p2 i N H1 H2. change (pop_slot _ ?x) with (pop_slot q x).
      assert (Hold : forall t0 p0, nth_error (q_thr q) t0 = Some p0 -> pop_slot q p0 = Some i -> i < q_next_pop q).
      { intros t0 p0 H0 S0. specialize (I5 t0 p0 H0). destruct p0; cbn [pop_slot spc] in *; try discriminate.
        destruct (Z.ltb_spec idx (zlen (q_pop q))); inversion S0; subst. tauto. }
      destruct (nth_moved _ _ _ _ _ _ Hp H1) as [[-> ->]|[N1 H1']];
        destruct (nth_moved _ _ _ _ _ _ Hp H2) as [[-> ->]|[N2 H2']]; try congruence.
      + intros S1 S2. specialize (Ht' _ S1). specialize (Hold _ _ H2' S2). lia.
      + intros S1 S2. specialize (Ht' _ S2). specialize (Hold _ _ H1' S1). lia.
      + eauto.
    - unfold zlen in *. rewrite set_nth_length. exact I10.
  Qed.

  (** The same without touching the counters or the contents. *)
  Lemma smove0 q t p p' l' es : sinv q -> nth_error (q_thr q) t = Some p ->
    late p = late p' -> late2 p = late2 p' ->
    lockg qrd qwr l' (set_nth t p' (q_thr q)) ->
    spc q p' -> push_slot q p = None -> push_slot q p' = None -> pop_slot q p' = None ->
    bag_run (inside q) es (inside q) ->
    qfollows t (qphase_of (q_pop q) p) es (qphase_of (q_pop q) p') ->
    qevents_of t es ->
    spost q es (mkQ (q_pop q) (q_next_pop q) (q_push q) (q_next_push q) l' (set_nth t p' (q_thr q))).
  Proof.
    intros Hi Hp E1 E2 Hk Hpc S1 S2 S3 Hq Hf He. pose proof Hi as [I1 I2 I3 I4 I5 I6 I7 I8 I9 I10].
    apply (smove q t p p'); try rewrite E1; try rewrite E2; auto; try lia.
    intros i. rewrite S3. discriminate.
  Qed.

  (** With the exclusive lock, nobody is in the middle of storing or taking. *)
  Lemma none_reading q t p : sinv q -> nth_error (q_thr q) t = Some p -> qwr p = true ->
    forall t1 p1, nth_error (q_thr q) t1 = Some p1 -> qrd p1 = false.
  Proof.
    intros Hi Hp Hw t1 p1 H1. pose proof (s_lock q Hi) as I4. destruct (lockg_at _ _ _ _ _ _ I4 Hp) as [_ A2].
    pose proof I4 as (K1 & K2 & K3). destruct (qrd p1) eqn:R1; [|reflexivity]. exfalso.
    assert (Hin : In t1 (lk_readers (q_lock q))) by (apply K1; eauto).
    rewrite K3 in Hin; [contradiction|]. rewrite (proj2 A2 Hw). discriminate.
  Qed.

  Lemma flush_slots q t p : sinv q -> nth_error (q_thr q) t = Some p -> qwr p = true -> exists push',
    flush q = ORet tt (mkQ (inside q) 0 push' 0 (q_lock q) (q_thr q)) /\
    (forall i, nth_error push' i <> None -> nth_error push' i = Some None) /\
    zlen push' <= zlen (q_push q) /\ zlen (inside q) + zlen push' <= zlen (q_pop q) + zlen (q_push q).
  Proof.
    intros Hi Hp Hw. pose proof (none_reading q t p Hi Hp Hw) as Hnr. destruct Hi as [I1 I2 I3 I4 I5 I6 I7 I8 I9 I10].
    set (m := Z.to_nat (Z.min (q_next_push q) (zlen (q_push q)))).
    assert (Hm : (m <= length (q_push q))%nat) by (unfold m, zlen; lia).
    destruct (stored_all (firstn m (q_push q))) as [E1 E2].
    { intros i Hn. assert (Hlt : (i < length (firstn m (q_push q)))%nat) by (apply nth_error_Some; congruence).
      rewrite firstn_length in Hlt. rewrite nth_firstn in Hn by lia.
      destruct (I7 i) as (t1 & x1 & H1); [unfold m, zlen in *; lia|exact Hn|].
      specialize (Hnr _ _ H1). discriminate Hnr. }
    assert (Hfree : forall i, nth_error (skipn m (q_push q)) i <> None -> nth_error (skipn m (q_push q)) i = Some None).
    { intros i. rewrite nth_skipn. intros Hn.
      assert (Hlt : (m + i < length (q_push q))%nat) by (apply nth_error_Some; exact Hn).
      apply I6; [|exact Hn]. unfold m, zlen in *. lia. }
    assert (Es : stored (q_push q) = stored (firstn m (q_push q))).
    { rewrite <- (firstn_skipn m (q_push q)) at 1. rewrite stored_app. rewrite (stored_none _ Hfree). apply app_nil_r. }
    exists (skipn m (q_push q)). split; [|split; [exact Hfree|split]].
    - unfold flush, bind, get_q, set_next_push, set_next_pop, set_arrays, upd.
      cbn [q_pop q_next_pop q_push q_next_push q_lock q_thr].
      fold m. rewrite E1. cbn [q_pop q_next_pop q_push q_next_push q_lock q_thr].
      unfold inside. rewrite Es. reflexivity.
    - unfold zlen. rewrite skipn_length. lia.
    - unfold inside, zlen, queue_of, remaining. rewrite app_length, Es, E2, firstn_length, !skipn_length. lia.
  Qed.

  (** The exclusive part of a call. *)
  Lemma sreset q t p p' pop' push' es : sinv q -> nth_error (q_thr q) t = Some p ->
    qwr p = true -> qwr p' = true -> qrd p' = false ->
    (forall i, nth_error push' i <> None -> nth_error push' i = Some None) ->
    zlen push' <= zlen (q_push q) -> zlen pop' + zlen push' <= vmax + Z.of_nat k ->
    bag_run (inside q) es pop' ->
    (forall pop, qfollows t (qphase_of (q_pop q) p) es (qphase_of pop p')) -> qevents_of t es ->
    spost q es (mkQ pop' 0 push' 0 (q_lock q) (set_nth t p' (q_thr q))).
  Proof.
    intros Hi Hp Hw Hw' Hr' Hfree Hl1 Hl2 Hq Hf He. pose proof (none_reading q t p Hi Hp Hw) as Hnr.
    destruct Hi as [I1 I2 I3 I4 I5 I6 I7 I8 I9 I10].
    assert (Hr : qrd p = false) by (apply (Hnr t); exact Hp).
    assert (Hnr' : forall t1 p1, nth_error (set_nth t p' (q_thr q)) t1 = Some p1 -> qrd p1 = false).
    { intros t1 p1 H1. destruct (nth_moved _ _ _ _ _ _ Hp H1) as [[-> ->]|[N H1']]; [exact Hr'|eauto]. }
    assert (Ein : inside (mkQ pop' 0 push' 0 (q_lock q) (set_nth t p' (q_thr q))) = pop').
    { unfold inside, queue_of, remaining. cbn [q_pop q_next_pop q_push]. rewrite (stored_none _ Hfree).
      rewrite Z.min_l by apply zlen_nonneg. reflexivity. }
    split; [|split; [rewrite Ein; exact Hq|split; [apply set_nth_length|]]].
    2: { cbn [q_thr q_pop]. apply (follow_moved q t p p' es pop'); auto.
         intros t1 p1 N H1. specialize (Hnr _ _ H1). destruct p1; cbn [qrd qphase_of] in *; congruence. }
    pose proof (cnt_nonneg late (set_nth t p' (q_thr q))). pose proof (cnt_nonneg late2 (set_nth t p' (q_thr q))).
    constructor; cbn [q_pop q_next_pop q_push q_next_push q_lock q_thr].
    - lia.
    - unfold ISIZE_MAX. lia.
    - unfold ISIZE_MAX. lia.
    - apply (lockg_same _ _ _ _ _ p); congruence.
    - intros t1 p1 H1. specialize (Hnr' _ _ H1). destruct p1; cbn [qrd spc] in *; try discriminate; exact Logic.I.
    - intros i _. apply Hfree.
    - intros i H1. lia.
    - intros t1 t2 p1 p2 i N H1 H2. specialize (Hnr' _ _ H1). destruct p1; cbn [qrd push_slot] in *; discriminate.
    - intros t1 t2 p1 p2 i N H1 H2. specialize (Hnr' _ _ H1). destruct p1; cbn [qrd pop_slot] in *; discriminate.
    - unfold zlen in *. rewrite set_nth_length. exact I10.
  Qed.

  (** Lines 111: a push acquires an index. *)
  Lemma spush_fetch q t x : sinv q -> nth_error (q_thr q) t = Some (PushFetch x) ->
    spost q [] (mkQ (q_pop q) (q_next_pop q) (q_push q) (q_next_push q + 1) (q_lock q)
                    (set_nth t (PushPut x (q_next_push q)) (q_thr q))).
  Proof.
    intros Hi Hp. destruct Hi as [I1 I2 I3 I4 I5 I6 I7 I8 I9 I10]. pose proof (cnt_nonneg late2 (q_thr q)) as Hc0.
    split; [|split; [constructor; reflexivity|split; [apply set_nth_length|]]].
    2: { apply (follow_moved q t _ _ _ (q_pop q) Hp); auto; constructor. }
    assert (Hold : forall t0 p0 i, nth_error (q_thr q) t0 = Some p0 -> push_slot q p0 = Some i -> i < q_next_push q).
    { intros t0 p0 i H0 S0. specialize (I5 t0 p0 H0). destruct p0; cbn [push_slot spc] in *; try discriminate.
      destruct (Z.ltb_spec idx (zlen (q_push q))); inversion S0; subst. tauto. }
    assert (Hnew : forall i, push_slot q (PushPut x (q_next_push q)) = Some i -> i = q_next_push q).
    { intros i. cbn [push_slot]. destruct (q_next_push q <? zlen (q_push q)); congruence. }
    constructor; cbn [q_pop q_next_pop q_push q_next_push q_lock q_thr]; auto.
    - rewrite (cnt_set late _ _ _ _ Hp). cbn [late bump1]. lia.
    - rewrite (cnt_set late2 _ _ _ _ Hp). cbn [late2 bump1]. destruct (Z.leb_spec ISIZE_MAX (q_next_push q)); cbn [bump1]; lia.
    - apply (lockg_same _ _ _ _ _ (PushFetch x)); auto.
    - intros t1 p1 H1. destruct (nth_moved _ _ _ _ _ _ Hp H1) as [[-> ->]|[N H1']].
      + cbn [spc q_push q_next_push]. split; [lia|]. split; [lia|]. intros L. split; [lia|].
        apply I6; [lia|]. apply nth_error_Some. unfold zlen in L. lia.
      + specialize (I5 t1 p1 H1'). destruct p1; cbn [spc q_pop q_next_pop q_push q_next_push q_lock q_thr] in *; auto; try lia.
        destruct I5 as (A & B & C). split; [lia|]. split; [lia|]. intros L. destruct (C L). split; [lia|assumption].
    - intros i Hi. apply I6. lia.
    - intros i Hi Hn. destruct (Z.eq_dec (Z.of_nat i) (q_next_push q)) as [E|E].
      + exists t, x. rewrite (nth_set_same _ _ _ _ Hp), E. reflexivity.
      + destruct (I7 i) as (t1 & x1 & H1); [lia|exact Hn|]. exists t1, x1. rewrite nth_set_other; [exact H1|]. congruence.
    - intros t1 t2 p1 p2 i N H1 H2. change (push_slot _ ?x) with (push_slot q x).
      destruct (nth_moved _ _ _ _ _ _ Hp H1) as [[-> ->]|[N1 H1']];
        destruct (nth_moved _ _ _ _ _ _ Hp H2) as [[-> ->]|[N2 H2']]; try congruence.
      + intros S1 S2. apply Hnew in S1. specialize (Hold _ _ _ H2' S2). lia.
      + intros S1 S2. apply Hnew in S2. specialize (Hold _ _ _ H1' S1). lia.
      + eauto.
    - intros t1 t2 p1 p2 i N H1 H2. change (pop_slot _ ?x) with (pop_slot q x).
      destruct (nth_moved _ _ _ _ _ _ Hp H1) as [[-> ->]|[N1 H1']]; [discriminate|].
      destruct (nth_moved _ _ _ _ _ _ Hp H2) as [[-> ->]|[N2 H2']]; [discriminate|]. eauto.
    - unfold zlen in *. rewrite set_nth_length. exact I10.
  Qed.

  (** Lines 113-118: a push stores into its slot. *)
  Lemma spush_put q t x idx : sinv q -> nth_error (q_thr q) t = Some (PushPut x idx) -> idx < zlen (q_push q) ->
    spost q [QLin t (CPush x) None]
      (mkQ (q_pop q) (q_next_pop q) (set_nth (Z.to_nat idx) (Some x) (q_push q)) (q_next_push q) (q_lock q)
           (set_nth t (QUnlock false None) (q_thr q))).
  Proof.
    intros Hi Hp Hlt. destruct Hi as [I1 I2 I3 I4 I5 I6 I7 I8 I9 I10].
    destruct (I5 _ _ Hp) as (P1 & _ & P2). destruct (P2 Hlt) as [P3 P4]. clear P2.
    assert (Els : zlen (set_nth (Z.to_nat idx) (Some x) (q_push q)) = zlen (q_push q)) by (unfold zlen; rewrite set_nth_length; reflexivity).
    assert (Hslot : push_slot q (PushPut x idx) = Some idx).
    { cbn [push_slot]. destruct (Z.ltb_spec idx (zlen (q_push q))); [reflexivity|lia]. }
    split; [|split; [|split; [apply set_nth_length|]]].
    3: { apply (follow_moved q t _ _ _ (q_pop q) Hp); auto; repeat constructor. }
    2: { unfold inside, queue_of. cbn [q_pop q_next_pop q_push]. constructor. constructor.
         rewrite (stored_set _ _ _ P4). reflexivity. }
    constructor; cbn [q_pop q_next_pop q_push q_next_push q_lock q_thr]; rewrite ?Els; auto.
    - rewrite (cnt_set late _ _ _ _ Hp). cbn [late bump1]. lia.
    - rewrite (cnt_set late2 _ _ _ _ Hp). cbn [late2 bump1]. destruct (Z.leb_spec ISIZE_MAX idx); cbn [bump1]; lia.
    - apply (lockg_same _ _ _ _ _ (PushPut x idx)); auto.
    - intros t1 p1 H1. destruct (nth_moved _ _ _ _ _ _ Hp H1) as [[-> ->]|[N H1']]; [exact Logic.I|].
      pose proof (I5 t1 p1 H1') as J. destruct p1; cbn [spc q_pop q_next_pop q_push q_next_push q_lock q_thr] in *; rewrite ?Els; auto.
      destruct J as (A & B & C). split; [lia|]. split; [lia|]. intros L. destruct (C L) as [C1 C2]. split; [lia|].
      rewrite nth_set_other; [exact C2|]. intros E. apply (I8 t t1 _ _ idx (not_eq_sym N) Hp H1' Hslot).
      cbn [push_slot]. replace idx0 with idx by lia. destruct (Z.ltb_spec idx (zlen (q_push q))); [reflexivity|lia].
    - intros i Hi. rewrite nth_set_other by lia. auto.
    - intros i Hi Hn. destruct (Nat.eq_dec (Z.to_nat idx) i) as [E|E].
      + subst i. rewrite (nth_set_same _ _ _ _ P4) in Hn. discriminate.
      + rewrite nth_set_other in Hn by exact E. destruct (I7 i Hi Hn) as (t1 & x1 & H1). exists t1, x1.
        rewrite nth_set_other; [exact H1|]. intros ->. rewrite Hp in H1. inversion H1; subst. lia.
    - intros t1 t2 p1 p2 i N H1 H2.
      assert (Esl : forall p, push_slot (mkQ (q_pop q) (q_next_pop q) (set_nth (Z.to_nat idx) (Some x) (q_push q)) (q_next_push q) (q_lock q)
           (set_nth t (QUnlock false None) (q_thr q))) p = push_slot q p).
      { intros p0. destruct p0; cbn [push_slot q_push]; try reflexivity. rewrite Els. reflexivity. }
      rewrite !Esl.
      destruct (nth_moved _ _ _ _ _ _ Hp H1) as [[-> ->]|[N1 H1']]; [discriminate|].
      destruct (nth_moved _ _ _ _ _ _ Hp H2) as [[-> ->]|[N2 H2']]; [discriminate|]. eauto.
    - intros t1 t2 p1 p2 i N H1 H2. change (pop_slot _ ?x) with (pop_slot q x).
      destruct (nth_moved _ _ _ _ _ _ Hp H1) as [[-> ->]|[N1 H1']]; [discriminate|].
      destruct (nth_moved _ _ _ _ _ _ Hp H2) as [[-> ->]|[N2 H2']]; [discriminate|]. eauto.
    - unfold zlen in *. rewrite set_nth_length. exact I10.
  Qed.

  Lemma bag_same (a : list X) : bag_run a [] a.
  Proof. constructor. reflexivity. Qed.

  Lemma sgo_ok q t p : sinv q -> nth_error (q_thr q) t = Some p -> sgoal q (qgo vmax t p q).
  Proof.
    intros Hi Hp. pose proof Hi as [I1 I2 I3 I4 I5 I6 I7 I8 I9 I10].
    pose proof (I5 t p Hp) as Hpc. pose proof (sstay q Hi) as Hstay.
    pose proof (zlen_nonneg (q_pop q)) as Zp. pose proof (zlen_nonneg (q_push q)) as Zu.
    assert (Hus : USIZE_MAX = ISIZE_MAX + 2 ^ 63) by (unfold USIZE_MAX, ISIZE_MAX; lia).
    unfold qgo, bind, get_q. destruct p; cbn [spc] in Hpc.
    - exact Hstay.
    - destruct (lk_writer (q_lock q)) eqn:Ew; [exact Hstay|].
      cbn [set_lock q_become upd ret sgoal q_pop q_next_pop q_push q_next_push q_lock q_thr].
      apply (smove0 q t PopRead); auto; try (destruct (q_pop q); reflexivity).
      + apply (lockg_read _ _ _ _ _ PopRead); auto; destruct (q_pop q); reflexivity.
      + destruct (q_pop q) eqn:Ep; cbn [spc]; [|exact Logic.I]. rewrite Ep. change (zlen (@nil X)) with 0. lia.
      + apply bag_same.
      + destruct (q_pop q); constructor.
      + constructor.
    - cbn [set_next_pop q_become upd ret sgoal q_pop q_next_pop q_push q_next_push q_lock q_thr].
      pose proof (cnt_less late _ _ _ Hp eq_refl) as Hc. pose proof (cnt_nonneg late (q_thr q)) as Hc0.
      assert (Ewr : wrap (q_next_pop q + 1) = q_next_pop q + 1).
      { unfold wrap. apply Z.mod_small. unfold USIZE_MAX in *. lia. }
      rewrite Ewr. apply (smove q t PopFetch (PopTake (q_next_pop q))); auto.
      + cbn [late bump1]. destruct (Z.leb_spec ISIZE_MAX (q_next_pop q)); cbn [bump1]; lia.
      + cbn [late2 bump1]. lia.
      + lia.
      + apply (lockg_same _ _ _ _ _ PopFetch); auto.
      + cbn [spc q_pop q_next_pop]. lia.
      + intros i. cbn [pop_slot]. destruct (q_next_pop q <? zlen (q_pop q)); intros E; inversion E; subst; lia.
      + unfold inside, queue_of. destruct (Z.ltb_spec (q_next_pop q) (zlen (q_pop q))) as [L|G].
        * destruct (remaining_next (q_pop q) (q_next_pop q) ltac:(lia)) as (x & Ex & Ei).
          rewrite Ex, Ei. eapply br_pop; [|apply bag_same]. symmetry. apply Permutation_middle.
        * rewrite !remaining_all by lia. apply bag_same.
      + cbn [qphase_of]. destruct (Z.ltb_spec (q_next_pop q) (zlen (q_pop q))) as [L|G].
        * apply qf_lin. constructor.
        * constructor.
      + destruct (q_next_pop q <? zlen (q_pop q)); repeat constructor.
    - destruct (Z.ltb_spec idx (zlen (q_pop q))) as [L|G].
      + destruct (nth_error (q_pop q) (Z.to_nat idx)) as [x|] eqn:Ex.
        2: { apply nth_error_None in Ex. unfold zlen in L. lia. }
        cbn [q_become upd ret sgoal]. apply (smove0 q t (PopTake idx)); auto.
        * cbn [late]. destruct (Z.leb_spec ISIZE_MAX idx); [lia|reflexivity].
        * apply (lockg_same _ _ _ _ _ (PopTake idx)); auto.
        * exact Logic.I.
        * apply bag_same.
        * cbn [qphase_of]. destruct (Z.ltb_spec idx (zlen (q_pop q))); [|lia]. rewrite Ex. constructor.
        * constructor.
      + cbn [q_become upd ret sgoal]. apply (smove0 q t (PopTake idx)); auto.
        * apply (lockg_same _ _ _ _ _ (PopTake idx)); auto.
        * cbn [spc]. lia.
        * apply bag_same.
        * cbn [qphase_of]. destruct (Z.ltb_spec idx (zlen (q_pop q))); [lia|]. constructor.
        * constructor.
    - pose proof (cnt_nonneg late (set_nth t PopLoad (q_thr q))) as Hc0.
      rewrite (cnt_set late _ _ _ PopLoad Hp) in Hc0.
      unfold prevent_overflow. destruct (Z.leb_spec ISIZE_MAX idx) as [L|G];
        cbn [set_next_pop q_become upd ret sgoal q_pop q_next_pop q_push q_next_push q_lock q_thr].
      + apply (smove q t (PopGuard idx)); auto.
        * cbn [bump1 late] in *. lia.
        * cbn [bump1 late2]. lia.
        * lia.
        * apply (lockg_same _ _ _ _ _ (PopGuard idx)); auto.
        * cbn [spc q_pop q_next_pop]. lia.
        * discriminate.
        * unfold inside, queue_of. rewrite !remaining_all by lia. apply bag_same.
        * constructor.
        * constructor.
      + apply (smove0 q t (PopGuard idx)); auto.
        * cbn [late]. destruct (Z.leb_spec ISIZE_MAX idx); [lia|reflexivity].
        * apply (lockg_same _ _ _ _ _ (PopGuard idx)); auto.
        * cbn [spc]. tauto.
        * apply bag_same.
        * constructor.
        * constructor.
    - destruct (Z.eqb_spec (q_next_push q) 0) as [E0|N0]; cbn [q_become upd ret sgoal].
      + apply (smove0 q t PopLoad); auto.
        * apply (lockg_same _ _ _ _ _ PopLoad); auto.
        * exact Logic.I.
        * assert (Ein : inside q = []).
          { unfold inside, queue_of. rewrite remaining_all by lia. rewrite app_nil_r. apply stored_none.
            intros i. apply I6. lia. }
          rewrite Ein. constructor. apply bag_same.
        * apply qf_lin. constructor.
        * repeat constructor.
      + apply (smove0 q t PopLoad); auto.
        * apply (lockg_same _ _ _ _ _ PopLoad); auto.
        * exact Logic.I.
        * apply bag_same.
        * constructor.
        * constructor.
    - destruct (lk_writer (q_lock q)) eqn:Ew; [exact Hstay|].
      destruct (lk_readers (q_lock q)) eqn:Er; [|exact Hstay].
      cbn [set_lock q_become upd ret sgoal q_pop q_next_pop q_push q_next_push q_lock q_thr].
      apply (smove0 q t PopWrite); auto.
      + apply (lockg_write _ _ (q_lock q) _ _ PopWrite); auto.
      + apply bag_same.
      + constructor.
      + constructor.
    - destruct (flush_slots q t PopFlush Hi Hp eq_refl) as (push' & Ef & Hfree & Hl1 & Hl2). rewrite Ef. cbn [q_pop].
      destruct (rev (inside q)) as [|x l] eqn:Er.
      + cbn [q_become upd ret sgoal q_pop q_next_pop q_push q_next_push q_lock q_thr].
        apply (sreset q t PopFlush); auto; try lia.
        * assert (Ein : inside q = []) by (rewrite <- (rev_involutive (inside q)), Er; reflexivity).
          rewrite Ein. constructor. apply bag_same.
        * intros pop. apply qf_lin. constructor.
        * repeat constructor.
      + assert (Ein : inside q = rev l ++ [x]) by (rewrite <- (rev_involutive (inside q)), Er; reflexivity).
        cbn [set_arrays q_become upd ret sgoal q_pop q_next_pop q_push q_next_push q_lock q_thr].
        rewrite Ein in *. rewrite removelast_last. rewrite <- Ein in *.
        apply (sreset q t PopFlush); auto.
        * rewrite Ein in Hl2. unfold zlen in *. rewrite app_length in Hl2. cbn [length] in Hl2. lia.
        * rewrite Ein. eapply br_pop; [|apply bag_same]. symmetry. apply Permutation_cons_append.
        * intros pop. apply qf_lin. constructor.
        * repeat constructor.
    - destruct (lk_writer (q_lock q)) eqn:Ew; [exact Hstay|].
      cbn [set_lock q_become upd ret sgoal q_pop q_next_pop q_push q_next_push q_lock q_thr].
      apply (smove0 q t (PushRead x)); auto; try (destruct (q_push q); reflexivity).
      + apply (lockg_read _ _ _ _ _ (PushRead x)); auto; destruct (q_push q); reflexivity.
      + apply bag_same.
      + destruct (q_push q); constructor.
      + constructor.
    - cbn [set_next_push q_become upd ret sgoal q_pop q_next_pop q_push q_next_push q_lock q_thr].
      pose proof (cnt_less late2 _ _ _ Hp eq_refl) as Hc. pose proof (cnt_nonneg late2 (q_thr q)) as Hc0.
      assert (Ewr : wrap (q_next_push q + 1) = q_next_push q + 1).
      { unfold wrap. apply Z.mod_small. unfold USIZE_MAX in *. lia. }
      rewrite Ewr. apply spush_fetch; auto.
    - destruct (Z.ltb_spec idx (zlen (q_push q))) as [L|G].
      + cbn [set_arrays q_become upd ret sgoal q_pop q_next_pop q_push q_next_push q_lock q_thr].
        apply spush_put; auto.
      + cbn [q_become upd ret sgoal]. apply (smove0 q t (PushPut x idx)); auto.
        * apply (lockg_same _ _ _ _ _ (PushPut x idx)); auto.
        * cbn [spc]. lia.
        * cbn [push_slot]. destruct (Z.ltb_spec idx (zlen (q_push q))); [lia|reflexivity].
        * apply bag_same.
        * constructor.
        * constructor.
    - pose proof (cnt_nonneg late2 (set_nth t (QRelease (CPush x)) (q_thr q))) as Hc0.
      rewrite (cnt_set late2 _ _ _ (QRelease (CPush x)) Hp) in Hc0.
      unfold prevent_overflow. destruct (Z.leb_spec ISIZE_MAX idx) as [L|G];
        cbn [set_next_push q_become upd ret sgoal q_pop q_next_pop q_push q_next_push q_lock q_thr].
      + apply (smove q t (PushGuard x idx)); auto.
        * cbn [bump1 late] in *. lia.
        * cbn [bump1 late2] in *. lia.
        * lia.
        * lia.
        * apply (lockg_same _ _ _ _ _ (PushGuard x idx)); auto.
        * exact Logic.I.
        * discriminate.
        * apply bag_same.
        * constructor.
        * constructor.
      + apply (smove0 q t (PushGuard x idx)); auto.
        * cbn [late2]. destruct (Z.leb_spec ISIZE_MAX idx); [lia|reflexivity].
        * apply (lockg_same _ _ _ _ _ (PushGuard x idx)); auto.
        * exact Logic.I.
        * apply bag_same.
        * constructor.
        * constructor.
    - destruct (lk_writer (q_lock q)) eqn:Ew; [exact Hstay|].
      destruct (lk_readers (q_lock q)) eqn:Er; [|exact Hstay].
      cbn [set_lock q_become upd ret sgoal q_pop q_next_pop q_push q_next_push q_lock q_thr].
      apply (smove0 q t (PushWrite x)); auto.
      + apply (lockg_write _ _ (q_lock q) _ _ (PushWrite x)); auto.
      + apply bag_same.
      + constructor.
      + constructor.
    - destruct (flush_slots q t (PushFlush x) Hi Hp eq_refl) as (push' & Ef & Hfree & Hl1 & Hl2). rewrite Ef. cbn [q_pop].
      destruct (Z.leb_spec vmax (zlen (inside q))) as [L|G].
      { cbn [sgoal q_pop]. lia. }
      cbn [set_arrays q_become upd ret sgoal q_pop q_next_pop q_push q_next_push q_lock q_thr].
      apply (sreset q t (PushFlush x)); auto.
      + unfold zlen in *. rewrite app_length. cbn [length]. lia.
      + constructor. constructor. apply Permutation_cons_append.
      + intros pop. apply qf_lin. constructor.
      + repeat constructor.
    - cbn [set_lock q_become upd ret sgoal q_pop q_next_pop q_push q_next_push q_lock q_thr].
      apply (smove0 q t (QUnlock wr r)); auto.
      + apply (lockg_release _ _ _ _ _ (QUnlock wr r)); auto.
      + constructor. apply bag_same.
      + apply qf_ret. constructor.
      + repeat constructor.
    - cbn [set_lock q_become upd ret sgoal q_pop q_next_pop q_push q_next_push q_lock q_thr].
      apply (smove0 q t (QRelease o)); auto; try (destruct o; reflexivity).
      + apply (lockg_release _ _ _ _ _ (QRelease o)); auto; destruct o; reflexivity.
      + apply bag_same.
      + destruct o; constructor.
      + constructor.
  Qed.

  Lemma sstep_ok q c : sinv q -> sgoal q (qstep vmax c q).
  Proof.
    intros Hi. pose proof (sstay q Hi) as Hstay.
    unfold qstep, bind at 1, get_q. destruct c as [t o|t].
    - destruct (nth_error (q_thr q) t) as [p|] eqn:Hp; [|exact Hstay].
      destruct p; try exact Hstay. unfold bind. cbn [q_become upd ret sgoal].
      apply (smove0 q t QIdle); auto; try (destruct o; reflexivity).
      + apply (lockg_same _ _ _ _ _ QIdle); auto; try (destruct o; reflexivity). apply (s_lock q Hi).
      + constructor. apply bag_same.
      + cbn [qphase_of]. apply qf_call. destruct o; constructor.
      + repeat constructor.
    - destruct (nth_error (q_thr q) t) as [p|] eqn:Hp; [|exact Hstay]. apply sgo_ok; auto.
  Qed.

  Lemma srun_ok cs : forall q, sinv q -> sgoal q (qrun vmax cs q).
  Proof.
    induction cs as [|c cs IH]; intros q Hi; cbn [qrun].
    - exact (sstay q Hi).
    - unfold bind. pose proof (sstep_ok q c Hi) as H1. destruct (qstep vmax c q) as [es1 q1|q1| |]; try exact H1.
      cbn [sgoal] in H1. destruct H1 as (Hi1 & Q1 & L1 & F1).
      pose proof (IH q1 Hi1) as H2. destruct (qrun vmax cs q1) as [es2 q2|q2| |]; try exact H2.
      cbn [sgoal ret] in *. destruct H2 as (Hi2 & Q2 & L2 & F2).
      split; [exact Hi2|]. split; [apply (bag_app _ _ _ Q1 _ _ Q2)|]. split; [congruence|].
      intros t p Hp. destruct (F1 t p Hp) as (p1 & Hp1 & G1). destruct (F2 t p1 Hp1) as (p2 & Hp2 & G2).
      exists p2. split; [exact Hp2|]. apply (qfollows_app _ _ _ _ _ _ G1 G2).
  Qed.

  Lemma slots_inv n : Z.of_nat n <= 2 ^ 63 -> sinv (qstart_slots k n).
  Proof.
    intros Hn.
    assert (Hnth : forall t p, nth_error (repeat (@QIdle X) n) t = Some p -> p = QIdle).
    { intros t p H. apply nth_error_In in H. apply repeat_spec in H. exact H. }
    assert (Hnone : forall i, nth_error (repeat (@None X) k) i <> None -> nth_error (repeat (@None X) k) i = Some None).
    { intros i H. destruct (nth_error (repeat None k) i) as [s|] eqn:E; [|congruence].
      apply nth_error_In in E. apply repeat_spec in E. subst. reflexivity. }
    pose proof (cnt_nonneg late (repeat (@QIdle X) n)). pose proof (cnt_nonneg late2 (repeat (@QIdle X) n)).
    constructor; unfold qstart_slots; cbn [q_pop q_next_pop q_push q_next_push q_lock q_thr].
    - unfold zlen. rewrite repeat_length. cbn [length]. lia.
    - unfold ISIZE_MAX. lia.
    - unfold ISIZE_MAX. lia.
    - split; [|split]; cbn.
      + intros t. split; [tauto|]. intros (p & H1 & H2). rewrite (Hnth t p H1) in H2. discriminate.
      + intros t. split; [discriminate|]. intros (p & H1 & H2). rewrite (Hnth t p H1) in H2. discriminate.
      + congruence.
    - intros t p H1. rewrite (Hnth t p H1). exact Logic.I.
    - intros i _. apply Hnone.
    - intros i H1. lia.
    - intros t t' p p' i N H1 H2 H3. rewrite (Hnth t p H1) in H3. discriminate.
    - intros t t' p p' i N H1 H2 H3. rewrite (Hnth t p H1) in H3. discriminate.
    - unfold zlen. rewrite repeat_length. exact Hn.
  Qed.

  (** ** Consequences *)
  Variable n : nat.
  Hypothesis Hn : Z.of_nat n <= 2 ^ 63.

  Lemma slots_reached sched es (q : qst X) : qrun vmax sched (qstart_slots k n) = ORet es q ->
    sinv q /\ bag_run [] es (inside q) /\ length (q_thr q) = n /\
    forall t p, nth_error (q_thr q) t = Some p -> qfollows t XIdle es (qphase_of (q_pop q) p).
  Proof.
    intros H. pose proof (srun_ok sched _ (slots_inv n Hn)) as Hg.
    rewrite H in Hg. cbn [sgoal] in Hg. destruct Hg as (G1 & G2 & G3 & G4).
    assert (E : inside (X := X) (qstart_slots k n) = []).
    { unfold inside, queue_of, remaining, qstart_slots. cbn [q_push q_pop q_next_pop]. rewrite app_nil_r.
      clear. induction k as [|m IH]; [reflexivity|exact IH]. }
    rewrite E in G2. cbn [qstart_slots q_thr q_pop] in G3, G4. rewrite repeat_length in G3.
    split; [exact G1|]. split; [exact G2|]. split; [exact G3|].
    intros t p Hp. assert (Ht : (t < n)%nat).
    { rewrite <- G3. apply nth_error_Some. rewrite Hp. discriminate. }
    destruct (G4 t QIdle) as (p' & Hp' & F).
    { rewrite nth_error_repeat by exact Ht. reflexivity. }
    rewrite Hp in Hp'. inversion Hp'; subst. exact F.
  Qed.

  Lemma slots_returns sched :
    (exists es q, qrun vmax sched (qstart_slots (X := X) k n) = ORet es q) \/
    (exists q, qrun vmax sched (qstart_slots (X := X) k n) = OPanic q /\ vmax <= zlen (q_pop q)).
  Proof.
    pose proof (srun_ok sched _ (slots_inv n Hn)) as Hg.
    destruct (qrun vmax sched (qstart_slots k n)); cbn [sgoal] in Hg; try contradiction; eauto.
  Qed.

  Lemma slots_threads sched : forall (q q' : qst X) es, qrun vmax sched q = ORet es q' -> sinv q ->
    Forall (fun e => (qthread e < length (q_thr q))%nat) es.
  Proof.
    induction sched as [|c sched IH]; intros q q' es H Hi; cbn [qrun] in H.
    - inversion H; subst. constructor.
    - unfold bind in H. destruct (qstep vmax c q) as [es1 q1|q1| |] eqn:E1; try discriminate H.
      destruct (qrun vmax sched q1) as [es2 q2|q2| |] eqn:E2; try discriminate H.
      cbn in H. inversion H; subst; clear H.
      pose proof (sstep_ok q c Hi) as Hs. rewrite E1 in Hs. destruct Hs as (Hi1 & _ & L1 & _).
      apply Forall_app. split.
      + unfold qstep, bind at 1, get_q in E1. destruct c as [t o|t]; destruct (nth_error (q_thr q) t) as [p|] eqn:Hp;
          try (inversion E1; subst; constructor; fail).
        * assert (Ht : (t < length (q_thr q))%nat) by (apply nth_error_Some; congruence).
          destruct p; try (inversion E1; subst; constructor; fail).
          cbn in E1. inversion E1; subst. repeat constructor. exact Ht.
        * assert (Ht : (t < length (q_thr q))%nat) by (apply nth_error_Some; congruence).
          pose proof (go_threads vmax _ _ _ _ _ E1 Ht) as F. eapply Forall_impl; [|exact F]. cbn. intros e ->. exact Ht.
      + rewrite <- L1. eapply IH; eauto.
  Qed.

  Lemma slots_conservation sched es (q : qst X) : qrun vmax sched (qstart_slots k n) = ORet es q ->
    Permutation (push_calls es)
      (pop_returns es ++ flat_map (fun p => carried (qphase_of (q_pop q) p)) (q_thr q) ++ inside q).
  Proof.
    intros H. destruct (slots_reached _ _ _ H) as (I & R & L & F).
    pose proof (slots_threads _ _ _ _ H (slots_inv n Hn)) as T.
    cbn [qstart_slots q_thr] in T. rewrite repeat_length in T.
    pose proof (by_thread n es T) as P. pose proof (bag_shape _ _ _ R) as Sh.
    set (ph t := match nth_error (q_thr q) t with Some p => qphase_of (q_pop q) p | None => XIdle end).
    assert (Fph : forall t, In t (seq 0 n) -> qfollows t XIdle es (ph t)).
    { intros t Ht. apply in_seq in Ht. unfold ph. destruct (nth_error (q_thr q) t) as [p|] eqn:E.
      - apply F. exact E.
      - apply nth_error_None in E. lia. }
    assert (P1 : Permutation (push_calls es) (pushed es ++ flat_map (fun t => waiting (ph t)) (seq 0 n))).
    { unfold push_calls, pushed. rewrite (flat_map_perm _ _ _ P) at 1. rewrite flat_map_flat.
      rewrite (perm_flat_map _ (fun t => pushed (of_thread t es) ++ waiting (ph t))).
      - rewrite flat_map_app_perm. apply Permutation_app_tail. rewrite (flat_map_perm _ _ _ P) at 1.
        rewrite flat_map_flat. reflexivity.
      - intros t Ht. apply (qfollows_calls t XIdle es (ph t)). apply Fph. exact Ht. }
    assert (P2 : Permutation (popped es) (pop_returns es ++ flat_map (fun t => returning (ph t)) (seq 0 n))).
    { unfold popped, pop_returns. rewrite (flat_map_perm _ _ _ P) at 1. rewrite flat_map_flat.
      rewrite (perm_flat_map _ (fun t => pop_returns (of_thread t es) ++ returning (ph t))).
      - rewrite flat_map_app_perm. apply Permutation_app_tail. rewrite (flat_map_perm _ _ _ P) at 1.
        rewrite flat_map_flat. reflexivity.
      - intros t Ht. apply (qfollows_returns t XIdle es (ph t)); [exact Sh|]. apply Fph. exact Ht. }
    pose proof (bag_balance _ _ _ R) as Q. cbn [app] in Q. rewrite Q in P1. rewrite P2 in P1.
    rewrite P1. rewrite <- !app_assoc. apply Permutation_app_head.
    assert (P3 : Permutation (flat_map (fun p => carried (qphase_of (q_pop q) p)) (q_thr q))
                   (flat_map (fun t => waiting (ph t)) (seq 0 n) ++ flat_map (fun t => returning (ph t)) (seq 0 n))).
    { rewrite <- flat_map_app_perm. rewrite <- (flat_map_seq _ (q_thr q) 0). rewrite L.
      rewrite (flat_map_of _ (fun t => waiting (ph t) ++ returning (ph t))); [reflexivity|].
      intros t Ht. rewrite Nat.sub_0_r. unfold ph. destruct (nth_error (q_thr q) t) as [p|]; [|reflexivity].
      destruct (qphase_of (q_pop q) p) as [|[x|]|[x|]]; reflexivity. }
    rewrite P3. rewrite !app_assoc.
    rewrite (Permutation_app_comm (flat_map (fun t => returning (ph t)) (seq 0 n) ++ inside q)).
    rewrite !app_assoc. reflexivity.
  Qed.

  Lemma slots_none_empty sched es (q : qst X) es1 t es2 : qrun vmax sched (qstart_slots k n) = ORet es q ->
    es = es1 ++ QLin t CPop None :: es2 -> Permutation (pushed es1) (popped es1).
  Proof.
    intros H E. destruct (slots_reached _ _ _ H) as (_ & R & _). rewrite E in R.
    destruct (bag_split _ _ _ _ R) as (b & R1 & R2). inversion R2; subst.
    pose proof (bag_balance _ _ _ R1) as Q. rewrite app_nil_r in Q. exact Q.
  Qed.

  Lemma slots_life sched es (q : qst X) t : qrun vmax sched (qstart_slots k n) = ORet es q -> exists ph, qfollows t XIdle es ph.
  Proof.
    intros H. destruct (slots_reached _ _ _ H) as (I & R & L & F).
    destruct (nth_error (q_thr q) t) as [p|] eqn:E; [eauto|].
    exists XIdle. pose proof (slots_threads _ _ _ _ H (slots_inv n Hn)) as T.
    cbn [qstart_slots q_thr] in T. rewrite repeat_length in T. apply nth_error_None in E.
    assert (Hn' : (n <= t)%nat) by lia. clear - T Hn'. induction T as [|e es He T IH]; [constructor|].
    apply qf_other; [|exact IH]. unfold qthread in He. destruct e; lia.
  Qed.

  Lemma slots_counters sched es (q : qst X) : qrun vmax sched (qstart_slots k n) = ORet es q ->
    0 <= q_next_pop q <= ISIZE_MAX + Z.of_nat n /\ 0 <= q_next_push q <= ISIZE_MAX + Z.of_nat n.
  Proof.
    intros H. destruct (slots_reached _ _ _ H) as (I & R & L & F).
    pose proof (cnt_le late (q_thr q)) as C. pose proof (cnt_le late2 (q_thr q)) as C2. unfold zlen in C, C2. rewrite L in C, C2.
    pose proof (s_np q I). pose proof (s_nu q I). lia.
  Qed.

  Lemma slots_no_conflict sched es (q : qst X) t t' p p' : qrun vmax sched (qstart_slots k n) = ORet es q ->
    t <> t' -> nth_error (q_thr q) t = Some p -> nth_error (q_thr q) t' = Some p' ->
    (qwr p = true -> qrd p' = false /\ qwr p' = false) /\
    (forall i, pop_slot q p = Some i -> pop_slot q p' <> Some i) /\
    (forall i, push_slot q p = Some i -> push_slot q p' <> Some i).
  Proof.
    intros H N Hp Hp'. destruct (slots_reached _ _ _ H) as (I & _). split; [|split].
    - intros Hw. split; [apply (none_reading q t p I Hp Hw _ _ Hp')|].
      destruct (qwr p') eqn:E; [|reflexivity]. exfalso.
      destruct (lockg_at _ _ _ _ _ _ (s_lock q I) Hp) as [_ A]. destruct (lockg_at _ _ _ _ _ _ (s_lock q I) Hp') as [_ A'].
      pose proof (proj2 A Hw). pose proof (proj2 A' E). congruence.
    - intros i. apply (s_pop1 q I t t' p p' i N Hp Hp').
    - intros i. apply (s_push1 q I t t' p p' i N Hp Hp').
  Qed.
End Slots.
