(** The accesses to memory made by the steps of the cache, what orders them, and that no two
    of them are a data race.

    The steps of Cache.v happen one after the other.  Here every step is given the list of its
    actions, and only the lock orders what different threads do (Race.v): the accesses of
    [next_pop] and [next_push] are taken to be [Relaxed], which is weaker than what the code
    says ([Acquire] at src/cache.rs 77 and 111). *)
From Verif Require Import Base BaseFacts History SetupOps Conc ConcFacts Cache CacheFacts CacheProps CacheSlots Race RaceFacts.

Section Acts.
  Context {X : Type}.

  (** The places of [Inner] (src/cache.rs 14-26).  [Root]: both [Vec]s, that is pointer,
      capacity and length.  The rest is numbered: the slots of [pop_array] are even, those of
      [push_array] odd, the two counters are below. *)
  Definition pop_place (i : Z) : place := Bytes (2 * i) 1.
  Definition push_place (i : Z) : place := Bytes (2 * i + 1) 1.
  Definition next_pop_place : place := Bytes (-2) 1.
  Definition next_push_place : place := Bytes (-1) 1.

  (** The exclusive part of a call, 98-103 and 127-131 with [flush] 134-152: both [Vec]s, both
      counters and all slots of both, before and after, may be written. *)
  Definition whole (q q' : qst X) : place :=
    Bytes (-2) (2 * (zlen (q_pop q) + zlen (q_pop q') + zlen (q_push q) + zlen (q_push q')) + 4).

  (** Thread [t] at [p] makes a step that leads from [q] to [q']; see [qgo]. *)
  Definition qgo_acts (t : nat) (p : qpc X) (q q' : qst X) : list action :=
    match p with
    | QIdle => []
    | PopRead | PushRead _ =>                       (* 73-75, 107-109: the lock, [is_empty] *)
        match lk_writer (q_lock q) with Some _ => [] | None => [RLock t; Acc t Root NaRead] end
    | PopFetch => [Acc t next_pop_place Atomic]     (* 77 *)
    | PopTake i =>                                  (* 79-85: [len], the slot *)
        Acc t Root NaRead ::
        (if i <? zlen (q_pop q) then [Acc t Root NaRead; Acc t (pop_place i) NaWrite] else [])
    | PopGuard _ => [Acc t Root NaRead; Acc t next_pop_place Atomic]       (* 88 *)
    | PopLoad => [Acc t next_push_place Atomic]     (* 91 *)
    | PopWrite | PushWrite _ =>                     (* 96, 125 *)
        match lk_writer (q_lock q), lk_readers (q_lock q) with None, [] => [WLock t] | _, _ => [] end
    | PopFlush | PushFlush _ => [Acc t Root NaWrite; Acc t (whole q q') NaWrite]
    | PushFetch _ => [Acc t next_push_place Atomic] (* 111 *)
    | PushPut _ i =>                                (* 113-119 *)
        Acc t Root NaRead ::
        (if i <? zlen (q_push q) then [Acc t Root NaRead; Acc t (push_place i) NaWrite] else [])
    | PushGuard _ _ => [Acc t Root NaRead; Acc t next_push_place Atomic]   (* 121 *)
    | QUnlock wr _ => [if wr then WUnlock t else RUnlock t]
    | QRelease _ => [RUnlock t]
    end.

  Definition qacts (c : qchoice X) (q q' : qst X) : list action :=
    match c with
    | QStart _ _ => []
    | QGo t => match nth_error (q_thr q) t with Some p => qgo_acts t p q q' | None => [] end
    end.

  (** The actions of a run. *)
  Fixpoint qtrace (vmax : Z) (cs : list (qchoice X)) : M (qst X) (list action) :=
    match cs with
    | [] => ret []
    | c :: cs' =>
        q <- get_q ;; qstep vmax c ;;; q' <- get_q ;;
        tr <- qtrace vmax cs' ;; ret (qacts c q q' ++ tr)
    end.
End Acts.

(** ** Who knows what *)

(** [T]: the slots that were written by a thread with the shared lock. *)
Record cinv (tr : list action) (lk : lock) (T : Z -> Prop) : Prop := mkC {
  c_root : forall i k, acc tr i PRoot k -> pub tr lk i \/ (k = NaRead /\ shr tr lk i);
  c_cnt : forall x i k, x < 0 -> acc tr i (PByte x) k -> pub tr lk i \/ (k = Atomic /\ shr tr lk i);
  c_slot : forall x i k, 0 <= x -> acc tr i (PByte x) k -> pub tr lk i \/ (T x /\ shr tr lk i)
}.
Definition cgood (tr : list action) (lk : lock) (T : Z -> Prop) : Prop := race_free tr /\ cinv tr lk T.

Lemma cgood_weaken tr lk (T T' : Z -> Prop) : cgood tr lk T -> (forall x, 0 <= x -> T x -> T' x) -> cgood tr lk T'.
Proof.
  intros (Hf & [C1 C2 C3]) H. split; [exact Hf|]. constructor; auto.
  intros x i k Hx Ha. destruct (C3 x i k Hx Ha) as [P|[P1 P2]]; auto.
Qed.

Lemma cgood_sync tr b lk lk' T : cgood tr lk T -> is_acc b = false ->
  (forall i, pub tr lk i -> pub (tr ++ [b]) lk' i) ->
  (forall i, shr tr lk i -> shr (tr ++ [b]) lk' i) ->
  cgood (tr ++ [b]) lk' T.
Proof.
  intros (Hf & [C1 C2 C3]) E Hp Hs. split; [apply race_free_sync; auto|]. constructor.
  - intros i k Ha. apply (acc_sync _ _ _ _ _ E) in Ha. destruct (C1 i k Ha) as [P|[P1 P2]]; auto.
  - intros x i k Hx Ha. apply (acc_sync _ _ _ _ _ E) in Ha. destruct (C2 x i k Hx Ha) as [P|[P1 P2]]; auto.
  - intros x i k Hx Ha. apply (acc_sync _ _ _ _ _ E) in Ha. destruct (C3 x i k Hx Ha) as [P|[P1 P2]]; auto.
Qed.

Lemma cgood_rlock tr lk t T : cgood tr lk T -> lk_writer lk = None -> cgood (tr ++ [RLock t]) (with_reader t lk) T.
Proof.
  intros G E. apply (cgood_sync tr _ lk); auto.
  - intros i (H1 & H2). split; [|intros _; apply knows_app; auto].
    intros t' [[<-|H]|H].
    + apply (knows_last wrel); [auto|intros a Ha; apply linked_w; exact Ha|left; reflexivity].
    + apply knows_app, H1. left; exact H.
    + apply knows_app, H1. right; exact H.
  - intros i (H1 & H2). split; [cbn; rewrite E; discriminate|]. intros _.
    destruct (H2 E) as [(t' & Ht & K)|[K|K]].
    + left. exists t'. split; [right; exact Ht|apply knows_app; exact K].
    + right; left; apply knows_app; exact K.
    + right; right; apply knows_app; exact K.
Qed.

Lemma cgood_wlock tr lk t T : cgood tr lk T -> lk_writer lk = None -> lk_readers lk = [] ->
  cgood (tr ++ [WLock t]) (mkLock [] (Some t)) T.
Proof.
  intros G E E2. apply (cgood_sync tr _ lk); auto.
  - intros i (H1 & H2). split; [|cbn; discriminate].
    intros t' [[]|H]. cbn in H. inversion H; subst t'.
    apply (knows_last wrel); [auto|intros a Ha; apply linked_w; exact Ha|left; reflexivity].
  - intros i (H1 & H2). split; [|cbn; discriminate]. cbn. intros t' H. inversion H; subst t'.
    destruct (H2 E) as [(t' & Ht & K)|[K|K]].
    + rewrite E2 in Ht. contradiction.
    + apply (knows_last rrel); [auto|intros a Ha; apply linked_r; exact Ha|left; reflexivity].
    + apply (knows_last wrel); [auto|intros a Ha; apply linked_w; exact Ha|left; reflexivity].
Qed.

Lemma cgood_runlock tr lk t T : cgood tr lk T -> lk_writer lk = None -> cgood (tr ++ [RUnlock t]) (without t false lk) T.
Proof.
  intros G E. apply (cgood_sync tr _ lk); auto.
  - intros i (H1 & H2). split; [|intros _; apply knows_app; auto].
    intros t' [H|H]; apply knows_app, H1; [left|right; exact H].
    cbn in H. apply in_remove in H. apply H.
  - intros i (H1 & H2). split; [cbn; rewrite E; discriminate|]. intros _.
    destruct (H2 E) as [(t' & Ht & K)|[K|K]].
    + destruct (Nat.eq_dec t' t) as [->|N].
      * right; left. apply (knows_last (by_ t)); [exact K|intros a; apply linked_by; reflexivity|left; eauto].
      * left. exists t'. split; [cbn; apply in_in_remove; auto|apply knows_app; exact K].
    + right; left; apply knows_app; exact K.
    + right; right; apply knows_app; exact K.
Qed.

Lemma cgood_wunlock tr lk t T : cgood tr lk T -> lk_writer lk = Some t -> lk_readers lk = [] ->
  cgood (tr ++ [WUnlock t]) (without t true lk) T.
Proof.
  intros G E E2. apply (cgood_sync tr _ lk); auto.
  - intros i (H1 & H2). split.
    + intros t' [H|H]; cbn in H; [rewrite E2 in H; contradiction|discriminate].
    + intros _. apply (knows_last (by_ t)); [apply H1; right; exact E|intros a; apply linked_by; reflexivity|left; eauto].
  - intros i (H1 & H2). split; [cbn; discriminate|]. intros _. right; right.
    apply (knows_last (by_ t)); [apply H1; exact E|intros a; apply linked_by; reflexivity|left; eauto].
Qed.

(** An access by a thread that knows of all earlier conflicting ones. *)
Lemma cacc tr t p k :
  race_free tr ->
  (forall q i k', touches p q -> acc tr i q k' -> kinds_conflict k' k = true -> knows (by_ t) tr i) ->
  race_free (tr ++ [Acc t p k]).
Proof.
  intros Hf Hk. apply race_free_app; [exact Hf|]. intros i a Ha Hc. destruct a as [t0 p0 k0| | | | | | |]; try discriminate.
  cbn in Hc. apply andb_prop in Hc. destruct Hc as [Ho Hc]. destruct (overlap_touch _ _ Ho) as (x & X0 & X1).
  apply (knows_hb (by_ t)); [|intros a; apply linked_by; reflexivity].
  apply (Hk x i k0); auto. exists t0, p0. auto.
Qed.

Lemma knows_self tr t p k : knows (by_ t) (tr ++ [Acc t p k]) (length tr).
Proof. exists (length tr), (Acc t p k). split; [apply nth_last|]. split; [left; reflexivity|left; reflexivity]. Qed.

Lemma shr_pub tr lk t i : lk_writer lk = Some t -> lk_readers lk = [] -> shr tr lk i -> pub tr lk i.
Proof.
  intros E E2 (H1 & _). split; [|rewrite E; discriminate].
  intros t' [H|H]; [rewrite E2 in H; contradiction|]. auto.
Qed.

Section Access.
  Variables (tr : list action) (lk : lock) (t : nat).
  Hypothesis Hh : holds lk t.
  Hypothesis Hx : lk_writer lk <> None -> lk_readers lk = [].

  (** With the lock, the [Vec]s are read. *)
  Lemma cread T : cgood tr lk T -> cgood (tr ++ [Acc t Root NaRead]) lk T.
  Proof.
    intros (Hf & [C1 C2 C3]). split.
    - apply cacc; [exact Hf|]. intros q i k' Ht Ha Hc. destruct q as [|x]; [|contradiction].
      destruct (C1 i k' Ha) as [P|[-> _]]; [apply (pub_holds _ _ _ _ P Hh)|discriminate].
    - assert (Hn : shr (tr ++ [Acc t Root NaRead]) lk (length tr)) by (apply (shr_holds _ _ _ t); auto; apply knows_self).
      constructor.
      + intros i k Ha. apply acc_app in Ha. destruct Ha as [Ha|(-> & t0 & p0 & E & _)].
        * destruct (C1 i k Ha) as [P|[P1 P2]]; auto using pub_app, shr_app.
        * inversion E; subst. auto.
      + intros x i k L Ha. apply acc_app in Ha. destruct Ha as [Ha|(-> & t0 & p0 & E & Ht)].
        * destruct (C2 x i k L Ha) as [P|[P1 P2]]; auto using pub_app, shr_app.
        * inversion E; subst. contradiction.
      + intros x i k L Ha. apply acc_app in Ha. destruct Ha as [Ha|(-> & t0 & p0 & E & Ht)].
        * destruct (C3 x i k L Ha) as [P|[P1 P2]]; auto using pub_app, shr_app.
        * inversion E; subst. contradiction.
  Qed.

  (** With the lock, a counter is accessed. *)
  Lemma ccount y T : y < 0 -> cgood tr lk T -> cgood (tr ++ [Acc t (Bytes y 1) Atomic]) lk T.
  Proof.
    intros Hy (Hf & [C1 C2 C3]). split.
    - apply cacc; [exact Hf|]. intros q i k' Ht Ha Hc. destruct q as [|x]; [contradiction|]. cbn in Ht.
      destruct (C2 x i k' ltac:(lia) Ha) as [P|[-> _]]; [apply (pub_holds _ _ _ _ P Hh)|discriminate].
    - assert (Hn : shr (tr ++ [Acc t (Bytes y 1) Atomic]) lk (length tr)) by (apply (shr_holds _ _ _ t); auto; apply knows_self).
      constructor.
      + intros i k Ha. apply acc_app in Ha. destruct Ha as [Ha|(-> & t0 & p0 & E & Ht)].
        * destruct (C1 i k Ha) as [P|[P1 P2]]; auto using pub_app, shr_app.
        * inversion E; subst. contradiction.
      + intros x i k L Ha. apply acc_app in Ha. destruct Ha as [Ha|(-> & t0 & p0 & E & Ht)].
        * destruct (C2 x i k L Ha) as [P|[P1 P2]]; auto using pub_app, shr_app.
        * inversion E; subst. auto.
      + intros x i k L Ha. apply acc_app in Ha. destruct Ha as [Ha|(-> & t0 & p0 & E & Ht)].
        * destruct (C3 x i k L Ha) as [P|[P1 P2]]; auto using pub_app, shr_app.
        * inversion E; subst. cbn in Ht. lia.
  Qed.

  (** With the lock, a slot is written that nobody accessed since somebody had the exclusive lock. *)
  Lemma cslot y (T T' : Z -> Prop) : 0 <= y -> ~ T y -> (forall x, T x -> T' x) -> T' y ->
    cgood tr lk T -> cgood (tr ++ [Acc t (Bytes y 1) NaWrite]) lk T'.
  Proof.
    intros Hy Hn HT Hy' (Hf & [C1 C2 C3]). split.
    - apply cacc; [exact Hf|]. intros q i k' Ht Ha Hc. destruct q as [|x]; [contradiction|]. cbn in Ht.
      assert (x = y) by lia. subst x.
      destruct (C3 y i k' Hy Ha) as [P|[P _]]; [apply (pub_holds _ _ _ _ P Hh)|contradiction].
    - assert (Hs : shr (tr ++ [Acc t (Bytes y 1) NaWrite]) lk (length tr)) by (apply (shr_holds _ _ _ t); auto; apply knows_self).
      constructor.
      + intros i k Ha. apply acc_app in Ha. destruct Ha as [Ha|(-> & t0 & p0 & E & Ht)].
        * destruct (C1 i k Ha) as [P|[P1 P2]]; auto using pub_app, shr_app.
        * inversion E; subst. contradiction.
      + intros x i k L Ha. apply acc_app in Ha. destruct Ha as [Ha|(-> & t0 & p0 & E & Ht)].
        * destruct (C2 x i k L Ha) as [P|[P1 P2]]; auto using pub_app, shr_app.
        * inversion E; subst. cbn in Ht. lia.
      + intros x i k L Ha. apply acc_app in Ha. destruct Ha as [Ha|(-> & t0 & p0 & E & Ht)].
        * destruct (C3 x i k L Ha) as [P|[P1 P2]]; auto using pub_app, shr_app.
        * inversion E; subst. cbn in Ht. right. split; [|exact Hs]. replace x with y by lia. exact Hy'.
  Qed.

  (** With the exclusive lock, anything is accessed. *)
  Lemma cwhole p k (T T' : Z -> Prop) : lk_writer lk = Some t -> cgood tr lk T -> cgood (tr ++ [Acc t p k]) lk T'.
  Proof.
    intros Ew (Hf & [C1 C2 C3]). assert (E2 : lk_readers lk = []) by (apply Hx; congruence).
    assert (Hall : forall q i k', acc tr i q k' -> pub tr lk i).
    { intros [|x] i k' Ha.
      - destruct (C1 i k' Ha) as [P|[_ P]]; [exact P|apply (shr_pub _ _ t); auto].
      - destruct (Z.lt_ge_cases x 0) as [L|L].
        + destruct (C2 x i k' L Ha) as [P|[_ P]]; [exact P|apply (shr_pub _ _ t); auto].
        + destruct (C3 x i k' L Ha) as [P|[_ P]]; [exact P|apply (shr_pub _ _ t); auto]. }
    assert (Hall' : forall q i k', acc (tr ++ [Acc t p k]) i q k' -> pub (tr ++ [Acc t p k]) lk i).
    { intros q i k' Ha. apply acc_app in Ha. destruct Ha as [Ha|(-> & _)].
      - apply pub_app. eauto.
      - apply (shr_pub _ _ t); auto. apply (shr_holds _ _ _ t); auto. apply knows_self. }
    split.
    - apply cacc; [exact Hf|]. intros q i k' _ Ha _. apply (pub_holds _ lk); eauto.
    - constructor; intros; left; eauto.
  Qed.
End Access.

Section Race.
  Context {X : Type}.
  Variable vmax : Z.
  Variable k : nat.
  Hypothesis Hvmax : 0 <= vmax /\ vmax + Z.of_nat k <= ISIZE_MAX.

  (** The slots whose index was handed out, by threads that are done with them. *)
  Definition taken (q : qst X) (x : Z) : Prop :=
    (exists i, x = 2 * i /\ i < zlen (q_pop q) /\ i < q_next_pop q /\
       forall t p, nth_error (q_thr q) t = Some p -> pop_slot q p <> Some i) \/
    (exists i, x = 2 * i + 1 /\ i < zlen (q_push q) /\ i < q_next_push q /\
       forall t p, nth_error (q_thr q) t = Some p -> push_slot q p <> Some i).

  (** They stay taken until the next [flush]. *)
  Lemma taken_moved (q q' : qst X) t p p' : nth_error (q_thr q) t = Some p -> q_thr q' = set_nth t p' (q_thr q) ->
    zlen (q_pop q') = zlen (q_pop q) -> zlen (q_push q') = zlen (q_push q) ->
    (q_next_pop q <= q_next_pop q' \/ zlen (q_pop q) <= q_next_pop q') ->
    (q_next_push q <= q_next_push q' \/ zlen (q_push q) <= q_next_push q') ->
    (forall i, pop_slot q p' = Some i -> q_next_pop q <= i) ->
    (forall i, push_slot q p' = Some i -> q_next_push q <= i) ->
    forall x, taken q x -> taken q' x.
  Proof.
    intros Hp Et E1 E2 M1 M2 S1 S2 x [(i & -> & A & B & C)|(i & -> & A & B & C)]; [left|right]; exists i.
    - split; [reflexivity|]. split; [lia|]. split; [lia|]. intros t1 p1 H1. rewrite Et in H1.
      assert (Ep : pop_slot q' p1 = pop_slot q p1) by (destruct p1; cbn [pop_slot]; rewrite ?E1; reflexivity). rewrite Ep.
      destruct (nth_moved _ _ _ _ _ _ Hp H1) as [[-> ->]|[_ H1']]; [|eauto]. intros H. specialize (S1 _ H). lia.
    - split; [reflexivity|]. split; [lia|]. split; [lia|]. intros t1 p1 H1. rewrite Et in H1.
      assert (Ep : push_slot q' p1 = push_slot q p1) by (destruct p1; cbn [push_slot]; rewrite ?E2; reflexivity). rewrite Ep.
      destruct (nth_moved _ _ _ _ _ _ Hp H1) as [[-> ->]|[_ H1']]; [|eauto]. intros H. specialize (S2 _ H). lia.
  Qed.

  Lemma cstep_ok tr q t p es q' : sinv vmax k q -> nth_error (q_thr q) t = Some p ->
    cgood tr (q_lock q) (taken q) -> qgo vmax t p q = ORet es q' ->
    cgood (tr ++ qgo_acts t p q q') (q_lock q') (taken q').
  Proof.
    intros Hi Hp G E. pose proof Hi as [I1 I2 I3 I4 I5 I6 I7 I8 I9 I10].
    pose proof (I5 t p Hp) as Hpc. destruct (lockg_at _ _ _ _ _ _ I4 Hp) as [A1 A2].
    pose proof I4 as (K1 & K2 & K3).
    assert (Hrd : qrd p = true -> holds (q_lock q) t) by (intros R; left; apply A1; exact R).
    assert (Hwr : qwr p = true -> holds (q_lock q) t) by (intros R; right; apply A2; exact R).
    assert (Hnw : qrd p = true -> lk_writer (q_lock q) = None).
    { intros R. destruct (lk_writer (q_lock q)) eqn:Ew; [|reflexivity]. exfalso.
      apply A1 in R. rewrite K3 in R by discriminate. contradiction. }
    assert (Hus : USIZE_MAX = ISIZE_MAX + 2 ^ 63) by (unfold USIZE_MAX, ISIZE_MAX; lia).
    unfold qgo, bind, get_q in E. destruct p; cbn [qgo_acts]; cbn [qrd qwr spc] in *.
    - inversion E; subst. rewrite app_nil_r. exact G.
    - destruct (lk_writer (q_lock q)) eqn:Ew.
      { inversion E; subst. rewrite app_nil_r. exact G. }
      cbn [set_lock q_become upd ret q_pop q_next_pop q_push q_next_push q_lock q_thr] in E. inversion E; subst; clear E.
      cbn [q_lock]. change [RLock t; Acc t Root NaRead] with ([RLock t] ++ [Acc t Root NaRead]). rewrite app_assoc.
      apply cread; [left; left; reflexivity|cbn; congruence|].
      apply (cgood_weaken _ _ (taken q)); [apply cgood_rlock; auto|]. intros x _.
      apply (taken_moved q _ t PopRead (match q_pop q with [] => PopLoad | _ => PopFetch end)); auto; cbn; try lia; destruct (q_pop q); discriminate.
    - cbn [set_next_pop q_become upd ret q_pop q_next_pop q_push q_next_push q_lock q_thr] in E. inversion E; subst; clear E.
      cbn [q_lock]. apply ccount; [auto|exact K3|lia|]. apply (cgood_weaken _ _ (taken q)); [exact G|]. intros x _.
      pose proof (cnt_less late _ _ _ Hp eq_refl) as Hc.
      assert (Ewr : wrap (q_next_pop q + 1) = q_next_pop q + 1).
      { unfold wrap. apply Z.mod_small. unfold USIZE_MAX in *. lia. }
      apply (taken_moved q _ t PopFetch (PopTake (q_next_pop q))); auto; cbn [q_thr q_pop q_next_pop q_push q_next_push]; try lia.
      + intros i. cbn [pop_slot]. destruct (q_next_pop q <? zlen (q_pop q)); intros H; inversion H; subst; lia.
      + discriminate.
    - destruct (Z.ltb_spec idx (zlen (q_pop q))) as [L|L].
      + destruct (nth_error (q_pop q) (Z.to_nat idx)) as [x|]; [|discriminate E].
        cbn [q_become upd ret] in E. inversion E; subst; clear E. cbn [q_lock].
        change [Acc t Root NaRead; Acc t Root NaRead; Acc t (pop_place idx) NaWrite] with
          (([Acc t Root NaRead] ++ [Acc t Root NaRead]) ++ [Acc t (Bytes (2 * idx) 1) NaWrite]). rewrite !app_assoc.
        assert (Hs : pop_slot q (PopTake idx) = Some idx).
        { cbn [pop_slot]. destruct (Z.ltb_spec idx (zlen (q_pop q))); [reflexivity|lia]. }
        apply (cslot _ _ _ (Hrd eq_refl) K3 _ (taken q)); [lia| | | |].
        * intros [(i & Ei & _ & _ & C)|(i & Ei & _)]; [|lia]. apply (C _ _ Hp). rewrite Hs. f_equal. lia.
        * apply (taken_moved q _ t (PopTake idx) (QUnlock false (Some x))); auto; cbn; try lia; discriminate.
        * left. exists idx. cbn [q_pop q_next_pop q_thr]. split; [reflexivity|]. split; [exact L|]. split; [tauto|].
          intros t1 p1 H1. change (pop_slot _ ?y) with (pop_slot q y).
          destruct (nth_moved _ _ _ _ _ _ Hp H1) as [[-> ->]|[N H1']]; [discriminate|].
          apply (I9 t t1 (PopTake idx)); auto.
        * apply cread; [auto|exact K3|]. apply cread; auto.
      + cbn [q_become upd ret] in E. inversion E; subst; clear E. cbn [q_lock]. apply cread; [auto|exact K3|].
        apply (cgood_weaken _ _ (taken q)); [exact G|]. intros x _.
        apply (taken_moved q _ t (PopTake idx) (PopGuard idx)); auto; cbn; try lia; discriminate.
    - assert (Em : q_lock q' = q_lock q /\ forall x, taken q x -> taken q' x).
      { destruct (prevent_overflow idx (zlen (q_pop q))) as [v|] eqn:Ev;
          cbn [set_next_pop q_become upd ret q_pop q_next_pop q_push q_next_push q_lock q_thr] in E; inversion E; subst; clear E;
          (split; [reflexivity|]); apply (taken_moved q _ t (PopGuard idx) PopLoad); auto; cbn; try lia; try discriminate.
        unfold prevent_overflow in Ev. destruct (ISIZE_MAX <=? idx); inversion Ev; subst. lia. }
      destruct Em as [-> Em].
      change [Acc t Root NaRead; Acc t next_pop_place Atomic] with ([Acc t Root NaRead] ++ [Acc t (Bytes (-2) 1) Atomic]).
      rewrite app_assoc. apply ccount; [auto|exact K3|lia|]. apply cread; [auto|exact K3|].
      apply (cgood_weaken _ _ (taken q)); auto.
    - assert (Em : q_lock q' = q_lock q /\ forall x, taken q x -> taken q' x).
      { destruct (q_next_push q =? 0);
          cbn [q_become upd ret q_pop q_next_pop q_push q_next_push q_lock q_thr] in E; inversion E; subst; clear E;
          (split; [reflexivity|]); [apply (taken_moved q _ t PopLoad (QUnlock false None))|apply (taken_moved q _ t PopLoad (QRelease CPop))];
          auto; cbn; try lia; discriminate. }
      destruct Em as [-> Em].
      apply ccount; [auto|exact K3|lia|]. apply (cgood_weaken _ _ (taken q)); auto.
    - destruct (lk_writer (q_lock q)) eqn:Ew.
      { inversion E; subst. rewrite app_nil_r. exact G. }
      destruct (lk_readers (q_lock q)) eqn:Er.
      2: { inversion E; subst. rewrite app_nil_r. exact G. }
      cbn [set_lock q_become upd ret q_pop q_next_pop q_push q_next_push q_lock q_thr] in E. inversion E; subst; clear E.
      cbn [q_lock]. apply (cgood_weaken _ _ (taken q)); [apply (cgood_wlock _ (q_lock q)); auto|]. intros x _.
      apply (taken_moved q _ t PopWrite PopFlush); auto; cbn; try lia; discriminate.
    - assert (Ew : lk_writer (q_lock q) = Some t) by tauto.
      assert (El : q_lock q' = q_lock q).
      { destruct (flush_slots vmax k q t PopFlush Hi Hp eq_refl) as (push' & Ef & _). rewrite Ef in E. cbn [q_pop] in E.
        destruct (rev (inside q)) as [|x l];
          cbn [set_arrays q_become upd ret q_pop q_next_pop q_push q_next_push q_lock q_thr] in E; inversion E; subst; reflexivity. }
      rewrite El. change [Acc t Root NaWrite; ?a] with ([Acc t Root NaWrite] ++ [a]). rewrite app_assoc.
      apply (cwhole _ _ _ (Hwr eq_refl) K3 _ _ (taken q)); [exact Ew|].
      apply (cwhole _ _ _ (Hwr eq_refl) K3 _ _ (taken q)); [exact Ew|exact G].
    - destruct (lk_writer (q_lock q)) eqn:Ew.
      { inversion E; subst. rewrite app_nil_r. exact G. }
      cbn [set_lock q_become upd ret q_pop q_next_pop q_push q_next_push q_lock q_thr] in E. inversion E; subst; clear E.
      cbn [q_lock]. change [RLock t; Acc t Root NaRead] with ([RLock t] ++ [Acc t Root NaRead]). rewrite app_assoc.
      apply cread; [left; left; reflexivity|cbn; congruence|].
      apply (cgood_weaken _ _ (taken q)); [apply cgood_rlock; auto|]. intros y _.
      apply (taken_moved q _ t (PushRead x) (match q_push q with [] => QRelease (CPush x) | _ => PushFetch x end)); auto; cbn; try lia; destruct (q_push q); discriminate.
    - cbn [set_next_push q_become upd ret q_pop q_next_pop q_push q_next_push q_lock q_thr] in E. inversion E; subst; clear E.
      cbn [q_lock]. apply ccount; [auto|exact K3|lia|]. apply (cgood_weaken _ _ (taken q)); [exact G|]. intros y _.
      pose proof (cnt_less late2 _ _ _ Hp eq_refl) as Hc.
      assert (Ewr : wrap (q_next_push q + 1) = q_next_push q + 1).
      { unfold wrap. apply Z.mod_small. unfold USIZE_MAX in *. lia. }
      apply (taken_moved q _ t (PushFetch x) (PushPut x (q_next_push q))); auto; cbn [q_thr q_pop q_next_pop q_push q_next_push]; try lia.
      + discriminate.
      + intros i. cbn [push_slot]. destruct (q_next_push q <? zlen (q_push q)); intros H; inversion H; subst; lia.
    - destruct (Z.ltb_spec idx (zlen (q_push q))) as [L|L].
      + cbn [set_arrays q_become upd ret q_pop q_next_pop q_push q_next_push q_lock q_thr] in E. inversion E; subst; clear E. cbn [q_lock].
        change [Acc t Root NaRead; Acc t Root NaRead; Acc t (push_place idx) NaWrite] with
          (([Acc t Root NaRead] ++ [Acc t Root NaRead]) ++ [Acc t (Bytes (2 * idx + 1) 1) NaWrite]). rewrite !app_assoc.
        assert (Hs : push_slot q (PushPut x idx) = Some idx).
        { cbn [push_slot]. destruct (Z.ltb_spec idx (zlen (q_push q))); [reflexivity|lia]. }
        assert (Els : zlen (set_nth (Z.to_nat idx) (Some x) (q_push q)) = zlen (q_push q)) by (unfold zlen; rewrite set_nth_length; reflexivity).
        apply (cslot _ _ _ (Hrd eq_refl) K3 _ (taken q)); [lia| | | |].
        * intros [(i & Ei & _)|(i & Ei & _ & _ & C)]; [lia|]. apply (C _ _ Hp). rewrite Hs. f_equal. lia.
        * apply (taken_moved q _ t (PushPut x idx) (QUnlock false None)); auto; cbn [q_pop q_next_pop q_push q_next_push]; try lia; discriminate.
        * right. exists idx. cbn [q_push q_next_push q_thr]. split; [reflexivity|]. split; [lia|]. split; [tauto|].
          intros t1 p1 H1.
          assert (Esl : push_slot (mkQ (q_pop q) (q_next_pop q) (set_nth (Z.to_nat idx) (Some x) (q_push q)) (q_next_push q) (q_lock q)
             (set_nth t (QUnlock false None) (q_thr q))) p1 = push_slot q p1).
          { destruct p1; cbn [push_slot q_push]; try reflexivity. rewrite Els. reflexivity. }
          rewrite Esl. destruct (nth_moved _ _ _ _ _ _ Hp H1) as [[-> ->]|[N H1']]; [discriminate|].
          apply (I8 t t1 (PushPut x idx)); auto.
        * apply cread; [auto|exact K3|]. apply cread; auto.
      + cbn [q_become upd ret] in E. inversion E; subst; clear E. cbn [q_lock]. apply cread; [auto|exact K3|].
        apply (cgood_weaken _ _ (taken q)); [exact G|]. intros y _.
        apply (taken_moved q _ t (PushPut x idx) (PushGuard x idx)); auto; cbn; try lia; discriminate.
    - assert (Em : q_lock q' = q_lock q /\ forall y, taken q y -> taken q' y).
      { destruct (prevent_overflow idx (zlen (q_push q))) as [v|] eqn:Ev;
          cbn [set_next_push q_become upd ret q_pop q_next_pop q_push q_next_push q_lock q_thr] in E; inversion E; subst; clear E;
          (split; [reflexivity|]); apply (taken_moved q _ t (PushGuard x idx) (QRelease (CPush x))); auto; cbn; try lia; try discriminate.
        unfold prevent_overflow in Ev. destruct (ISIZE_MAX <=? idx); inversion Ev; subst. lia. }
      destruct Em as [-> Em].
      change [Acc t Root NaRead; Acc t next_push_place Atomic] with ([Acc t Root NaRead] ++ [Acc t (Bytes (-1) 1) Atomic]).
      rewrite app_assoc. apply ccount; [auto|exact K3|lia|]. apply cread; [auto|exact K3|].
      apply (cgood_weaken _ _ (taken q)); auto.
    - destruct (lk_writer (q_lock q)) eqn:Ew.
      { inversion E; subst. rewrite app_nil_r. exact G. }
      destruct (lk_readers (q_lock q)) eqn:Er.
      2: { inversion E; subst. rewrite app_nil_r. exact G. }
      cbn [set_lock q_become upd ret q_pop q_next_pop q_push q_next_push q_lock q_thr] in E. inversion E; subst; clear E.
      cbn [q_lock]. apply (cgood_weaken _ _ (taken q)); [apply (cgood_wlock _ (q_lock q)); auto|]. intros y _.
      apply (taken_moved q _ t (PushWrite x) (PushFlush x)); auto; cbn; try lia; discriminate.
    - assert (Ew : lk_writer (q_lock q) = Some t) by tauto.
      assert (El : q_lock q' = q_lock q).
      { destruct (flush_slots vmax k q t (PushFlush x) Hi Hp eq_refl) as (push' & Ef & _). rewrite Ef in E. cbn [q_pop] in E.
        destruct (vmax <=? zlen (inside q)); [discriminate E|].
        cbn [set_arrays q_become upd ret q_pop q_next_pop q_push q_next_push q_lock q_thr] in E; inversion E; subst; reflexivity. }
      rewrite El. change [Acc t Root NaWrite; ?a] with ([Acc t Root NaWrite] ++ [a]). rewrite app_assoc.
      apply (cwhole _ _ _ (Hwr eq_refl) K3 _ _ (taken q)); [exact Ew|].
      apply (cwhole _ _ _ (Hwr eq_refl) K3 _ _ (taken q)); [exact Ew|exact G].
    - cbn [set_lock q_become upd ret q_pop q_next_pop q_push q_next_push q_lock q_thr] in E. inversion E; subst; clear E. cbn [q_lock].
      apply (cgood_weaken _ _ (taken q)).
      + destruct wr.
        * assert (Ew : lk_writer (q_lock q) = Some t) by tauto.
          apply (cgood_wunlock _ (q_lock q)); auto. apply K3. congruence.
        * apply cgood_runlock; auto.
      + intros x _. apply (taken_moved q _ t (QUnlock wr r) QIdle); auto; cbn; try lia; discriminate.
    - cbn [set_lock q_become upd ret q_pop q_next_pop q_push q_next_push q_lock q_thr] in E. inversion E; subst; clear E. cbn [q_lock].
      apply (cgood_weaken _ _ (taken q)); [apply cgood_runlock; auto|].
      intros x _. apply (taken_moved q _ t (QRelease o) (match o with CPop => PopWrite | CPush y => PushWrite y end)); auto; cbn; try lia; destruct o; discriminate.
  Qed.

  Lemma ctrace_ok cs : forall q tr0 tr q', sinv vmax k q -> cgood tr0 (q_lock q) (taken q) ->
    qtrace vmax cs q = ORet tr q' -> cgood (tr0 ++ tr) (q_lock q') (taken q').
  Proof.
    induction cs as [|c cs IH]; intros q tr0 tr q' Hi G E; cbn [qtrace] in E.
    - inversion E; subst. rewrite app_nil_r. exact G.
    - unfold bind, get_q in E. pose proof (sstep_ok vmax k Hvmax q c Hi) as Hs.
      destruct (qstep vmax c q) as [es q1|q1| |] eqn:Es; try discriminate E.
      cbn [sgoal] in Hs. destruct Hs as (Hi1 & _).
      destruct (qtrace vmax cs q1) as [tr1 q2|q2| |] eqn:Et; try discriminate E. inversion E; subst; clear E.
      rewrite app_assoc. apply (IH q1 (tr0 ++ qacts c q q1) tr1 q' Hi1); [|exact Et].
      unfold qstep, bind, get_q in Es. destruct c as [t o|t]; cbn [qacts].
      + rewrite app_nil_r. destruct (nth_error (q_thr q) t) as [p|] eqn:Hp; [|inversion Es; subst; exact G].
        destruct p; try (inversion Es; subst; exact G). cbn [q_become upd ret] in Es. inversion Es; subst; clear Es. cbn [q_lock].
        apply (cgood_weaken _ _ (taken q)); [exact G|]. intros x _.
        apply (taken_moved q _ t QIdle (match o with CPop => PopRead | CPush y => PushRead y end)); auto; cbn; try lia; destruct o; discriminate.
      + destruct (nth_error (q_thr q) t) as [p|] eqn:Hp.
        * apply (cstep_ok tr0 q t p es q1); auto.
        * inversion Es; subst. rewrite app_nil_r. exact G.
  Qed.

  Lemma slots_race_free n (cs : list (qchoice X)) tr q' : Z.of_nat n <= 2 ^ 63 ->
    qtrace vmax cs (qstart_slots k n) = ORet tr q' -> race_free tr.
  Proof.
    intros Hn E. apply (ctrace_ok cs (qstart_slots k n) [] tr q'); [apply slots_inv; auto| |exact E].
    assert (Hnil : forall i (a : action), nth_error (@nil action) i <> Some a) by (intros [|i] a; discriminate).
    split.
    - intros i j a b _ Ha. destruct (Hnil _ _ Ha).
    - constructor; intros; match goal with H : acc [] _ _ _ |- _ => destruct H as (t0 & p0 & H & _); destruct (Hnil _ _ H) end.
  Qed.

  (** What a trace has to do with the run. *)
  Lemma trace_run cs : forall q : qst X,
    match qtrace vmax cs q, qrun vmax cs q with
    | ORet _ q1, ORet _ q2 => q1 = q2
    | OPanic q1, OPanic q2 => q1 = q2
    | OAbort, OAbort | OUB, OUB => True
    | _, _ => False
    end.
  Proof.
    induction cs as [|c cs IH]; intros q; cbn [qtrace qrun]; [reflexivity|].
    unfold bind, get_q. destruct (qstep vmax c q) as [es q1|q1| |]; auto.
    specialize (IH q1). destruct (qtrace vmax cs q1), (qrun vmax cs q1); auto.
  Qed.
End Race.

(** ** The trace is complete *)
Section Complete.
  Context {X : Type}.
  Variable vmax : Z.

  (** What is at a place is the same. *)
  Definition same_at (q q' : qst X) (x : point) : Prop :=
    match x with
    | PRoot => zlen (q_pop q) = zlen (q_pop q') /\ zlen (q_push q) = zlen (q_push q')
    | PByte x =>
        (x = -2 -> q_next_pop q = q_next_pop q') /\ (x = -1 -> q_next_push q = q_next_push q') /\
        (forall i, x = 2 * Z.of_nat i -> nth_error (q_pop q) i = nth_error (q_pop q') i) /\
        (forall i, x = 2 * Z.of_nat i + 1 -> nth_error (q_push q) i = nth_error (q_push q') i)
    end.
  Definition writes_at (a : action) (x : point) : Prop :=
    match a with Acc _ p NaWrite | Acc _ p Atomic => touches p x | _ => False end.
  Definition accesses (a : action) (x : point) : Prop :=
    match a with Acc _ p _ => touches p x | _ => False end.

  Lemma same_eq (q q' : qst X) x : q_pop q = q_pop q' -> q_next_pop q = q_next_pop q' ->
    q_push q = q_push q' -> q_next_push q = q_next_push q' -> same_at q q' x.
  Proof. intros E1 E2 E3 E4. destruct x; cbn; rewrite E1, E3; auto. Qed.

  Lemma same_whole (q q' : qst X) t x :
    ~ writes_at (Acc t Root NaWrite) x -> ~ writes_at (Acc t (whole q q') NaWrite) x -> same_at q q' x.
  Proof.
    intros H1 H2. destruct x as [|x]; [destruct H1; exact Logic.I|]. unfold whole in H2.
    cbn [writes_at touches same_at] in *.
    pose proof (zlen_nonneg (q_pop q)). pose proof (zlen_nonneg (q_pop q')).
    pose proof (zlen_nonneg (q_push q)). pose proof (zlen_nonneg (q_push q')).
    assert (Hn : forall {T} (l : list T) i, zlen l <= Z.of_nat i -> nth_error l i = None).
    { intros T l i L. apply nth_error_None. unfold zlen in L. lia. }
    split; [intros ->; exfalso; apply H2; lia|]. split; [intros ->; exfalso; apply H2; lia|].
    split; intros i ->; rewrite !Hn; try reflexivity; lia.
  Qed.

  (** A step changes nothing but what its actions write. *)
  Lemma qgo_writes t p (q : qst X) es q' pt :
    match p with PopTake i | PushPut _ i => 0 <= i | _ => True end -> qgo vmax t p q = ORet es q' ->
    (forall a, In a (qgo_acts t p q q') -> ~ writes_at a pt) -> same_at q q' pt.
  Proof.
    intros Hidx E H. unfold qgo, bind, get_q in E. destruct p; cbn [qgo_acts] in H.
    - inversion E; subst. apply same_eq; reflexivity.
    - destruct (lk_writer (q_lock q)); inversion E; subst; apply same_eq; reflexivity.
    - cbn [set_next_pop q_become upd ret q_pop q_next_pop q_push q_next_push q_lock q_thr] in E. inversion E; subst; clear E.
      assert (Hx := H _ (or_introl eq_refl)). destruct pt as [|y]; cbn in *; [auto|].
      split; [intros ->; exfalso; lia|auto].
    - destruct (idx <? zlen (q_pop q)); [destruct (nth_error (q_pop q) (Z.to_nat idx)); [|discriminate E]|];
        inversion E; subst; apply same_eq; reflexivity.
    - assert (Hx := H _ (or_intror (or_introl eq_refl))).
      destruct (prevent_overflow idx (zlen (q_pop q)));
        cbn [set_next_pop q_become upd ret q_pop q_next_pop q_push q_next_push q_lock q_thr] in E; inversion E; subst; clear E;
        [|apply same_eq; reflexivity]. destruct pt as [|y]; cbn in *; [auto|]. split; [intros ->; exfalso; lia|auto].
    - destruct (q_next_push q =? 0); inversion E; subst; apply same_eq; reflexivity.
    - destruct (lk_writer (q_lock q)); [inversion E; subst; apply same_eq; reflexivity|].
      destruct (lk_readers (q_lock q)); inversion E; subst; apply same_eq; reflexivity.
    - apply (same_whole q q' t); apply H; cbn; auto.
    - destruct (lk_writer (q_lock q)); inversion E; subst; apply same_eq; reflexivity.
    - cbn [set_next_push q_become upd ret q_pop q_next_pop q_push q_next_push q_lock q_thr] in E. inversion E; subst; clear E.
      assert (Hx := H _ (or_introl eq_refl)). destruct pt as [|y]; cbn in *; [auto|].
      split; [auto|]. split; [intros ->; exfalso; lia|auto].
    - destruct (idx <? zlen (q_push q)).
      + cbn [set_arrays q_become upd ret q_pop q_next_pop q_push q_next_push q_lock q_thr] in E. inversion E; subst; clear E.
        assert (Hx := H _ (or_intror (or_intror (or_introl eq_refl)))). destruct pt as [|y]; cbn [same_at writes_at touches push_place q_pop q_push q_next_pop q_next_push] in *.
        * unfold zlen. rewrite set_nth_length. auto.
        * split; [auto|]. split; [auto|]. split; [auto|]. intros i ->. rewrite nth_set_other; [reflexivity|]. lia.
      + inversion E; subst; apply same_eq; reflexivity.
    - assert (Hx := H _ (or_intror (or_introl eq_refl))).
      destruct (prevent_overflow idx (zlen (q_push q)));
        cbn [set_next_push q_become upd ret q_pop q_next_pop q_push q_next_push q_lock q_thr] in E; inversion E; subst; clear E;
        [|apply same_eq; reflexivity]. destruct pt as [|y]; cbn in *; [auto|]. split; [auto|]. split; [intros ->; exfalso; lia|auto].
    - destruct (lk_writer (q_lock q)); [inversion E; subst; apply same_eq; reflexivity|].
      destruct (lk_readers (q_lock q)); inversion E; subst; apply same_eq; reflexivity.
    - apply (same_whole q q' t); apply H; cbn; auto.
    - inversion E; subst; apply same_eq; reflexivity.
    - inversion E; subst; apply same_eq; reflexivity.
  Qed.

  Lemma nth_ext_all {T} (l : list T) : forall l', (forall i, nth_error l i = nth_error l' i) -> l = l'.
  Proof.
    induction l as [|y l IH]; intros [|y' l'] H; auto.
    - discriminate (H 0%nat).
    - discriminate (H 0%nat).
    - pose proof (H 0%nat) as H0. cbn in H0. inversion H0; subst. f_equal. apply IH. intros i. apply (H (S i)).
  Qed.

  Lemma whole_eq (q q' h : qst X) t : q_lock h = q_lock q -> q_thr h = q_thr q ->
    (forall x, accesses (Acc t Root NaWrite) x \/ accesses (Acc t (whole q q') NaWrite) x -> same_at q h x) -> h = q.
  Proof.
    intros El Et H. destruct q as [a np b nu lk thr], h as [a' np' b' nu' lk' thr']. cbn [q_lock q_thr] in *. subst.
    pose proof (H PRoot (or_introl Logic.I)) as [E1 E2]. cbn [q_pop q_push] in E1, E2.
    pose proof (zlen_nonneg a). pose proof (zlen_nonneg (q_pop q')). pose proof (zlen_nonneg b). pose proof (zlen_nonneg (q_push q')).
    unfold whole in H. cbn [q_pop q_push accesses touches] in H.
    assert (Hb : forall x, -2 <= x < -2 + (2 * (zlen a + zlen (q_pop q') + zlen b + zlen (q_push q')) + 4) ->
      same_at (mkQ a np b nu lk thr) (mkQ a' np' b' nu' lk thr) (PByte x)) by (intros x L; apply H; right; exact L).
    destruct (Hb (-2) ltac:(lia)) as (N1 & _). destruct (Hb (-1) ltac:(lia)) as (_ & N2 & _). cbn in N1, N2.
    rewrite (N1 eq_refl), (N2 eq_refl). f_equal; symmetry.
    - apply nth_ext_all. intros i. destruct (Z.lt_ge_cases (Z.of_nat i) (zlen a)) as [L|L].
      + destruct (Hb (2 * Z.of_nat i) ltac:(lia)) as (_ & _ & N & _). apply (N i eq_refl).
      + assert (length a = length a') by (unfold zlen in E1; lia).
        transitivity (@None X); [|symmetry]; apply nth_error_None; unfold zlen in L; lia.
    - apply nth_ext_all. intros i. destruct (Z.lt_ge_cases (Z.of_nat i) (zlen b)) as [L|L].
      + destruct (Hb (2 * Z.of_nat i + 1) ltac:(lia)) as (_ & _ & _ & N). apply (N i eq_refl).
      + assert (length b = length b') by (unfold zlen in E2; lia).
        transitivity (@None (option X)); [|symmetry]; apply nth_error_None; unfold zlen in L; lia.
  Qed.

  (** A step does the same in every state that agrees on what its actions access (which result
      is recorded at line 77 is a matter of the history, not of the step). *)
  Definition agree (acts : list action) (q h : qst X) : Prop :=
    q_lock h = q_lock q /\ q_thr h = q_thr q /\ forall a x, In a acts -> accesses a x -> same_at q h x.

  Lemma qgo_reads t p (q : qst X) es q' h : match p with PopTake i | PushPut _ i => 0 <= i | _ => True end ->
    qgo vmax t p q = ORet es q' -> agree (qgo_acts t p q q') q h ->
    exists es' h', qgo vmax t p h = ORet es' h' /\ agree (qgo_acts t p q q') q' h'.
  Proof.
    intros Hidx E (El & Et & H).
    assert (Hsame : h = q -> exists es' h', qgo vmax t p h = ORet es' h' /\ agree (qgo_acts t p q q') q' h').
    { intros ->. exists es, q'. split; [exact E|]. split; [reflexivity|]. split; [reflexivity|].
      intros a x _ _. apply same_eq; reflexivity. }
    assert (Hflush : qgo_acts t p q q' = [Acc t Root NaWrite; Acc t (whole q q') NaWrite] ->
      exists es' h', qgo vmax t p h = ORet es' h' /\ agree (qgo_acts t p q q') q' h').
    { intros Ea. apply Hsame. apply (whole_eq q q' h t); auto. intros x Hx. rewrite Ea in H.
      destruct Hx as [Hx|Hx]; [apply (H (Acc t Root NaWrite))|apply (H (Acc t (whole q q') NaWrite))]; cbn [In]; auto. }
    destruct p; try (apply Hflush; reflexivity); clear Hflush Hsame;
      unfold qgo, bind, get_q in *; rewrite ?El; cbn [qgo_acts] in *.
    - inversion E; subst. eexists _, _. split; [reflexivity|]. split; auto.
    - destruct (lk_writer (q_lock q)).
      { inversion E; subst. eexists _, _. split; [reflexivity|]. split; auto. }
      inversion E; subst; clear E. eexists _, _. split; [reflexivity|].
      destruct (H (Acc t Root NaRead) PRoot) as [E1 E2]; [cbn; auto|exact Logic.I|].
      split; [reflexivity|]. split.
      + cbn. rewrite Et. f_equal. unfold zlen in E1. destruct (q_pop q), (q_pop h); cbn [length] in E1; auto; lia.
      + intros a x Ha Hx. exact (H a x Ha Hx).
    - cbn [set_next_pop q_become upd ret q_pop q_next_pop q_push q_next_push q_lock q_thr] in *. inversion E; subst; clear E.
      eexists _, _. split; [reflexivity|].
      destruct (H _ (PByte (-2)) (or_introl eq_refl)) as (E1 & _); [cbn; lia|]. rewrite (E1 eq_refl).
      split; [exact El|]. split; [cbn; rewrite Et; reflexivity|].
      intros a x Ha Hx. specialize (H a x Ha Hx). destruct x; cbn in *; [exact H|]. split; [reflexivity|apply H].
    - destruct (H (Acc t Root NaRead) PRoot) as [E1 E2]; [cbn; auto|exact Logic.I|].
      rewrite <- E1. destruct (Z.ltb_spec idx (zlen (q_pop q))) as [L|L].
      + destruct (nth_error (q_pop q) (Z.to_nat idx)) as [x|] eqn:Ex; [|discriminate E]. inversion E; subst; clear E.
        assert (Eh : nth_error (q_pop h) (Z.to_nat idx) = Some x).
        { destruct (H (Acc t (pop_place idx) NaWrite) (PByte (2 * idx))) as (_ & _ & E3 & _);
            [cbn; auto|cbn [accesses pop_place touches]; lia|].
          rewrite <- (E3 (Z.to_nat idx)); [exact Ex|lia]. }
        rewrite Eh. eexists _, _. split; [reflexivity|]. split; [exact El|]. split; [cbn; rewrite Et; reflexivity|].
        intros a y Ha Hy. exact (H a y Ha Hy).
      + inversion E; subst; clear E. eexists _, _. split; [reflexivity|]. split; [exact El|]. split; [cbn; rewrite Et; reflexivity|].
        intros a y Ha Hy. exact (H a y Ha Hy).
    - destruct (H (Acc t Root NaRead) PRoot) as [E1 E2]; [cbn; auto|exact Logic.I|]. rewrite <- E1.
      destruct (prevent_overflow idx (zlen (q_pop q)));
        cbn [set_next_pop q_become upd ret q_pop q_next_pop q_push q_next_push q_lock q_thr] in *; inversion E; subst; clear E;
        eexists _, _; (split; [reflexivity|]); (split; [exact El|]); (split; [cbn; rewrite Et; reflexivity|]);
        intros a y Ha Hy; specialize (H a y Ha Hy); [|exact H].
      destruct y; cbn in *; [exact H|]. split; [reflexivity|apply H].
    - destruct (H _ (PByte (-1)) (or_introl eq_refl)) as (_ & E1 & _); [cbn; lia|]. rewrite <- (E1 eq_refl).
      destruct (q_next_push q =? 0); inversion E; subst; clear E; eexists _, _; (split; [reflexivity|]);
        (split; [exact El|]); (split; [cbn; rewrite Et; reflexivity|]); intros a y Ha Hy; exact (H a y Ha Hy).
    - destruct (lk_writer (q_lock q)); [|destruct (lk_readers (q_lock q))]; inversion E; subst; clear E; eexists _, _;
        (split; [reflexivity|]); (split; [try exact El; reflexivity|]); (split; [cbn; rewrite Et; reflexivity|]); intros a y Ha Hy; exact (H a y Ha Hy).
    - destruct (lk_writer (q_lock q)).
      { inversion E; subst. eexists _, _. split; [reflexivity|]. split; auto. }
      inversion E; subst; clear E. eexists _, _. split; [reflexivity|].
      destruct (H (Acc t Root NaRead) PRoot) as [E1 E2]; [cbn; auto|exact Logic.I|].
      split; [reflexivity|]. split.
      + cbn. rewrite Et. f_equal. unfold zlen in E2. destruct (q_push q), (q_push h); cbn [length] in E2; auto; lia.
      + intros a y Ha Hy. exact (H a y Ha Hy).
    - cbn [set_next_push q_become upd ret q_pop q_next_pop q_push q_next_push q_lock q_thr] in *. inversion E; subst; clear E.
      eexists _, _. split; [reflexivity|].
      destruct (H _ (PByte (-1)) (or_introl eq_refl)) as (_ & E1 & _); [cbn; lia|]. rewrite (E1 eq_refl).
      split; [exact El|]. split; [cbn; rewrite Et; reflexivity|].
      intros a y Ha Hy. specialize (H a y Ha Hy). destruct y; cbn in *; [exact H|]. split; [apply H|]. split; [reflexivity|apply H].
    - destruct (H (Acc t Root NaRead) PRoot) as [E1 E2]; [cbn; auto|exact Logic.I|].
      rewrite <- E2. destruct (Z.ltb_spec idx (zlen (q_push q))) as [L|L].
      + cbn [set_arrays q_become upd ret q_pop q_next_pop q_push q_next_push q_lock q_thr] in *. inversion E; subst; clear E.
        eexists _, _. split; [reflexivity|]. split; [exact El|]. split; [cbn; rewrite Et; reflexivity|].
        intros a y Ha Hy. specialize (H a y Ha Hy). destruct y as [|y]; cbn [same_at q_pop q_push q_next_pop q_next_push] in *.
        * unfold zlen in *. rewrite !set_nth_length. exact H.
        * destruct H as (H1 & H2 & H3 & H4). split; [exact H1|]. split; [exact H2|]. split; [exact H3|].
          intros i Ei. specialize (H4 i Ei). destruct (Nat.eq_dec (Z.to_nat idx) i) as [En|En].
          -- rewrite En. destruct (nth_error (q_push q) i) as [s|] eqn:Es.
             ++ rewrite (nth_set_same _ _ _ _ Es). rewrite (nth_set_same _ _ _ _ (eq_sym H4)). reflexivity.
             ++ apply nth_error_None in Es. unfold zlen in L. lia.
          -- rewrite !nth_set_other by exact En. exact H4.
      + inversion E; subst; clear E. eexists _, _. split; [reflexivity|]. split; [exact El|]. split; [cbn; rewrite Et; reflexivity|].
        intros a y Ha Hy. exact (H a y Ha Hy).
    - destruct (H (Acc t Root NaRead) PRoot) as [E1 E2]; [cbn; auto|exact Logic.I|]. rewrite <- E2.
      destruct (prevent_overflow idx (zlen (q_push q)));
        cbn [set_next_push q_become upd ret q_pop q_next_pop q_push q_next_push q_lock q_thr] in *; inversion E; subst; clear E;
        eexists _, _; (split; [reflexivity|]); (split; [exact El|]); (split; [cbn; rewrite Et; reflexivity|]);
        intros a y Ha Hy; specialize (H a y Ha Hy); [|exact H].
      destruct y; cbn in *; [exact H|]. split; [apply H|]. split; [reflexivity|apply H].
    - destruct (lk_writer (q_lock q)); [|destruct (lk_readers (q_lock q))]; inversion E; subst; clear E; eexists _, _;
        (split; [reflexivity|]); (split; [try exact El; reflexivity|]); (split; [cbn; rewrite Et; reflexivity|]); intros a y Ha Hy; exact (H a y Ha Hy).
    - inversion E; subst; clear E. eexists _, _. split; [reflexivity|].
      split; [reflexivity|]. split; [cbn; rewrite Et; reflexivity|]. intros a y Ha Hy. exact (H a y Ha Hy).
    - inversion E; subst; clear E. eexists _, _. split; [reflexivity|].
      split; [reflexivity|]. split; [cbn; rewrite Et; reflexivity|]. intros a y Ha Hy. exact (H a y Ha Hy).
  Qed.
End Complete.

Section Reached.
  Context {X : Type}.
  Variable vmax : Z.
  Variable k : nat.
  Hypothesis Hvmax : 0 <= vmax /\ vmax + Z.of_nat k <= ISIZE_MAX.
  Variable n : nat.
  Hypothesis Hn : Z.of_nat n <= 2 ^ 63.

  Lemma reached_index sched es (q : qst X) t p : qrun vmax sched (qstart_slots k n) = ORet es q ->
    nth_error (q_thr q) t = Some p -> match p with PopTake i | PushPut _ i => 0 <= i | _ => True end.
  Proof.
    intros H Hp. pose proof (srun_ok vmax k Hvmax sched _ (slots_inv vmax k Hvmax n Hn)) as G. rewrite H in G.
    destruct G as (Hi & _). pose proof (s_pc _ _ _ Hi t p Hp) as Hpc. destruct p; cbn in *; tauto.
  Qed.

  Lemma slots_writes sched es (q : qst X) c es' q' x : qrun vmax sched (qstart_slots k n) = ORet es q ->
    qstep vmax c q = ORet es' q' -> (forall a, In a (qacts c q q') -> ~ writes_at a x) -> same_at q q' x.
  Proof.
    intros H E Ha. unfold qstep, bind, get_q in E. destruct c as [t o|t]; cbn [qacts] in Ha.
    - destruct (nth_error (q_thr q) t) as [p|]; [destruct p|]; inversion E; subst; apply same_eq; reflexivity.
    - destruct (nth_error (q_thr q) t) as [p|] eqn:Hp; [|inversion E; subst; apply same_eq; reflexivity].
      apply (qgo_writes vmax t p q es' q' x); auto. apply (reached_index sched es q t p H Hp).
  Qed.

  Lemma slots_reads sched es (q : qst X) c es' q' h : qrun vmax sched (qstart_slots k n) = ORet es q ->
    qstep vmax c q = ORet es' q' -> agree (qacts c q q') q h ->
    exists es2 h', qstep vmax c h = ORet es2 h' /\ agree (qacts c q q') q' h'.
  Proof.
    intros H E Ha. pose proof Ha as (El & Et & Hs). unfold qstep, bind, get_q in *. rewrite Et. destruct c as [t o|t]; cbn [qacts] in *.
    - destruct (nth_error (q_thr q) t) as [p|]; [destruct p|]; inversion E; subst; clear E;
        eexists _, _; (split; [reflexivity|]); try exact Ha. split; [exact El|]. split; [cbn; rewrite Et; reflexivity|].
      intros a x [].
    - destruct (nth_error (q_thr q) t) as [p|] eqn:Hp.
      + apply (qgo_reads vmax t p q es' q' h); auto. apply (reached_index sched es q t p H Hp).
      + inversion E; subst. eexists _, _. split; [reflexivity|exact Ha].
  Qed.

  Lemma slots_traced sched es (q : qst X) : qrun vmax sched (qstart_slots k n) = ORet es q ->
    exists tr, qtrace vmax sched (qstart_slots k n) = ORet tr q /\ race_free tr.
  Proof.
    intros H. pose proof (trace_run vmax sched (qstart_slots (X := X) k n)) as G. rewrite H in G.
    destruct (qtrace vmax sched (qstart_slots k n)) as [tr q1| | |] eqn:E; try contradiction. subst q1.
    exists tr. split; [reflexivity|]. apply (slots_race_free vmax k Hvmax n sched tr q Hn E).
  Qed.
End Reached.
