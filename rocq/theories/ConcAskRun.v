(** Every request of the shared arena to the underlying allocator, in whole runs; and a run in which
    two threads ask although one new chunk would have done. *)
From Verif Require Import Base BaseFacts Alloc AllocFacts Arena ArenaFacts ArenaInv ArenaOps
  BlinkAlloc BlinkFacts History HistoryFacts Setup SetupFacts SetupOps SetupProps Concrete Conc ConcFacts
  ConcSteps ConcProps ConcDemo ConcAsk Race RaceFacts RaceSteps RaceGrow ConcFull.

Section AskRun.
  Variable su : setup.
  Hypothesis Hok : setup_ok su.

  Lemma begin_asks t o g es g' : begin su t o g = ORet es g' -> asks (cupstream g') = asks (cupstream g).
  Proof.
    unfold begin, bind, get_g.
    assert (Hs : forall es0 : list event, ret es0 g = ORet es g' -> asks (cupstream g') = asks (cupstream g)).
    { intros es0 X. inversion X; subst. reflexivity. }
    assert (Hb : forall p es0, (become t p ;;; ret es0) g = ORet es g' -> asks (cupstream g') = asks (cupstream g)).
    { intros p es0 X. inversion X; subst. reflexivity. }
    destruct o as [l z|h off cl|h l|h old new|h old new|keep]; try (apply (Hs [])).
    - destruct z; [apply (Hs [])|]. destruct (req_okb _ _); [apply Hb|apply (Hs [])].
    - destruct (get h (g_tab g)); [|apply (Hs [])]. destruct (negb _ && _ && _); [|apply (Hs [])].
      unfold on_w, on_aw, with_aw, bind, ret. intros X; inversion X; subst. reflexivity.
    - destruct (get h (g_tab g)); [|apply (Hs [])]. destruct (negb _ && _); [apply Hb|apply (Hs [])].
    - destruct (get h (g_tab g)); [|apply (Hs [])]. destruct (negb _ && _ && _); [apply Hb|apply (Hs [])].
    - destruct keep; [|apply (Hs [])]. destruct (forallb away (g_thr g)); [|apply (Hs [])].
      unfold on_aw, put_tab, ret. destruct (do_reset su true (g_aw g)) as [[] [ar' w']| | |] eqn:Er; try discriminate.
      intros X; inversion X; subst. unfold cupstream. cbn [g_aw fst snd].
      destruct (g_aw g) as [ar w]. apply (reset_modest su _ _ _ _ _ _ Er).
  Qed.

  (** Only the slow path asks, once, for room for its request. *)
  Lemma step_asks g s c es g' : cinv su g s -> cstep su c g = ORet es g' ->
    asks (cupstream g') <> asks (cupstream g) ->
    exists t sp j lay r, c = Go t sp /\ nth_error (g_thr g) t = Some (Slow j) /\
      cupstream g' = EvAlloc lay r :: cupstream g /\ l_align lay = 8 /\
      rounded (wanted (su_min su) (outstanding (cupstream g)) (job_layout j)) (l_size lay).
  Proof.
    intros C E N. apply (sole_inv su (bw_mem bworld0)) in C. destruct C as (cs & C).
    unfold cstep, bind, get_g in E. destruct c as [t0 o0|t0 sp|t0 v|keep].
    - destruct (nth_error (g_thr g) t0) as [p|]; [|inversion E; subst; congruence].
      destruct p; try (inversion E; subst; congruence). destruct (N (begin_asks _ _ _ _ _ E)).
    - destruct (nth_error (g_thr g) t0) as [p|] eqn:Hp; [|inversion E; subst; congruence].
      assert (D : (exists j, p = Slow j) \/ forall j, p <> Slow j).
      { destruct p; try (right; discriminate). left; eauto. }
      destruct D as [(j & ->)|Ns]; [|destruct (go_calm su t0 p sp g Hp Ns es g' E) as (X & _); congruence].
      destruct g as [tab thr k [ar w]].
      destruct (slow_ask su Hok _ _ _ _ _ _ _ _ _ _ _ _ _ C Hp E)
        as (p' & _ & _ & _ & _ & [(_ & [(lay & T & _ & A1 & A2)|(T & _)])|((lay & b & T & A1 & A2) & _)]).
      + exists t0, sp, j, lay, None. auto 10.
      + rewrite T in N. congruence.
      + exists t0, sp, j, lay, (Some b). auto 10.
    - destruct (nth_error (g_thr g) t0) as [p|] eqn:Hp; [|inversion E; subst; congruence].
      destruct (stale_calm su t0 p v g Hp es g' E) as (X & _); congruence.
    - destruct (forallb is_idle (g_thr g)); [|inversion E; subst; congruence].
      unfold on_aw, put_tab, ret in E. destruct (do_reset su keep (g_aw g)) as [[] [ar' w']| | |] eqn:Er; try discriminate.
      inversion E; subst. destruct N. unfold cupstream. cbn [g_aw fst snd].
      destruct (g_aw g) as [ar w]. apply (reset_modest su _ _ _ _ _ _ Er).
  Qed.

  Lemma creached_asked n sched es g c es' g' :
    crun su sched (cstart su n) = ORet es g -> cstep su c g = ORet es' g' ->
    asks (cupstream g') <> asks (cupstream g) ->
    exists t sp j lay r, c = Go t sp /\ nth_error (g_thr g) t = Some (Slow j) /\
      (cupstream g' = EvAlloc lay r :: cupstream g /\ l_align lay = 8 /\
       rounded (wanted (su_min su) (outstanding (cupstream g)) (job_layout j)) (l_size lay)) /\
      exists sched1 sched2 es1 es2 g1, sched = sched1 ++ sched2 /\
        crun su sched1 (cstart su n) = ORet es1 g1 /\ crun su sched2 g1 = ORet es2 g /\
        same_call t es2 /\ no_room g1 (job_layout j).
  Proof.
    intros E E2 N.
    destruct (step_asks g _ c es' g' (creached_inv su Hok n sched es g E) E2 N)
      as (t & sp & j & lay & r & -> & Hp & T).
    destruct (creached_full su Hok n sched es g E) as [_ F].
    destruct (F t (Slow j) j Hp eq_refl) as (s1 & s2 & e1 & e2 & g1 & F1 & F2 & F3 & F4 & F5).
    exists t, sp, j, lay, r. split; [reflexivity|]. split; [exact Hp|]. split; [exact T|].
    exists s1, s2, e1, e2, g1. auto 10.
  Qed.

  Lemma crun_split n s1 s2 es g : crun su s1 (cstart su n) = ORet es g ->
    exists es2 g2, crun su s2 g = ORet es2 g2 /\ crun su (s1 ++ s2) (cstart su n) = ORet (es ++ es2) g2.
  Proof.
    intros E. destruct (crun_returns su Hok n (s1 ++ s2)) as (es3 & g3 & E3). pose proof E3 as E4.
    rewrite crun_app, E in E3. destruct (crun su s2 g) as [es2 g2| | |]; try discriminate.
    inversion E3; subst. eauto.
  Qed.
End AskRun.

(** Both threads find no chunk; thread 0 creates one, thread 1 is about to create another. *)
Definition both_full : list choice :=
  [Start 0 (OpAlloc (La 16 8) false); Start 1 (OpAlloc (La 16 8) false);
   Go 0 false; Go 1 false; Go 0 false; Go 1 false; Go 0 false; Go 0 false; Go 0 false].
(** Thread 1 goes on; or thread 0 asks for the same once more. *)
Definition go_on : list choice := times 2 1.
Definition once_more : list choice := Start 0 (OpAlloc (La 16 8) false) :: times 3 0.

Definition asked (n : nat) (sched : list choice) : nat := asks (cupstream (cfinal cs0 n sched)).

Lemma two_chunks_asked :
  asked 2 both_full = 1%nat /\ asked 2 (both_full ++ go_on) = 2%nat /\ asked 2 (both_full ++ once_more) = 1%nat /\
  (exists b, In (Lin 1 (OpAlloc (La 16 8) false) (Some b)) (cevents cs0 2 (both_full ++ go_on))) /\
  (exists b, In (Lin 0 (OpAlloc (La 16 8) false) (Some b)) (skipn (length (cevents cs0 2 both_full)) (cevents cs0 2 (both_full ++ once_more)))).
Proof.
  split; [vm_compute; reflexivity|]. split; [vm_compute; reflexivity|]. split; [vm_compute; reflexivity|].
  split; eexists; vm_compute; auto 10.
Qed.

Lemma fresh_cs0 : setup_ok cs0. Proof. apply demo_ok. Qed.

Lemma ret_inj {W B} (b b' : B) (w w' : W) : ORet b w = ORet b' w' -> b = b' /\ w = w'.
Proof. intros E. injection E. auto. Qed.

Lemma ask_with_room : exists su n sched es g t t2 l es1 g1 es2 g2 b,
  setup_ok su /\ crun su sched (cstart su n) = ORet es g /\
  crun su [Go t false; Go t false] g = ORet es1 g1 /\ asks (cupstream g1) = S (asks (cupstream g)) /\
  (exists j, nth_error (g_thr g) t = Some (WantWrite j) /\ job_layout j = l) /\
  crun su [Start t2 (OpAlloc l false); Go t2 false; Go t2 false; Go t2 false] g = ORet es2 g2 /\
  In (Lin t2 (OpAlloc l false) (Some b)) es2 /\ asks (cupstream g2) = asks (cupstream g).
Proof.
  pose proof (cfinal_reached cs0 2 both_full fresh_cs0) as E.
  destruct (crun_split cs0 fresh_cs0 2 both_full go_on _ _ E) as (es1 & g1 & E1 & F1).
  destruct (crun_split cs0 fresh_cs0 2 both_full once_more _ _ E) as (es2 & g2 & E2 & F2).
  pose proof (cfinal_reached cs0 2 (both_full ++ go_on) fresh_cs0) as G1. rewrite F1 in G1. apply ret_inj in G1. destruct G1 as [X1 Y1].
  pose proof (cfinal_reached cs0 2 (both_full ++ once_more) fresh_cs0) as G2. rewrite F2 in G2. apply ret_inj in G2. destruct G2 as [X2 Y2].
  destruct two_chunks_asked as (A0 & A1 & A2 & _ & (b & Hb)). unfold asked in *.
  exists cs0, 2%nat, both_full, (cevents cs0 2 both_full), (cfinal cs0 2 both_full), 1%nat, 0%nat, (La 16 8), es1, g1, es2, g2, b.
  split; [apply fresh_cs0|]. split; [exact E|]. split; [exact E1|]. split; [rewrite Y1, A1, A0; reflexivity|].
  split; [exists (JAlloc (La 16 8)); split; vm_compute; reflexivity|]. split; [exact E2|].
  split; [|rewrite Y2, A2, A0; reflexivity].
  rewrite <- X2 in Hb. rewrite skipn_app, skipn_all, Nat.sub_diag in Hb. exact Hb.
Qed.

(** Thread 0 gets a chunk; thread 1 needs another one. *)
Definition refused : list choice :=
  Start 0 (OpAlloc (La 400 8) false) :: times 5 0 ++ Start 1 (OpAlloc (La 400 8) false) :: times 7 1.
