(** Whatever GConcPaper.v allows happens under some schedule (C91). *)
From Coq Require Import Permutation.
From Verif Require Import Base BaseFacts Alloc AllocFacts Arena ArenaFacts ArenaInv ArenaOps
  BlinkAlloc BlinkFacts History HistoryFacts Setup SetupFacts Conc ConcFacts ConcSteps ConcProps ConcShape ConcDrain
  Paper PaperFacts ProxyPaper ProxyPaperFacts ConcPaper ConcPaperFacts ConcPaperAll Shared SharedFacts SharedPaper SharedPaperFacts
  SharedPaperAll GConc GConcFacts GConcPaper GConcPaperFacts.

Section All.
  Variable su : setup.
  Hypothesis Hok : setup_ok su.
  Notation dbg := (su_dbg su).
  Notation mstp := (mp_step (su_dbg su) (su_min su) (su_smax su) (su_bmax su) (su_strat su)).
  Notation mpr := (mp_run (su_dbg su) (su_min su) (su_smax su) (su_bmax su) (su_strat su)).
  Notation cstp := (cp_step (su_min su) (su_smax su) (su_strat su)).

  (** All threads are between two moves. *)
  Definition at_rest (m : mst) : Prop := forall t p, nth_error (g_thr (o_g (m_o m))) t = Some p -> settled p.
  Definition mgood (m : mst) (q : mpaper) : Prop := (exists s s2, minv su m s s2) /\ mshows m q /\ at_rest m.

  Lemma mgood_in m q : mgood m q -> ogood su (m_o m) (mp_o q).
  Proof. intros ((s & s2 & Hi) & (_ & _ & _ & Hs) & Ha). split; [exists s, s2; apply Hi|]. split; assumption. Qed.
  Lemma mgood_after m q sched es m' q' : mgood m q -> mrun su sched m = ORet es m' -> mshows m' q' -> at_rest m' -> mgood m' q'.
  Proof.
    intros ((s & s2 & Hi) & _) E Hs Ha. split; [|split; assumption].
    pose proof (mrun_ok su Hok sched m s s2 Hi) as H. unfold wp in H. rewrite E in H. eexists _, _. exact H.
  Qed.

  Definition happens (m : mst) (es : list mevent) (q' : mpaper) : Prop :=
    exists sched m', mrun su sched m = ORet es m' /\ mshows m' q' /\ at_rest m'.
  Lemma by_step c m es q' : (exists m', mstep_at su c m m = ORet es m' /\ mshows m' q' /\ at_rest m') -> happens m es q'.
  Proof.
    intros (m' & E & H). exists [c], m'. split; [|exact H]. cbn [mrun]. unfold bind, mstep. rewrite E. cbn. rewrite app_nil_r. reflexivity.
  Qed.

  Definition o_put (o : ost) (m : mst) : mst := mkMst (m_on m) (m_count m) (m_post m) o (m_lost m).
  Definition g_put (g : gst) (m : mst) : mst := o_put (mkO (o_tab (m_o m)) g) m.

  Lemma put_shows m q g' q1 : mgood m q -> good su false (live (o_tab (m_o m))) (omem (m_o m)) g' q1 ->
    mshows (g_put g' m) (mkMP (mp_on q) (mp_count q) (mp_post q) (mkOP (op_tab (mp_o q)) q1)) /\ at_rest (g_put g' m).
  Proof.
    intros Hg H. destruct (ogood_out su _ _ _ _ (mgood_in m q Hg) H) as (_ & Hs & Ha). destruct Hg as (_ & (X1 & X2 & X3 & _) & _).
    split; [|exact Ha]. split; [exact X1|]. split; [exact X2|]. split; [exact X3|exact Hs].
  Qed.

  Lemma inside_start t o m q es q1 : mgood m q -> inner (su_min su) (su_smax su) (su_strat su) (MCall t o) q = Some (es, q1) ->
    exists m1, inside_step su (Start t o) m = ORet es m1 /\ mshows m1 q1 /\ at_rest m1 /\ es <> [] /\ exists g', m1 = g_put g' m.
  Proof.
    intros Hg E. unfold inner in E. destruct (cstp (MCall t o) (op_in (mp_o q))) as [[e1 q2]|] eqn:Ec; [|discriminate E]. injection E as <- <-.
    destruct (call_step su Hok _ _ _ t o _ _ _ _ (ogood_in su _ _ (mgood_in m q Hg)) Ec) as (g' & R & Hg').
    destruct (put_shows m q g' q2 Hg Hg') as [H1 H2]. exists (g_put g' m). split; [unfold inside_step, on_o, lift_g; rewrite R; reflexivity|].
    split; [exact H1|]. split; [exact H2|]. split; [|exists g'; reflexivity]. intros ->. apply (call_loud su t o _ _ Ec).
  Qed.
  Lemma inside_exclusive m q es q1 : mgood m q -> inner (su_min su) (su_smax su) (su_strat su) (ConcPaper.MReset true) q = Some (es, q1) ->
    exists m1, inside_step su (Exclusive true) m = ORet es m1 /\ mshows m1 q1 /\ at_rest m1.
  Proof.
    intros Hg E. unfold inner in E. destruct (cstp (ConcPaper.MReset true) (op_in (mp_o q))) as [[e1 q2]|] eqn:Ec; [|discriminate E]. injection E as <- <-.
    destruct (reset_step su Hok _ _ _ true _ _ _ _ (ogood_in su _ _ (mgood_in m q Hg)) Ec) as (g' & R & Hg').
    destruct (put_shows m q g' q2 Hg Hg') as [H1 H2]. exists (g_put g' m). split; [unfold inside_step, on_o, lift_g; rewrite R; reflexivity|].
    auto.
  Qed.

  Lemma enter_happens t o p m q es q' : mgood m q -> calls_it (su_min su) (su_smax su) (su_strat su) t o p q = Some (es, q') ->
    exists m', enter_call su t o p m = ORet es m' /\ mshows m' q' /\ at_rest m'.
  Proof.
    intros Hg E. unfold calls_it in E. destruct (inner _ _ _ _ _) as [[e1 q1]|] eqn:Ei; [|discriminate E]. injection E as <- <-.
    destruct (inside_start t o m q e1 q1 Hg Ei) as (m1 & R & (X1 & X2 & X3 & X4) & Ha & Hne & _). unfold enter_call, bind. rewrite R.
    destruct e1 as [|e e1]; [destruct (Hne eq_refl)|]. unfold put_post, ret. eexists. split; [reflexivity|]. split; [|exact Ha].
    split; [exact X1|]. split; [exact X2|]. split; [cbn; rewrite X3; reflexivity|exact X4].
  Qed.
  Lemma direct_happens o m q es q' : mgood m q -> upstairs (su_min su) (su_smax su) (su_bmax su) (su_strat su) o q = Some (es, q') ->
    exists m', direct su o m = ORet es m' /\ mshows m' q' /\ at_rest m'.
  Proof.
    intros Hg E. unfold upstairs in E. destruct (op_step _ _ _ _ _ _) as [[e1 q1]|] eqn:Eo; [|discriminate E]. injection E as <- <-.
    destruct (theirs_happen su Hok o (m_o m) (mp_o q) e1 q1 (mgood_in m q Hg) Eo) as (o' & R & (_ & Hs & Ha)).
    exists (o_put o' m). split; [unfold direct, bind, on_o; rewrite R; reflexivity|]. split; [|exact Ha].
    destruct Hg as (_ & (X1 & X2 & X3 & _) & _). split; [exact X1|]. split; [exact X2|]. split; [exact X3|exact Hs].
  Qed.

  (** Several steps of a thread inside. *)
  Definition up (c : choice) : mchoice := match c with Go t sp => MGo t sp | Stale t v => MStale t v | _ => MBlink end.
  Definition asks_new (p : post) : bool := match p with PAlloc _ => true | _ => false end.

  Lemma after_app n es1 es2 p : after n (es1 ++ es2) p = after n es2 (after n es1 p).
  Proof. apply fold_left_app. Qed.
  Lemma after1_same n n' e p : asks_new p = false -> after1 n p e = after1 n' p e /\ asks_new (after1 n p e) = false.
  Proof. intros H. destruct e; cbn; auto. destruct p; cbn in *; auto; discriminate H. Qed.
  Lemma after_same n n' es : forall p, asks_new p = false -> after n es p = after n' es p.
  Proof.
    induction es as [|e es IH]; intros p H; [reflexivity|]. unfold after in *. cbn [fold_left].
    destruct (after1_same n n' e p H) as [E1 E2]. rewrite <- E1. apply IH, E2.
  Qed.
  Lemma after_kept n es : forall p, asks_new p = false -> asks_new (after n es p) = false.
  Proof. induction es as [|e es IH]; intros p H; [exact H|]. unfold after in *. cbn [fold_left]. apply IH, (after1_same n n e p H). Qed.
  Lemma after_lin n pre t o r p : asks_new (after n (pre ++ [Lin t o r]) p) = false.
  Proof.
    rewrite after_app. generalize (after n pre p). intros p1. destruct p1 as [|[]| | | | | |], r; reflexivity.
  Qed.

  Lemma own_shape t c g s ext m0 : own_step t c -> xinv su false ext m0 g s ->
    wp (cstep su c) g (fun es g' => xinv su false ext m0 g' (sevs es s) /\
      (length (g_tab g') = length (g_tab g) \/ exists pre o r, es = pre ++ [Lin t o r])).
  Proof.
    intros Hc Hi. pose proof (xcstep_ok su Hok false ext m0 g s c Hi) as H. apply wp_inv in H. destruct H as (es & g' & E & Hi').
    unfold wp. rewrite E. split; [exact Hi'|].
    assert (Hsh : forall p, nth_error (g_thr g) t = Some p -> shape t p g es g' ->
      length (g_tab g') = length (g_tab g) \/ exists pre o r, es = pre ++ [Lin t o r]).
    { intros p Hp [p' _ Et _ _ _ _|j r pre wr _ _ _ _ Ee _|wr h _ _ Et _]; [left; congruence|right; eauto|left; congruence]. }
    destruct c as [| t' sp|t' v|]; cbn in Hc; try contradiction; subst t'; unfold cstep, bind, get_g in E.
    - destruct (nth_error (g_thr g) t) as [p|] eqn:Hp; [|inversion E; subst; left; reflexivity].
      apply (Hsh p eq_refl). apply (go_shape su t p sp g Hp); [|exact E].
      destruct Hi as (cs & _ & _ & _ & _ & _ & Hpc & _). specialize (Hpc t p Hp). destruct p; cbn; auto. destruct next; auto. cbn in Hpc. tauto.
    - destruct (nth_error (g_thr g) t) as [p|] eqn:Hp; [|inversion E; subst; left; reflexivity].
      apply (Hsh p eq_refl). apply (stale_shape_ok su t p v g Hp). exact E.
  Qed.

  Definition with_inside (t : nat) (p : post) (g : gst) (m : mst) : mst :=
    mkMst (m_on m) (m_count m) (set_nth t p (m_post m)) (mkO (o_tab (m_o m)) g) (m_lost m).

  Lemma steps_inside t ext m0 n sched : forall m s p es g', Forall (own_step t) sched -> xinv su false ext m0 (o_g (m_o m)) s ->
    nth_error (m_post m) t = Some p -> (length (g_tab (o_g (m_o m))) = n \/ asks_new p = false) ->
    crun su sched (o_g (m_o m)) = ORet es g' ->
    mrun su (map up sched) m = ORet (ours es) (with_inside t (after n es p) g' m).
  Proof.
    induction sched as [|c sched IH]; intros m s p es g' Hf Hi Hp Hn E; cbn [map mrun crun] in *.
    - injection E as <- <-. unfold with_inside, after. cbn. rewrite (ConcFacts.set_nth_same _ _ _ Hp). destruct m as [? ? ? [] ?]; reflexivity.
    - unfold bind in *. pose proof (Forall_inv Hf) as Hc. apply Forall_inv_tail in Hf.
      pose proof (own_shape t c _ s ext m0 Hc Hi) as H. apply wp_inv in H. destruct H as (e1 & g1 & E1 & Hi1 & Hl). rewrite E1 in E.
      destruct (crun su sched g1) as [e2 g2| | |] eqn:E2; try discriminate E. injection E as <- <-.
      assert (R : mstep su (up c) m = ORet (ours e1) (with_inside t (after n e1 p) g1 m)).
      { unfold mstep. destruct c as [| t' sp|t' v|]; cbn in Hc; try contradiction; subst t'; cbn [up mstep_at];
          rewrite Hp; unfold thread_step, bind, inside_step, on_o, lift_g; rewrite E1; unfold put_post, ret, with_inside;
          cbn [m_on m_count m_post m_o m_lost]; unfold m_g; (destruct Hn as [->|Hn]; [reflexivity|]);
          rewrite (after_same (length (g_tab (o_g (m_o m)))) n e1 p Hn); reflexivity. }
      rewrite R. cbn [ret].
      rewrite (IH (with_inside t (after n e1 p) g1 m) (sevs e1 s) (after n e1 p) e2 g2 Hf Hi1); [| | |exact E2].
      + rewrite after_app. unfold with_inside. cbn [m_on m_count m_post m_o m_lost o_tab]. rewrite set_nth_twice. unfold ours. rewrite map_app. reflexivity.
      + cbn. apply (nth_set_same _ _ _ _ Hp).
      + cbn. destruct Hn as [Hn|Hn]; [|right; apply after_kept; exact Hn].
        destruct Hl as [Hl|(pre & o & r & ->)]; [left; congruence|right; apply after_lin].
  Qed.

  Lemma left_back t m q p : mshows m q -> left_to t q = Some p -> nth_error (g_thr (m_g m)) t = Some Idle /\ nth_error (m_post m) t = Some p.
  Proof.
    intros (_ & _ & H3 & _ & _ & _ & _ & H4) E. unfold left_to, mp_thr in E. unfold m_g. rewrite <- H3, <- H4 in E.
    destruct (nth_error (map doing_of (g_thr (o_g (m_o m)))) t) as [d|] eqn:Hd; [|discriminate E]. destruct d; try discriminate E.
    apply idle_none in Hd. destruct (nth_error (m_post m) t); [|discriminate E]. injection E as ->. auto.
  Qed.

  Lemma mmove_happens mv m q es q' : mgood m q -> mstp mv q = Some (es, q') -> happens m es q'.
  Proof.
    intros Hg E. pose proof Hg as (_ & Hs & Ha).
    assert (Ht : g_tab (m_g m) = mp_tab q) by apply Hs. assert (Ho : o_tab (m_o m) = op_tab (mp_o q)) by apply Hs.
    assert (Hon : m_on m = mp_on q) by apply Hs. assert (Hpo : m_post m = mp_post q) by apply Hs.
    assert (Hco : m_count m = mp_count q) by apply Hs.
    pose proof (fun t => free_ready t m q Hs) as Hf.
    assert (Hun : forall h, unseen h q = hidden h m) by (intros h; unfold unseen, hidden; rewrite Hpo; reflexivity).
    assert (Hlk : leaks dbg q = leak_check su m) by (unfold leaks, leak_check; rewrite Hco; reflexivity).
    pose proof (all_free_ready m q Hs) as Haf.
    destruct mv as [t l z|t h|t h n|t h off cl|t|t mv|t|t|t|t|o| |]; cbn [mp_step] in E.
    - rewrite Hf, <- Hon in E. destruct (ready t m && layout_okb l && (1 <=? l_size l)) eqn:Er; [|discriminate E].
      apply (by_step (MAlloc t l z)). cbn [mstep_at]. rewrite Er.
      destruct (m_on m); [apply (enter_happens t _ _ m q _ _ Hg E)|apply (direct_happens _ m q _ _ Hg E)].
    - rewrite Hf, <- Hon, <- Ht, <- Ho in E. destruct (ready t m) eqn:Er; [|discriminate E].
      apply (by_step (MDealloc t h)). cbn [mstep_at]. rewrite Er. destruct (m_on m).
      + destruct (get h (g_tab (m_g m))); [|discriminate E]. rewrite Hun in E. destruct (hidden h m); [discriminate E|]. apply (enter_happens t _ _ m q _ _ Hg E).
      + destruct (get h (o_tab (m_o m))); [|discriminate E]. apply (direct_happens _ m q _ _ Hg E).
    - rewrite Hf, <- Hon, <- Ht, <- Ho in E. destruct (ready t m && (1 <=? n)) eqn:Er; [|discriminate E].
      apply (by_step (MRealloc t h n)). cbn [mstep_at]. rewrite Er. destruct (m_on m).
      + destruct (get h (g_tab (m_g m))); [|discriminate E]. cbv zeta in *. rewrite Hun in E. destruct (_ || _); [discriminate E|]. apply (enter_happens t _ _ m q _ _ Hg E).
      + destruct (get h (o_tab (m_o m))); [|discriminate E]. destruct (n =? _); [|discriminate E]. apply (direct_happens _ m q _ _ Hg E).
    - rewrite Hf, Hun in E. destruct (ready t m && negb (hidden h m)) eqn:Er; [|discriminate E].
      apply (by_step (MWrite t h off cl)). cbn [mstep_at]. rewrite Er. apply (enter_happens t _ _ m q _ _ Hg E).
    - rewrite Hf, Hlk in E. destruct (ready t m) eqn:Er; [|discriminate E].
      apply (by_step (MReset t)). cbn [mstep_at]. rewrite Er. destruct (leak_check su m); injection E as <- <-.
      + exists m. auto.
      + eexists. split; [reflexivity|]. split; [|exact Ha]. destruct Hs as (X1 & X2 & X3 & X4). split; [exact X1|]. split; [exact X2|]. split; [cbn; rewrite X3; reflexivity|exact X4].
    - destruct (mover mv) as [t'|] eqn:Em; [|discriminate E]. destruct (nth_error (mp_post q) t) as [p|] eqn:Hp; [|discriminate E].
      destruct (Nat.eqb t' t) eqn:Et; [|discriminate E]. apply Nat.eqb_eq in Et. subst t'.
      unfold inner in E. destruct (cstp mv (op_in (mp_o q))) as [[e1 q1]|] eqn:Ec; [|discriminate E]. injection E as <- <-.
      destruct (move_happens su Hok _ _ _ mv _ _ _ _ (ogood_in su _ _ (mgood_in m q Hg)) Ec) as (sched & g' & R & Hg' & Hst).
      assert (Hst' : Forall (own_step t) sched).
      { eapply Forall_impl; [|exact Hst]. intros c Hc. destruct mv; cbn in Em, Hc; try discriminate Em; injection Em as <-; exact Hc. }
      pose proof (ogood_in su _ _ (mgood_in m q Hg)) as ((s & Hi) & _).
      assert (Hp' : nth_error (m_post m) t = Some p) by (rewrite Hpo; exact Hp).
      exists (map up sched), (with_inside t (after (length (mp_tab q)) e1 p) g' m).
      split; [apply (steps_inside t _ _ _ sched m s p e1 g' Hst' Hi Hp'); [left; rewrite <- Ht; reflexivity|exact R]|].
      destruct (put_shows m q g' q1 Hg Hg') as [(X1 & X2 & X3 & X4) H2]. split; [|exact H2].
      split; [exact X1|]. split; [exact X2|]. split; [cbn; rewrite Hpo; reflexivity|exact X4].
    - destruct (left_to t q) as [p|] eqn:El; [|discriminate E]. destruct (left_back t m q p Hs El) as [Hp Hq]. destruct p; try discriminate E.
      apply (by_step (MNext t)). cbn [mstep_at]. rewrite Hp, Hq. rewrite <- Ht in E.
      destruct (get h (g_tab (m_g m))); [|discriminate E]. apply (enter_happens t _ _ m q _ _ Hg E).
    - destruct (left_to t q) as [p|] eqn:El; [|discriminate E]. destruct (left_back t m q p Hs El) as [Hp Hq]. destruct p; try discriminate E.
      injection E as <- <-. apply (by_step (MNext t)). cbn [mstep_at]. rewrite Hp, Hq. unfold bind, add_count, put_post, ret. eexists. split; [reflexivity|]. split; [|exact Ha].
      destruct Hs as (X1 & X2 & X3 & X4). split; [exact X1|]. split; [cbn; rewrite X2; reflexivity|]. split; [cbn; rewrite X3; reflexivity|exact X4].
    - destruct (left_to t q) as [p|] eqn:El; [|discriminate E]. destruct (left_back t m q p Hs El) as [Hp Hq]. destruct p; try discriminate E.
      injection E as <- <-. apply (by_step (MNext t)). cbn [mstep_at]. rewrite Hp, Hq. unfold bind, add_count, put_post, ret. eexists. split; [reflexivity|]. split; [|exact Ha].
      destruct Hs as (X1 & X2 & X3 & X4). split; [exact X1|]. split; [cbn; rewrite X2; reflexivity|]. split; [cbn; rewrite X3; reflexivity|exact X4].
    - destruct (left_to t q) as [p|] eqn:El; [|discriminate E]. destruct (left_back t m q p Hs El) as [Hp Hq]. destruct p; try discriminate E.
      rewrite <- Hpo in E. destruct (existsb is_pending (m_post m)) eqn:Hn; [discriminate E|].
      unfold calls_it in E. destruct (inner _ _ _ _ _) as [[e1 q1]|] eqn:Ei; [|discriminate E]. injection E as <- <-.
      destruct (inside_start t _ m q e1 q1 Hg Ei) as (m1 & R & (X1 & X2 & X3 & X4) & Ha1 & Hne & g' & Em1).
      apply (by_step (MNext t)). cbn [mstep_at]. rewrite Hp, Hq, Hn. unfold bind. rewrite R.
      destruct e1 as [|e e1]; [destruct (Hne eq_refl)|]. unfold put_lost, put_post, ret. eexists. split; [reflexivity|]. split; [|exact Ha1].
      split; [exact X1|]. split; [exact X2|]. split; [cbn; rewrite X3; reflexivity|exact X4].
    - apply (by_step (MElse o)). apply (direct_happens _ m q _ _ Hg E).
    - rewrite Haf in E. destruct (all_ready m) eqn:Er; [|discriminate E]. injection E as <- <-.
      apply (by_step MBlink). cbn [mstep_at]. rewrite Er. eexists. split; [reflexivity|]. split; [|exact Ha].
      destruct Hs as (X1 & X2 & X3 & X4). split; [reflexivity|]. split; [exact X2|]. split; [exact X3|exact X4].
    - rewrite Haf, Hlk in E. destruct (all_ready m) eqn:Er; [|discriminate E]. apply (by_step MDirect). cbn [mstep_at]. rewrite Er.
      destruct (leak_check su m); [injection E as <- <-; exists m; auto|].
      destruct (inner _ _ _ _ _) as [[e1 q1]|] eqn:Ei; [|discriminate E]. injection E as <- <-.
      destruct (inside_exclusive m q e1 q1 Hg Ei) as (m1 & R & (X1 & X2 & X3 & X4) & Ha1). unfold bind. rewrite R.
      unfold put_lost, put_on, ret. eexists. split; [reflexivity|]. split; [|exact Ha1].
      split; [reflexivity|]. split; [exact X2|]. split; [exact X3|exact X4].
  Qed.

  Lemma mrun_app s1 : forall s2 m e1 m1, mrun su s1 m = ORet e1 m1 ->
    mrun su (s1 ++ s2) m = match mrun su s2 m1 with ORet e2 m2 => ORet (e1 ++ e2) m2 | OPanic w => OPanic w | OAbort => OAbort | OUB => OUB end.
  Proof.
    induction s1 as [|c s1 IH]; intros s2 m e1 m1 E; cbn [app mrun] in *.
    - injection E as <- <-. cbn. destruct (mrun su s2 m); reflexivity.
    - unfold bind in *. destruct (mstep su c m) as [ea ma| | |]; try discriminate E.
      destruct (mrun su s1 ma) as [eb mb| | |] eqn:Eb; try discriminate E. injection E as <- <-.
      rewrite (IH s2 ma eb mb Eb). destruct (mrun su s2 mb); try reflexivity. cbn. rewrite app_assoc. reflexivity.
  Qed.

  Lemma mmoves_happen ms : forall m q es q', mgood m q -> mpr ms q = Some (es, q') -> exists sched m', mrun su sched m = ORet es m' /\ mgood m' q'.
  Proof.
    induction ms as [|mv ms IH]; intros m q es q' Hg Em; cbn [mp_run] in Em.
    - injection Em as <- <-. exists [], m. split; [reflexivity|exact Hg].
    - destruct (mstp mv q) as [[es1 q1]|] eqn:E1; [|discriminate Em]. destruct (mpr ms q1) as [[es2 q2]|] eqn:E2; [|discriminate Em].
      injection Em as <- <-. destruct (mmove_happens mv m q es1 q1 Hg E1) as (s1 & m1 & R1 & H1 & H2).
      pose proof (mgood_after m q s1 es1 m1 q1 Hg R1 H1 H2) as Hg1.
      destruct (IH m1 q1 es2 q2 Hg1 E2) as (s2 & m2 & R2 & Hg2). exists (s1 ++ s2), m2. split; [|exact Hg2].
      rewrite (mrun_app _ _ _ _ _ R1), R2. reflexivity.
  Qed.

  Lemma mmoves_real n ms es q : mpr ms (mp0 n) = Some (es, q) -> exists sched m, mrun su sched (mstart su n) = ORet es m /\ mshows m q.
  Proof.
    intros E. destruct (ostart_shows su n) as [H1 H2].
    assert (Hg : mgood (mstart su n) (mp0 n)).
    { split; [exists [], []; apply (mstart_inv su Hok n)|]. split; [do 3 (split; [reflexivity|]); exact H1|].
      intros t p Hp. apply nth_error_In, repeat_spec in Hp. subst p. exact I. }
    destruct (mmoves_happen ms _ _ _ _ Hg E) as (sched & m & R & (_ & Hs & _)). exists sched, m. auto.
  Qed.
End All.
