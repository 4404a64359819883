(** Nothing is written outside of what is allocated: threads on one [SyncBlinkAlloc]. *)
From Coq Require Import Permutation.
From Verif Require Import Base BaseFacts Alloc AllocFacts Arena ArenaFacts ArenaInv ArenaOps BlinkAlloc BlinkFacts
  History HistoryFacts Setup SetupFacts SetupOps Conc ConcFacts ConcSteps ConcProps ConcAsk Race RaceFacts RaceSteps RaceFoot
  Stray StrayFacts StrayUse.

Section Threads.
  Variable su : setup.
  Hypothesis Hok : setup_ok su.
  Variable w0 : bworld.
  Notation dbg := (su_dbg su).
  Notation brep := (arep (su_amax su) (bot su) (base_own (su_amax su) (su_bmax su))).
  Notation trep := (arep (su_amax su) (bot su) (tow su w0)).

  Lemma brep_tow cs ar w us : brep [] cs ar w us -> lore w0 w -> trep [] cs ar w us.
  Proof. intros [R1 R2 R3 R4 R5 R6 R7 R8] L. constructor; auto. split; assumption. Qed.
  Lemma trep_lore cs ar w us : trep [] cs ar w us -> lore w0 w.
  Proof. intros R. apply (ar_own _ _ _ _ _ _ _ _ R). Qed.

  (** Writes into chunks. *)
  Lemma lore_chunks cs ar w us w' : brep [] cs ar w us -> lore w0 w -> bw_trace w' = bw_trace w ->
    (forall x, (forall c, In c cs -> ~ in_u x (c_u c)) -> bw_mem w' x = bw_mem w x) -> lore w0 w'.
  Proof.
    intros R L T H. pose proof (lore_write (su_amax su) (su_bmax su) w0 w (map c_u cs ++ []) (bw_mem w')) as X.
    destruct w' as [m' t']. cbn [bw_mem bw_trace] in *. subst t'. apply X.
    - split; [apply (ar_own _ _ _ _ _ _ _ _ R)|exact L].
    - intros x Hx. apply H. intros c Hc Hi. apply (Hx (c_u c)); [|exact Hi]. rewrite app_nil_r. apply in_map, Hc.
  Qed.

  Lemma in_header cs ar w us r e x : brep [] cs ar w us -> root_is cs r e -> r + CURSOR <= x < r + CURSOR + 8 ->
    exists c, In c cs /\ in_u x (c_u c).
  Proof.
    intros R Hr Hx. destruct cs as [|c cs]; [contradiction|]. destruct Hr as [<- _]. exists c. split; [left; reflexivity|].
    destruct (arep_chunk_ok _ _ _ _ (su_ct su Hok) _ _ _ _ _ c R (or_introl eq_refl)) as (_ & _ & _ & _ & H & _).
    unfold in_u, c_ptr, CURSOR, HDR in *. lia.
  Qed.

  Lemma in_block cs ar w us u x : brep [] cs ar w us -> In u us -> in_u x u -> exists c, In c cs /\ in_u x (c_u c).
  Proof.
    intros R Hu Hx. pose proof (ar_placed _ _ _ _ _ _ _ _ R) as P. unfold ArenaFacts.placed in P. rewrite Forall_forall in P.
    destruct (P u Hu) as (c & Hc & H1 & H2). exists c. split; [exact Hc|].
    destruct (arep_chunk_ok _ _ _ _ (su_ct su Hok) _ _ _ _ _ c R Hc) as ((_ & _ & Wc) & _).
    unfold in_u, c_base, c_end, c_ptr, HDR in *. lia.
  Qed.

  (** What a step other than the slow path writes lies in chunks. *)
  Lemma go_inside cs g s t p g' x : cinvx su cs g s -> nth_error (g_thr g) t = Some p -> (forall j, p <> Slow j) ->
    Exists (writes x) (go_acts t p g g') -> exists c, In c cs /\ in_u x (c_u c).
  Proof.
    intros C Hp Ns He. pose proof C as (R & _ & _ & _ & _ & Hpc & _). specialize (Hpc t p Hp).
    assert (Hcur : forall r, (exists e, root_is cs r e) -> writes x (cursor_of t r) -> exists c, In c cs /\ in_u x (c_u c)).
    { intros r [e Hr] Hx. apply (in_header cs _ _ _ r e x R Hr Hx). }
    destruct p; cbn [go_acts pc_ok] in *.
    - inversion He.
    - destruct (lk_writer (g_lock g)); [inversion He|]. inversion He as [? ? X|? ? X]; subst; [destruct X|].
      inversion X as [? ? Y|? ? Y]; subst; [destruct Y|inversion Y].
    - destruct Hpc as (_ & _ & Hr). inversion He as [? ? X|? ? X]; subst; [apply (Hcur r Hr X)|inversion X].
    - destruct Hpc as (_ & _ & _ & Hr). inversion He as [? ? X|? ? X]; subst; [destruct X|].
      inversion X as [? ? Y|? ? Y]; subst; [apply (Hcur r Hr Y)|inversion Y].
    - destruct Hpc as (_ & Hr & _). inversion He as [? ? X|? ? X]; subst; [apply (Hcur r Hr X)|].
      inversion X as [? ? Y|? ? Y]; subst; [destruct Y|inversion Y].
    - inversion He as [? ? X|? ? X]; subst; [|inversion X]. apply (Hcur r); [|exact X].
      destruct j; destruct Hpc as [_ Hpc]; try contradiction. destruct Hpc as (_ & _ & _ & e & Hr & _). eauto.
    - destruct Hpc as (_ & Hr & _). inversion He as [? ? X|? ? X]; subst; [apply (Hcur r Hr X)|inversion X].
    - destruct j as [|h u old new|]; try (inversion He; fail).
      destruct (i <? Z.min (l_size new) (l_size old)) eqn:Ei; [|inversion He].
      inversion He as [? ? X|? ? X]; subst; [destruct X|]. inversion X as [? ? Y|? ? Y]; subst; [|inversion Y].
      destruct Hpc as (_ & (_ & _ & G & _) & Hi & _). cbn in Y.
      apply (in_block cs _ _ _ (mkU (b_ptr b) (b_len b) new) x R).
      + apply in_or_app. right. apply in_flat_map. eexists. split; [apply (nth_error_In _ _ Hp)|]. left. reflexivity.
      + unfold in_u. cbn [u_ptr u_len]. lia.
    - apply Exists_exists in He. destruct He as (a & Ha & Hw).
      destruct Ha as [<-|Ha]; [destruct wr; destruct Hw|].
      destruct next; [destruct Ha|]. destruct h; [|destruct Ha]. destruct Ha as [<-|[]]. destruct Hw.
    - destruct (lk_writer (g_lock g)); [inversion He|]. destruct (lk_readers (g_lock g)); [|inversion He].
      inversion He as [? ? X|? ? X]; subst; [destruct X|inversion X].
    - destruct (Ns j eq_refl).
  Qed.

  (** Only the slow path calls the underlying allocator. *)
  Lemma go_trace g t p sp : (forall j, p <> Slow j) -> wlp (go su t p sp) g (fun es g' => bw_trace (snd (g_aw g')) = bw_trace (snd (g_aw g))).
  Proof.
    intros Hns. 
    assert (Hf : forall t j wr r g1, bw_trace (snd (g_aw g1)) = bw_trace (snd (g_aw g)) ->
      wlp (finish t j wr r) g1 (fun (es : list event) g' => bw_trace (snd (g_aw g')) = bw_trace (snd (g_aw g)))).
    { intros t0 j0 wr0 r0 g1 E1 es g' E. rewrite finish_eq in E. inversion E; subst. exact E1. }
    assert (Hb : forall t p g1 (es0 : list event), bw_trace (snd (g_aw g1)) = bw_trace (snd (g_aw g)) ->
      wlp (become t p ;;; ret es0) g1 (fun (es : list event) g' => bw_trace (snd (g_aw g')) = bw_trace (snd (g_aw g)))).
    { intros t0 p0 g1 es0 E1 es g' E. inversion E; subst. exact E1. }
    destruct p; cbn [go].
    - apply wlp_ret. reflexivity.
    - intros es g'. unfold bind, get_g. destruct (lk_writer (g_lock g)); [intros X; inversion X; reflexivity|].
      unfold put_lock. unfold enter.
      destruct (ar_root (fst (g_aw g))) as [r|], j; try (apply Hf; reflexivity); try (apply Hb; reflexivity).
      destruct (l_align new <=? l_align old); [|apply Hb; reflexivity].
      destruct (l_size new <=? l_size old); [apply Hf|apply Hb]; reflexivity.
    - apply wlp_on_w. intros v w' E. apply pure_load in E. destruct E as [-> _]. apply Hb; reflexivity.
    - apply wlp_on_w. intros v w' E. apply pure_load in E. destruct E as [-> _].
      apply wlp_on_w. intros a w1 Ea. apply pure_attempt in Ea. subst w1.
      destruct a as [[aligned next]|]; [|apply Hb; reflexivity].
      apply wlp_on_w. intros v2 w' E. apply pure_load in E. destruct E as [-> _].
      destruct (negb sp && (v2 =? cursor)); [|apply Hb; reflexivity].
      apply wlp_on_w. intros [] w1 Es. inversion Es; subst w1; clear Es.
      apply wlp_bind. intros len g1 E. apply pure_sub in E. subst g1.
      apply wlp_bind. intros [] g1 E. apply pure_assert in E. subst g1.
      apply wlp_bind. intros [] g1 E. apply pure_assert in E. subst g1.
      apply wlp_bind. unfold allocated. intros es g' E. apply wlp_ret. revert E.
      destruct j; [apply Hf|apply Hb|apply Hf]; reflexivity.
    - destruct j; try apply wlp_ub. apply wlp_bind. intros e g1 E. apply pure_ptr_add in E. destruct E as [-> _].
      apply wlp_on_w. intros v w' E. apply pure_load in E. destruct E as [-> _].
      destruct (v =? e); [|apply Hb; reflexivity].
      destruct (checked_add (u_ptr u) (l_size new)); [|apply Hb; reflexivity].
      apply wlp_on_w. intros v2 w' E. apply pure_load in E. destruct E as [-> _].
      destruct (v2 <? z); apply Hb; reflexivity.
    - destruct j; try apply wlp_ub. apply wlp_bind. intros e g1 E. apply pure_ptr_add in E. destruct E as [-> _].
      apply wlp_on_w. intros v w' E. apply pure_load in E. destruct E as [-> _].
      destruct (v =? cursor); [|apply Hb; reflexivity].
      apply wlp_on_w. intros [] w1 Es. inversion Es; subst w1; clear Es.
      apply wlp_bind. intros len g1 E. apply pure_sub in E. subst g1.
      apply wlp_bind. intros [] g1 E. apply pure_assert in E. subst g1.
      apply wlp_bind. intros es g' E. apply wlp_ret. revert E. apply Hf; reflexivity.
    - destruct j; try apply wlp_ub. apply wlp_on_w. intros [] w' E. apply Hf. cbn [g_aw snd].
      revert E. apply (wlp_elim _ (snd (g_aw g)) (fun _ w' => bw_trace w' = bw_trace (snd (g_aw g)))).
      unfold chunk_dealloc, cell_cas.
      apply wlp_bind. intros nw w1 E. apply pure_ptr_add in E. destruct E as [-> _].
      apply wlp_bind. apply wlp_bind. intros v w1 E. apply pure_load in E. destruct E as [-> _].
      destruct (u_ptr u =? v); [|apply wlp_ret; apply wlp_ret; reflexivity].
      apply wlp_bind. intros [] w1 Es. inversion Es; subst w1. apply wlp_ret. apply wlp_ret. reflexivity.
    - destruct j; try (apply wlp_ub). cbv zeta. destruct (negb _); [apply wlp_ub|].
      destruct (i <? Z.min (l_size new) (l_size old)); [|apply Hf; reflexivity].
      apply wlp_on_w. intros [] w' E. apply Hb. inversion E; subst w'. reflexivity.
    - intros es g' E. unfold bind, get_g, put_lock in E. cbn in E.
      destruct next as [j|]; inversion E; subst; reflexivity.
    - intros es g' E. unfold bind, get_g in E.
      destruct (lk_writer (g_lock g)); [|destruct (lk_readers (g_lock g))]; inversion E; subst; reflexivity.
    - destruct (Hns j eq_refl).
  Qed.

  Lemma reset_lore cs g s keep : cinvx su cs g s -> lore w0 (snd (g_aw g)) ->
    wp (do_reset su keep) (g_aw g) (fun _ aw' => lore w0 (snd aw')).
  Proof.
    intros (R & _ & Hm & _) L. pose proof (brep_tow _ _ _ _ R L) as T.
    eapply wp_mono; [apply (stow_reset su Hok w0 keep (g_aw g) (live (g_tab g) ++ flat_map hold (g_thr g)))|].
    - exists cs. split; [exact T|]. split; [exact I|exact Hm].
    - intros ? aw' H. destruct (over_own _ _ _ _ _ _ H) as (us' & _ & L'). exact L'.
  Qed.

  Lemma slow_lore cs g s t j sp es g' : cinvx su cs g s -> lore w0 (snd (g_aw g)) -> nth_error (g_thr g) t = Some (Slow j) ->
    go su t (Slow j) sp g = ORet es g' -> lore w0 (snd (g_aw g')).
  Proof.
    intros C L Hp E. pose proof C as (R & Hh & Hm & _ & _ & Hpc & _). destruct (Hpc _ _ Hp) as (Hj & Tj).
    assert (Hl : req_ok (su_smax su) (job_layout j)).
    { destruct j; cbn in Hj |- *; [exact Hj|tauto|contradiction]. }
    pose proof (su_cfg su Hok) as Hcfg. rewrite <- Hm in Hcfg.
    pose proof (alloc_slow_ok (su_amax su) (su_smax su) (su_bmax su) (bot su) (tow su w0) (tow_ct su Hok w0) (su_amax_ok su Hok) dbg
           [] cs (fst (g_aw g)) (snd (g_aw g)) _ (job_layout j) (brep_tow _ _ _ _ R L) Hl (cfg_ok_for Hcfg)) as H.
    cbn [go] in E. unfold bind at 1, on_aw, arena_alloc_slow, with_aw in E. unfold bind at 1 in E.
    unfold wp in H. destruct (alloc_slow (bot su) dbg (ar_root (fst (g_aw g))) (ar_min (fst (g_aw g))) (job_layout j) (snd (g_aw g)))
      as [q w'| | |]; try contradiction.
    assert (L' : lore w0 w').
    { destruct H as (_ & H). destruct q as [[b q]|].
      - destruct H as (_ & _ & c & _ & _ & _ & _ & R2). apply (trep_lore _ _ _ _ R2).
      - destruct H as (_ & R2). apply (trep_lore _ _ _ _ R2). }
    assert (X : snd (g_aw g') = w').
    { destruct q as [[b q]|]; cbn [ret fst snd] in E.
      - unfold allocated in E. destruct j as [l|h u old new|h u l]; try (rewrite finish_eq in E); inversion E; reflexivity.
      - rewrite finish_eq in E. inversion E; reflexivity. }
    rewrite X. exact L'.
  Qed.

  Lemma cstep_lore cs g s c es g' : cinvx su cs g s -> lore w0 (snd (g_aw g)) ->
    cstep su c g = ORet es g' -> lore w0 (snd (g_aw g')).
  Proof.
    intros C L E. pose proof E as E0. unfold cstep in E. unfold bind at 1, get_g in E. pose proof C as (R & Hh & _).
    assert (Hs : ret (A := list event) [] g = ORet es g' -> lore w0 (snd (g_aw g'))) by (intros X; inversion X; subst; exact L).
    assert (Hr : forall keep es0, (on_aw (do_reset su keep) ;;; put_tab (map (fun _ => None)) ;;; ret es0) g = ORet es g' ->
      lore w0 (snd (g_aw g'))).
    { intros keep es0 X. unfold bind, on_aw, put_tab, ret in X. pose proof (reset_lore cs g s keep C L) as Y. unfold wp in Y.
      destruct (do_reset su keep (g_aw g)) as [[] aw'| | |]; try contradiction. inversion X; subst. exact Y. }
    destruct c as [t o|t sp|t v|keep].
    - destruct (nth_error (g_thr g) t) as [p|] eqn:Hp; [|apply (Hs E)].
      destruct p; try (apply (Hs E)). unfold begin in E. unfold bind at 1, get_g in E.
      assert (Hb : forall j, (become t (WantRead j) ;;; ret [Call t o]) g = ORet es g' -> lore w0 (snd (g_aw g'))).
      { intros j X. inversion X; subst. exact L. }
      destruct o as [l z|h off cl|h l|h old new|h old new|keep]; try (apply (Hs E)).
      + destruct z; [apply (Hs E)|]. destruct (req_okb _ _); [apply (Hb _ E)|apply (Hs E)].
      + destruct (get h (g_tab g)) as [u|] eqn:G; [|apply (Hs E)].
        destruct (negb _ && _ && _) eqn:Ec; [|apply (Hs E)].
        apply andb_true_iff in Ec. destruct Ec as [Ec E3]. apply andb_true_iff in Ec. destruct Ec as [E1 E2].
        revert E. unfold bind, on_w, on_aw, with_aw, ret. cbn [fst snd]. intros E. inversion E; subst.
        cbn [g_aw snd]. apply (lore_chunks cs _ _ _ _ R L); [reflexivity|].
        intros x N. cbn [bw_mem al_set_mem bot base al_mem]. apply write_cells_other.
        assert (Hv : In u (live (g_tab g) ++ flat_map hold (g_thr g))).
        { apply in_or_app. left. apply live_in. eauto. }
        assert (~ in_u x u).
        { intros Hi. destruct (in_block cs _ _ _ u x R Hv Hi) as (c & Hc & Hx). apply (N c Hc Hx). }
        unfold in_u in *. lia.
      + destruct (get h (g_tab g)) as [u|]; [|apply (Hs E)]. destruct (negb _ && _); [apply (Hb _ E)|apply (Hs E)].
      + destruct (get h (g_tab g)) as [u|]; [|apply (Hs E)].
        destruct (negb _ && _ && _); [apply (Hb _ E)|apply (Hs E)].
      + destruct keep; [|apply (Hs E)]. destruct (forallb away (g_thr g)); [|apply (Hs E)]. apply (Hr _ _ E).
    - destruct (nth_error (g_thr g) t) as [p|] eqn:Hp; [|apply (Hs E)].
      assert (D : (exists j, p = Slow j) \/ forall j, p <> Slow j).
      { destruct p; try (right; discriminate). left; eauto. }
      destruct D as [(j & ->)|Ns]; [apply (slow_lore cs g s t j sp es g' C L Hp E)|].
      pose proof (go_trace g t p sp Ns es g' E) as T.
      apply (lore_chunks cs _ _ _ _ R L T). intros x N.
      apply (go_writes su Hok cs g s t p sp C Hp es g' E x). intros He.
      destruct (go_inside cs g s t p g' x C Hp Ns He) as (c & Hc & Hx). apply (N c Hc Hx).
    - destruct (nth_error (g_thr g) t) as [p|] eqn:Hp; [|apply (Hs E)].
      destruct (stale_ok su t p v g es g' E) as [[-> ->]|[(-> & p' & Ep & ->)|(h & u & l & r & -> & F)]].
      + exact L.
      + exact L.
      + rewrite finish_eq in F. inversion F; subst. exact L.
    - destruct (forallb is_idle (g_thr g)); [|apply (Hs E)]. apply (Hr _ _ E).
  Qed.

  Lemma crun_lore sched : forall g s es g', cinv su g s -> lore w0 (snd (g_aw g)) ->
    crun su sched g = ORet es g' -> lore w0 (snd (g_aw g')).
  Proof.
    induction sched as [|c sched IH]; intros g s es g' Ci L E; cbn [crun] in E.
    - inversion E; subst. exact L.
    - unfold bind in E. destruct (cstep su c g) as [es1 g1| | |] eqn:E1; try discriminate E.
      destruct (crun su sched g1) as [es2 g2| | |] eqn:E2; try discriminate E. inversion E; subst.
      destruct Ci as (cs & C). pose proof (cstep_lore cs g s c es1 g1 C L E1) as L1.
      pose proof (cstep_ok su Hok g s c (ex_intro _ cs C)) as X. unfold wp in X. rewrite E1 in X.
      apply (IH g1 _ es2 g' X L1 E2).
  Qed.
End Threads.

Lemma threads_tidy su n sched1 es1 g1 sched2 es2 g2 : setup_ok su ->
  crun su sched1 (cstart su n) = ORet es1 g1 -> crun su sched2 g1 = ORet es2 g2 ->
  no_stray (snd (g_aw g1)) (snd (g_aw g2)).
Proof.
  intros Hok E1 E2. apply lore_no_stray.
  apply (crun_lore su Hok (snd (g_aw g1)) sched2 g1 _ es2 g2 (creached_inv su Hok n sched1 es1 g1 E1) (lore_start _) E2).
Qed.
