(** Nothing is written outside of what is allocated: threads on one [SyncBlinkAlloc] among
    other users of the underlying allocator, and threads on one [GlobalBlinkAlloc]. *)
From Coq Require Import Permutation.
From Verif Require Import Base BaseFacts Alloc AllocFacts Arena ArenaFacts ArenaInv ArenaOps BlinkAlloc BlinkFacts
  History HistoryFacts Frame ProxyFacts Setup SetupFacts SetupOps Conc ConcFacts ConcSteps ConcProps ConcAsk Race RaceFacts RaceSteps RaceFoot
  Shared SharedFacts GConc GConcFacts Stray StrayFacts StrayUse StrayConc.

Section Among.
  Variable su : setup.
  Hypothesis Hok : setup_ok su.
  Variable w0 : bworld.
  Variable ext : list ublock.
  Variable m1 : mem.
  Notation inv := (xinvx su false ext m1).
  Notation dbg := (su_dbg su).
  Notation brep := (arep (su_amax su) (bot su) (base_own (su_amax su) (su_bmax su))).
  Notation trep := (arep (su_amax su) (bot su) (tow su w0)).

  Lemma brep_tow cs ar w us : brep ext cs ar w us -> lore w0 w -> trep ext cs ar w us.
  Proof. intros [R1 R2 R3 R4 R5 R6 R7 R8] L. constructor; auto. split; assumption. Qed.
  Lemma trep_lore cs ar w us : trep ext cs ar w us -> lore w0 w.
  Proof. intros R. apply (ar_own _ _ _ _ _ _ _ _ R). Qed.

  (** Writes into chunks. *)
  Lemma lore_chunks cs ar w us w' : brep ext cs ar w us -> lore w0 w -> bw_trace w' = bw_trace w ->
    (forall x, (forall c, In c cs -> ~ in_u x (c_u c)) -> bw_mem w' x = bw_mem w x) -> lore w0 w'.
  Proof.
    intros R L T H. pose proof (lore_write (su_amax su) (su_bmax su) w0 w (map c_u cs ++ ext) (bw_mem w')) as X.
    destruct w' as [m' t']. cbn [bw_mem bw_trace] in *. subst t'. apply X.
    - split; [apply (ar_own _ _ _ _ _ _ _ _ R)|exact L].
    - intros x Hx. apply H. intros c Hc Hi. apply (Hx (c_u c)); [|exact Hi]. apply in_or_app; left; apply in_map, Hc.
  Qed.

  Lemma in_header cs ar w us r e x : brep ext cs ar w us -> root_is cs r e -> r + CURSOR <= x < r + CURSOR + 8 ->
    exists c, In c cs /\ in_u x (c_u c).
  Proof.
    intros R Hr Hx. destruct cs as [|c cs]; [contradiction|]. destruct Hr as [<- _]. exists c. split; [left; reflexivity|].
    destruct (arep_chunk_ok _ _ _ _ (su_ct su Hok) _ _ _ _ _ c R (or_introl eq_refl)) as (_ & _ & _ & _ & H & _).
    unfold in_u, c_ptr, CURSOR, HDR in *. lia.
  Qed.

  Lemma in_block cs ar w us u x : brep ext cs ar w us -> In u us -> in_u x u -> exists c, In c cs /\ in_u x (c_u c).
  Proof.
    intros R Hu Hx. pose proof (ar_placed _ _ _ _ _ _ _ _ R) as P. unfold ArenaFacts.placed in P. rewrite Forall_forall in P.
    destruct (P u Hu) as (c & Hc & H1 & H2). exists c. split; [exact Hc|].
    destruct (arep_chunk_ok _ _ _ _ (su_ct su Hok) _ _ _ _ _ c R Hc) as ((_ & _ & Wc) & _).
    unfold in_u, c_base, c_end, c_ptr, HDR in *. lia.
  Qed.

  (** What a step other than the slow path writes lies in chunks. *)
  Lemma go_inside cs g s t p g' x : inv cs g s -> nth_error (g_thr g) t = Some p -> (forall j, p <> Slow j) ->
    Exists (writes x) (go_acts t p g g') -> exists c, In c cs /\ in_u x (c_u c).
  Proof.
    intros C Hp Ns He. pose proof C as (R & _ & _ & _ & _ & Hpc & _). specialize (Hpc t p Hp).
    assert (Hcur : forall r, (exists e, root_is cs r e) -> writes x (cursor_of t r) -> exists c, In c cs /\ in_u x (c_u c)).
    { intros r [e Hr] Hx. apply (in_header cs _ _ _ r e x R Hr Hx). }
    destruct p; cbn [go_acts pc_ok] in *.
    - inversion He.
    - destruct (lk_writer (g_lock g)); [inversion He|]. inversion He as [? ? X|? ? X]; subst; [destruct X|].
      inversion X as [? ? Y|? ? Y]; subst; [destruct Y|inversion Y].
    - destruct Hpc as (_ & _ & Hr). inversion He as [? ? X|? ? X]; subst; [apply (Hcur r Hr X)|inversion X].
    - destruct Hpc as (_ & _ & _ & Hr). inversion He as [? ? X|? ? X]; subst; [destruct X|].
      inversion X as [? ? Y|? ? Y]; subst; [apply (Hcur r Hr Y)|inversion Y].
    - destruct Hpc as (_ & Hr & _). inversion He as [? ? X|? ? X]; subst; [apply (Hcur r Hr X)|].
      inversion X as [? ? Y|? ? Y]; subst; [destruct Y|inversion Y].
    - inversion He as [? ? X|? ? X]; subst; [|inversion X]. apply (Hcur r); [|exact X].
      destruct j; destruct Hpc as [_ Hpc]; try contradiction. destruct Hpc as (_ & _ & _ & e & Hr & _). eauto.
    - destruct Hpc as (_ & Hr & _). inversion He as [? ? X|? ? X]; subst; [apply (Hcur r Hr X)|inversion X].
    - destruct j as [|h u old new|]; try (inversion He; fail).
      destruct (i <? Z.min (l_size new) (l_size old)) eqn:Ei; [|inversion He].
      inversion He as [? ? X|? ? X]; subst; [destruct X|]. inversion X as [? ? Y|? ? Y]; subst; [|inversion Y].
      destruct Hpc as (_ & (_ & _ & G & _) & Hi & _). cbn in Y.
      apply (in_block cs _ _ _ (mkU (b_ptr b) (b_len b) new) x R).
      + apply in_or_app. right. apply in_flat_map. eexists. split; [apply (nth_error_In _ _ Hp)|]. left. reflexivity.
      + unfold in_u. cbn [u_ptr u_len]. lia.
    - apply Exists_exists in He. destruct He as (a & Ha & Hw).
      destruct Ha as [<-|Ha]; [destruct wr; destruct Hw|].
      destruct next; [destruct Ha|]. destruct h; [|destruct Ha]. destruct Ha as [<-|[]]. destruct Hw.
    - destruct (lk_writer (g_lock g)); [inversion He|]. destruct (lk_readers (g_lock g)); [|inversion He].
      inversion He as [? ? X|? ? X]; subst; [destruct X|inversion X].
    - destruct (Ns j eq_refl).
  Qed.

  Notation A := (bot su).
  Ltac load_w v H := apply wlp_on_w; intros v ?w H; apply pure_load in H; destruct H as [-> H];
    cbn [g_tab g_thr g_lock g_aw fst snd].
  Lemma go_writes_fast g t p sp : (forall j, p <> Slow j) -> nth_error (g_thr g) t = Some p ->
    wlp (go su t p sp) g (fun es g' => within (cmem g) (fun x => Exists (writes x) (go_acts t p g g')) (cmem g')).
  Proof.
    intros Ns Hp.
    assert (Hr : forall P, within (cmem g) P (cmem g)) by (intros P; apply within_refl).
    assert (Hsame : forall (m : M gst (list event)), (forall P, wlp m g (covered g P)) ->
      wlp m g (fun es g' => within (cmem g) (fun x => Exists (writes x) (go_acts t p g g')) (cmem g'))).
    { intros m H es g' E. apply (H _ es g' E). }
    assert (Hfix : forall (m : M gst (list event)) l, (forall g', go_acts t p g g' = l) ->
        wlp m g (covered g (fun x => Exists (writes x) l)) ->
      wlp m g (fun es g' => within (cmem g) (fun x => Exists (writes x) (go_acts t p g g')) (cmem g'))).
    { intros m l El H es g' E. rewrite El. apply (H es g' E). }
    destruct p; cbn [go].
    - apply Hsame. intros P. apply wlp_ret. apply Hr.
    - apply Hsame. intros P es g'. unfold bind, get_g. destruct (lk_writer (g_lock g)).
      { apply wlp_ret. apply Hr. }
      unfold put_lock. unfold enter.
      destruct (ar_root (fst (g_aw g))) as [r|], j; try (apply finish_cov; apply Hr); try (apply become_cov; apply Hr).
      destruct (l_align new <=? l_align old); [|apply become_cov; apply Hr].
      destruct (l_size new <=? l_size old); [apply finish_cov; apply Hr|apply become_cov; apply Hr].
    - apply Hsame. intros P. load_w v1 E1. apply become_cov; apply Hr.
    - apply (Hfix _ (go_acts t (Cas j r cursor) g g)); [reflexivity|].
      load_w v1 E1. apply wlp_on_w. intros a w1 Ea. apply pure_attempt in Ea. subst w1.
      cbn [g_tab g_thr g_lock g_aw fst snd].
      destruct a as [[aligned next]|]; [|apply become_cov; apply Hr].
      load_w v2 E2. destruct (negb sp && (v2 =? cursor)); [|apply become_cov; apply Hr].
      apply wlp_on_w. intros [] w1 Es. inversion Es; subst w1; clear Es.
      apply wlp_bind. intros len g1 E. apply pure_sub in E. subst g1.
      apply wlp_bind. intros [] g1 E. apply pure_assert in E. subst g1.
      apply wlp_bind. intros [] g1 E. apply pure_assert in E. subst g1. apply bump_cov.
      apply allocated_cov. apply within_store. intros x Hx. right; left. exact Hx.
    - apply Hsame. intros P.
      destruct j; try apply wlp_ub. apply wlp_bind. intros e g1 E. apply pure_ptr_add in E. destruct E as [-> _].
      load_w v1 E1. destruct (v1 =? e); [|apply become_cov; apply Hr].
      destruct (checked_add (u_ptr u) (l_size new)); [|apply become_cov; apply Hr].
      load_w v2 E2. destruct (v2 <? z); apply become_cov; apply Hr.
    - apply (Hfix _ (go_acts t (TipCas j r cursor) g g)); [reflexivity|].
      destruct j; try apply wlp_ub. apply wlp_bind. intros e g1 E. apply pure_ptr_add in E. destruct E as [-> _].
      load_w v1 E1. destruct (v1 =? cursor); [|apply become_cov; apply Hr].
      apply wlp_on_w. intros [] w1 Es. inversion Es; subst w1; clear Es.
      apply wlp_bind. intros len g1 E. apply pure_sub in E. subst g1.
      apply wlp_bind. intros [] g1 E. apply pure_assert in E. subst g1. apply bump_cov.
      apply finish_cov. apply within_store. intros x Hx. left. exact Hx.
    - apply (Hfix _ (go_acts t (FreeCas j r) g g)); [reflexivity|].
      destruct j; try apply wlp_ub. apply wlp_on_w. intros [] w' E. apply finish_cov.
      unfold cmem at 2. cbn [g_aw snd]. set (P := fun x => _). revert E.
      apply (wlp_elim _ (snd (g_aw g)) (fun _ w' => within (cmem g) P (bw_mem w'))).
      unfold chunk_dealloc, cell_cas.
      apply wlp_bind. intros nw w1 E. apply pure_ptr_add in E. destruct E as [-> _].
      apply wlp_bind. apply wlp_bind. intros v w1 E. apply pure_load in E. destruct E as [-> _].
      destruct (u_ptr u =? v); [|apply wlp_ret; apply wlp_ret; apply Hr].
      apply wlp_bind. eapply wlp_mono; [apply (mstore_cov su _ _ (snd (g_aw g)) P (cmem g) (Hr P))|].
      { intros x Hx. left. exact Hx. }
      intros _ w1 (H1 & _). apply wlp_ret. apply wlp_ret. exact H1.
    - destruct j; try (apply wlp_ub). cbv zeta. destruct (negb _); [apply wlp_ub|].
      destruct (i <? Z.min (l_size new) (l_size old)) eqn:Ei.
      2: apply Hsame; intros P; apply finish_cov; apply Hr.
      match type of Hp with _ = Some ?q => apply (Hfix _ (go_acts t q g g)) end; [reflexivity|]. cbn [go_acts]. rewrite Ei.
      apply wlp_on_w. intros [] w' E. apply become_cov. inversion E; subst w'.
      unfold cmem. cbn [g_aw snd bw_mem al_set_mem bot base al_mem]. intros x Hx.
      apply copy_other. destruct (Z.eq_dec x (b_ptr b + i)) as [->|N]; [|lia].
      destruct Hx. right; left. cbn. lia.
    - apply Hsame. intros P es g' E. unfold bind, get_g, put_lock in E. cbn in E.
      destruct next as [j|]; inversion E; subst; apply Hr.
    - apply Hsame. intros P es g' E. unfold bind, get_g in E.
      destruct (lk_writer (g_lock g)); [|destruct (lk_readers (g_lock g))]; inversion E; subst; apply Hr.
    - destruct (Ns j eq_refl).
  Qed.

  Lemma reset_lore cs g s keep : inv cs g s -> lore w0 (snd (g_aw g)) ->
    wp (do_reset su keep) (g_aw g) (fun _ aw' => lore w0 (snd aw')).
  Proof.
    intros (R & _ & Hm & _) L. pose proof (brep_tow _ _ _ _ R L) as T. unfold do_reset.
    destruct (g_aw g) as [ar w]. cbn [fst snd] in *. destruct keep.
    - eapply wp_mono; [apply (arena_reset_keep_ok (su_amax su) (su_bmax su) (bot su) (tow su w0) (tow_ct su Hok w0) ext cs ar w _ T)|].
      intros ? aw' (_ & _ & H). destruct cs as [|c cs]; [subst aw'; exact L|apply (trep_lore _ _ _ _ H)].
    - eapply wp_mono; [apply (arena_reset_final_ok (su_amax su) (su_bmax su) (bot su) (tow su w0) (tow_ct su Hok w0) ext cs ar w _ T)|].
      intros ? aw' (_ & _ & _ & _ & H). apply (trep_lore _ _ _ _ H).
  Qed.

  Lemma slow_lore cs g s t j sp es g' : inv cs g s -> lore w0 (snd (g_aw g)) -> nth_error (g_thr g) t = Some (Slow j) ->
    go su t (Slow j) sp g = ORet es g' -> lore w0 (snd (g_aw g')).
  Proof.
    intros C L Hp E. pose proof C as (R & Hh & Hm & _ & _ & Hpc & _). destruct (Hpc _ _ Hp) as (Hj & Tj).
    assert (Hl : req_ok (su_smax su) (job_layout j)).
    { destruct j; cbn in Hj |- *; [exact Hj|tauto|contradiction]. }
    pose proof (su_cfg su Hok) as Hcfg. rewrite <- Hm in Hcfg.
    pose proof (alloc_slow_ok (su_amax su) (su_smax su) (su_bmax su) (bot su) (tow su w0) (tow_ct su Hok w0) (su_amax_ok su Hok) dbg
           ext cs (fst (g_aw g)) (snd (g_aw g)) _ (job_layout j) (brep_tow _ _ _ _ R L) Hl (cfg_ok_for Hcfg)) as H.
    cbn [go] in E. unfold bind at 1, on_aw, arena_alloc_slow, with_aw in E. unfold bind at 1 in E.
    unfold wp in H. destruct (alloc_slow (bot su) dbg (ar_root (fst (g_aw g))) (ar_min (fst (g_aw g))) (job_layout j) (snd (g_aw g)))
      as [q w'| | |]; try contradiction.
    assert (L' : lore w0 w').
    { destruct H as (_ & H). destruct q as [[b q]|].
      - destruct H as (_ & _ & c & _ & _ & _ & _ & R2). apply (trep_lore _ _ _ _ R2).
      - destruct H as (_ & R2). apply (trep_lore _ _ _ _ R2). }
    assert (X : snd (g_aw g') = w').
    { destruct q as [[b q]|]; cbn [ret fst snd] in E.
      - unfold allocated in E. destruct j as [l|h u old new|h u l]; try (rewrite finish_eq in E); inversion E; reflexivity.
      - rewrite finish_eq in E. inversion E; reflexivity. }
    rewrite X. exact L'.
  Qed.

  Lemma cstep_lore cs g s c es g' : inv cs g s -> lore w0 (snd (g_aw g)) ->
    cstep su c g = ORet es g' -> lore w0 (snd (g_aw g')).
  Proof.
    intros C L E. pose proof E as E0. unfold cstep in E. unfold bind at 1, get_g in E. pose proof C as (R & Hh & _).
    assert (Hs : ret (A := list event) [] g = ORet es g' -> lore w0 (snd (g_aw g'))) by (intros X; inversion X; subst; exact L).
    assert (Hr : forall keep es0, (on_aw (do_reset su keep) ;;; put_tab (map (fun _ => None)) ;;; ret es0) g = ORet es g' ->
      lore w0 (snd (g_aw g'))).
    { intros keep es0 X. unfold bind, on_aw, put_tab, ret in X. pose proof (reset_lore cs g s keep C L) as Y. unfold wp in Y.
      destruct (do_reset su keep (g_aw g)) as [[] aw'| | |]; try contradiction. inversion X; subst. exact Y. }
    destruct c as [t o|t sp|t v|keep].
    - destruct (nth_error (g_thr g) t) as [p|] eqn:Hp; [|apply (Hs E)].
      destruct p; try (apply (Hs E)). unfold begin in E. unfold bind at 1, get_g in E.
      assert (Hb : forall j, (become t (WantRead j) ;;; ret [Call t o]) g = ORet es g' -> lore w0 (snd (g_aw g'))).
      { intros j X. inversion X; subst. exact L. }
      destruct o as [l z|h off cl|h l|h old new|h old new|keep]; try (apply (Hs E)).
      + destruct z; [apply (Hs E)|]. destruct (req_okb _ _); [apply (Hb _ E)|apply (Hs E)].
      + destruct (get h (g_tab g)) as [u|] eqn:G; [|apply (Hs E)].
        destruct (negb _ && _ && _) eqn:Ec; [|apply (Hs E)].
        apply andb_true_iff in Ec. destruct Ec as [Ec E3]. apply andb_true_iff in Ec. destruct Ec as [E1 E2].
        revert E. unfold bind, on_w, on_aw, with_aw, ret. cbn [fst snd]. intros E. inversion E; subst.
        cbn [g_aw snd]. apply (lore_chunks cs _ _ _ _ R L); [reflexivity|].
        intros x N. cbn [bw_mem al_set_mem bot base al_mem]. apply write_cells_other.
        assert (Hv : In u (live (g_tab g) ++ flat_map hold (g_thr g))).
        { apply in_or_app. left. apply live_in. eauto. }
        assert (~ in_u x u).
        { intros Hi. destruct (in_block cs _ _ _ u x R Hv Hi) as (c & Hc & Hx). apply (N c Hc Hx). }
        unfold in_u in *. lia.
      + destruct (get h (g_tab g)) as [u|]; [|apply (Hs E)]. destruct (negb _ && _); [apply (Hb _ E)|apply (Hs E)].
      + destruct (get h (g_tab g)) as [u|]; [|apply (Hs E)].
        destruct (negb _ && _ && _); [apply (Hb _ E)|apply (Hs E)].
      + destruct keep; [|apply (Hs E)]. destruct (forallb away (g_thr g)); [|apply (Hs E)]. apply (Hr _ _ E).
    - destruct (nth_error (g_thr g) t) as [p|] eqn:Hp; [|apply (Hs E)].
      assert (D : (exists j, p = Slow j) \/ forall j, p <> Slow j).
      { destruct p; try (right; discriminate). left; eauto. }
      destruct D as [(j & ->)|Ns]; [apply (slow_lore cs g s t j sp es g' C L Hp E)|].
      pose proof (go_trace su g t p sp Ns es g' E) as T.
      apply (lore_chunks cs _ _ _ _ R L T). intros x N.
      apply (go_writes_fast g t p sp Ns Hp es g' E x). intros He.
      destruct (go_inside cs g s t p g' x C Hp Ns He) as (c & Hc & Hx). apply (N c Hc Hx).
    - destruct (nth_error (g_thr g) t) as [p|] eqn:Hp; [|apply (Hs E)].
      destruct (stale_ok su t p v g es g' E) as [[-> ->]|[(-> & p' & Ep & ->)|(h & u & l & r & -> & F)]].
      + exact L.
      + exact L.
      + rewrite finish_eq in F. inversion F; subst. exact L.
    - destruct (forallb is_idle (g_thr g)); [|apply (Hs E)]. apply (Hr _ _ E).
  Qed.

End Among.

Section Shared.
  Variable su : setup.
  Hypothesis Hok : setup_ok su.
  Variable w0 : bworld.
  Notation here o := (snd (g_aw (o_g o))).

  Lemma ours_lore o s s2 c es g' : oinv su o s s2 -> lore w0 (here o) -> cstep su c (o_g o) = ORet es g' -> lore w0 (snd (g_aw g')).
  Proof. intros ((cs & X) & _) L E. apply (cstep_lore su Hok w0 _ _ cs (o_g o) s c es g' X L E). Qed.

  Lemma theirs_lore o s s2 a es o' : oinv su o s s2 -> lore w0 (here o) -> theirs su a o = ORet es o' -> lore w0 (here o').
  Proof.
    intros ((cs & R & _) & Ha2) L E. unfold omem in *.
    destruct o as [tab2 [tab thr k [ar w]]]. cbn [o_tab o_g g_tab g_thr g_lock g_aw fst snd] in *.
    pose proof (contract_framed (su_amax su) (su_bmax su) (bot su) (tow su w0) (map c_u cs) (bw_mem w) (tow_ct su Hok w0)) as Hct.
    assert (Hs : hinv (bot su) (framed (bot su) (tow su w0) (map c_u cs) (bw_mem w)) (mkCst tab2 w) s2).
    { split; [|exact Ha2]. split; [|apply same_on_refl]. cbn [c_w c_tab]. split; [|exact L].
      apply (ct_perm _ _ _ _ (su_ct su Hok) _ _ _ (ar_own _ _ _ _ _ _ _ _ R)). apply Permutation_app_comm. }
    assert (Hstep : (forall kp, a <> OpReset kp) ->
      wp (step (su_bmax su) (bot su) (fun _ => ret tt) a) (mkCst tab2 w) (fun r st => lore w0 (c_w st))).
    { intros Hn. eapply wp_mono; [apply (step_any (su_amax su) (su_bmax su) (bot su) _ (fun _ => ret tt) Hct a _ s2)|].
      - intros kp Ea. destruct (Hn kp Ea).
      - exact Hs.
      - intros r st [[Ho _] _]. apply Ho. }
    unfold theirs in E. cbn [o_tab o_g g_tab g_thr g_lock g_aw fst snd] in E.
    destruct a; try (specialize (Hstep ltac:(discriminate)); unfold wp in Hstep;
      match type of Hstep with match ?m with _ => _ end => destruct m as [r st| | |] end;
      try contradiction; inversion E; subst; exact Hstep).
    inversion E; subst. exact L.
  Qed.

  Lemma ostep_lore c o s s2 es o' : oinv su o s s2 -> lore w0 (here o) -> ostep su c o = ORet es o' -> lore w0 (here o').
  Proof.
    intros Hi L E. destruct c as [c|a]; cbn [ostep] in E; [|apply (theirs_lore _ _ _ _ _ _ Hi L E)].
    unfold bind, lift_g in E. destruct (cstep su c (o_g o)) as [es1 g'| | |] eqn:E1; try discriminate E.
    inversion E; subst. apply (ours_lore _ _ _ _ _ _ Hi L E1).
  Qed.

  Lemma orun_lore sched : forall o s s2 es o', oinv su o s s2 -> lore w0 (here o) -> orun su sched o = ORet es o' -> lore w0 (here o').
  Proof.
    induction sched as [|c sched IH]; intros o s s2 es o' Hi L E; cbn [orun] in E; [inversion E; subst; exact L|].
    unfold bind in E. destruct (ostep su c o) as [es1 o1| | |] eqn:E1; try discriminate E.
    destruct (orun su sched o1) as [es2 o2| | |] eqn:E2; try discriminate E. inversion E; subst.
    apply (IH o1 _ _ es2 o' (wp_elim _ _ _ _ _ (ostep_ok su Hok c o s s2 Hi) E1) (ostep_lore _ _ _ _ _ _ Hi L E1) E2).
  Qed.

  (** ** [GlobalBlinkAlloc] *)
  Notation mhere m := (here (m_o m)).

  (** A step leaves the allocator alone, or is one of its steps, or a call of the underlying allocator. *)
  Definition one_step (m m' : mst) : Prop :=
    m_o m' = m_o m \/ (exists c es g', cstep su c (m_g m) = ORet es g' /\ mhere m' = snd (g_aw g')) \/
    (exists a es, theirs su a (m_o m) = ORet es (m_o m')).

  Lemma inside_one c m es m' : inside_step su c m = ORet es m' -> one_step m m'.
  Proof.
    unfold inside_step, on_o, lift_g. intros E. change (o_g (m_o m)) with (m_g m) in E.
    destruct (cstep su c (m_g m)) as [es1 g'| | |] eqn:E1; try discriminate E. inversion E; subst.
    right; left. exists c, es, g'. split; [exact E1|reflexivity].
  Qed.
  Lemma enter_one t o q m es m' : enter_call su t o q m = ORet es m' -> one_step m m'.
  Proof.
    unfold enter_call, bind. destruct (inside_step su (Start t o) m) as [es1 m1| | |] eqn:E1; try discriminate.
    pose proof (inside_one _ _ _ _ E1) as H. destruct es1; intros E; inversion E; subst; exact H.
  Qed.
  Lemma direct_one a m es m' : direct su a m = ORet es m' -> one_step m m'.
  Proof.
    unfold direct, bind, on_o. destruct (theirs su a (m_o m)) as [es1 o1| | |] eqn:E1; try discriminate.
    intros E. inversion E; subst. right; right. exists a, es1. exact E1.
  Qed.
  Lemma thread_one t c n q m es m' : GConc.thread_step su t c n q m = ORet es m' -> one_step m m'.
  Proof.
    unfold GConc.thread_step, bind. destruct (inside_step su c m) as [es1 m1| | |] eqn:E1; try discriminate.
    pose proof (inside_one _ _ _ _ E1) as H. intros E; inversion E; subst; exact H.
  Qed.

  Lemma mstep_one c m es m' : mstep su c m = ORet es m' -> one_step m m'.
  Proof.
    assert (Hs : forall es0, ret es0 m = ORet es m' -> one_step m m') by (intros es0 E; inversion E; left; reflexivity).
    unfold mstep, mstep_at. destruct c as [t l z|t h|t h n|t h off cl|t|t sp|t v|t|o| |].
    - destruct (_ && _ && _); [|apply Hs]. destruct (m_on m); [apply enter_one|apply direct_one].
    - destruct (GConc.ready t m); [|apply Hs]. destruct (m_on m).
      + destruct (get h _); [|apply Hs]. destruct (hidden h m); [apply Hs|apply enter_one].
      + destruct (get h _); [|apply Hs]. apply direct_one.
    - destruct (_ && _); [|apply Hs]. destruct (m_on m).
      + destruct (get h _); [|apply Hs]. cbv zeta. destruct (_ || _); [apply Hs|apply enter_one].
      + destruct (get h _); [|apply Hs]. destruct (n =? _); [apply direct_one|apply Hs].
    - destruct (_ && _); [apply enter_one|apply Hs].
    - destruct (GConc.ready t m); [|apply Hs]. destruct (leak_check su m); [apply Hs|].
      intros E; inversion E; left; reflexivity.
    - destruct (nth_error (m_post m) t); [apply thread_one|apply Hs].
    - destruct (nth_error (m_post m) t); [apply thread_one|apply Hs].
    - destruct (nth_error (g_thr (m_g m)) t) as [p|]; [|apply Hs]. destruct p; try apply Hs.
      destruct (nth_error (m_post m) t) as [q|]; [|apply Hs]. destruct q; try apply Hs.
      + destruct (get h _); [apply enter_one|apply Hs].
      + intros E; inversion E; left; reflexivity.
      + intros E; inversion E; left; reflexivity.
      + destruct (existsb is_pending (m_post m)); [apply Hs|].
        unfold bind. destruct (inside_step su (Start t (OpReset true)) m) as [es1 m1| | |] eqn:E1; try discriminate.
        pose proof (inside_one _ _ _ _ E1) as H. destruct es1; intros E; inversion E; subst; exact H.
    - apply direct_one.
    - destruct (all_ready m); [|apply Hs]. intros E; inversion E; left; reflexivity.
    - destruct (all_ready m); [|apply Hs]. destruct (leak_check su m); [apply Hs|].
      unfold bind. destruct (inside_step su (Exclusive true) m) as [es1 m1| | |] eqn:E1; try discriminate.
      pose proof (inside_one _ _ _ _ E1) as H. intros E; inversion E; subst; exact H.
  Qed.

  Lemma mstep_lore c m s s2 es m' : minv su m s s2 -> lore w0 (mhere m) -> mstep su c m = ORet es m' -> lore w0 (mhere m').
  Proof.
    intros Hi L E. destruct (mstep_one c m es m' E) as [-> |[(c' & es1 & g' & E1 & ->)|(a & es1 & E1)]].
    - exact L.
    - apply (ours_lore _ _ _ _ _ _ (mi_o _ _ _ _ Hi) L E1).
    - apply (theirs_lore _ _ _ _ _ _ (mi_o _ _ _ _ Hi) L E1).
  Qed.

  Lemma mrun_lore sched : forall m s s2 es m', minv su m s s2 -> lore w0 (mhere m) -> mrun su sched m = ORet es m' -> lore w0 (mhere m').
  Proof.
    induction sched as [|c sched IH]; intros m s s2 es m' Hi L E; cbn [mrun] in E; [inversion E; subst; exact L|].
    unfold bind in E. destruct (mstep su c m) as [es1 m2| | |] eqn:E1; try discriminate E.
    destruct (mrun su sched m2) as [es2 m3| | |] eqn:E2; try discriminate E. inversion E; subst.
    pose proof (wp_elim _ _ _ _ _ (mstep_ok su Hok c m s s2 Hi) E1) as Hi2.
    eapply IH; [apply Hi2|apply (mstep_lore _ _ _ _ _ _ Hi L E1)|exact E2].
  Qed.
End Shared.

Lemma shared_tidy su n sched1 es1 o1 sched2 es2 o2 : setup_ok su ->
  orun su sched1 (ostart su n) = ORet es1 o1 -> orun su sched2 o1 = ORet es2 o2 ->
  no_stray (snd (g_aw (o_g o1))) (snd (g_aw (o_g o2))).
Proof.
  intros Hok E1 E2. apply lore_no_stray.
  apply (orun_lore su Hok (snd (g_aw (o_g o1))) sched2 o1 _ _ es2 o2 (oreached_inv su Hok n sched1 es1 o1 E1) (lore_start _) E2).
Qed.

Lemma global_threads_tidy su n sched1 es1 m1 sched2 es2 m2 : setup_ok su ->
  mrun su sched1 (mstart su n) = ORet es1 m1 -> mrun su sched2 m1 = ORet es2 m2 ->
  no_stray (snd (g_aw (m_g m1))) (snd (g_aw (m_g m2))).
Proof.
  intros Hok E1 E2. apply lore_no_stray.
  apply (mrun_lore su Hok (snd (g_aw (m_g m1))) sched2 m1 _ _ es2 m2 (mreached_inv su Hok n sched1 es1 m1 E1) (lore_start _) E2).
Qed.
