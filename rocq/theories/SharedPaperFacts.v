(** Threads and others do what SharedPaper.v says (C90). *)
From Coq Require Import Permutation.
From Verif Require Import Base BaseFacts Alloc AllocFacts Arena ArenaFacts ArenaInv ArenaOps
  BlinkAlloc BlinkFacts History HistoryFacts Setup SetupFacts Frame ProxyFacts Conc ConcFacts ConcSteps
  Paper PaperFacts ProxyPaper ProxyPaperFacts ConcPaper ConcPaperFacts Shared SharedFacts SharedPaper.

Section Facts.
  Variable su : setup.
  Hypothesis Hok : setup_ok su.
  Notation amax := (su_amax su).
  Notation bown := (base_own (su_amax su) (su_bmax su)).
  Notation A := (bot su).
  Notation ctx := (su_ct su Hok).
  Notation their_call := (their_call (su_bmax su) (su_strat su)).
  Notation ostp := (op_step (su_min su) (su_smax su) (su_bmax su) (su_strat su)).
  Notation opr := (op_run (su_min su) (su_smax su) (su_bmax su) (su_strat su)).

  (** ** What the others do *)

  (** The answer, their blocks and the calls are those on paper, if the call returns. *)
  Lemma base_says o tab w r st : (forall k, o <> OpReset k) ->
    step (su_bmax su) A (fun _ => ret tt) o (mkCst tab w) = ORet r st ->
    their_call o tab (bw_trace w) = (r, c_tab st, bw_trace (c_w st)).
  Proof.
    intros Hn. unfold step, step_at, SharedPaper.their_call. cbn [c_tab].
    destruct o as [l z|h off cl|h l|h old new|h old new|k].
    - destruct (req_okb (su_bmax su) l) eqn:El; [|intros E; injection E as <- <-; reflexivity].
      unfold call. cbn [c_w c_tab]. unfold al_allocate_zeroed. cbn [bot base al_allocate]. unfold base_allocate.
      destruct z; unfold bind; rewrite El; cbn [negb]; [|intros E; injection E as <- <-; reflexivity].
      destruct (st_alloc (su_strat su) (bw_trace w) l) as [b|]; cbn; intros E; injection E as <- <-; reflexivity.
    - destruct (get h tab) as [u|]; [|intros E; injection E as <- <-; reflexivity].
      destruct (_ && _); intros E; injection E as <- <-; reflexivity.
    - destruct (get h tab) as [u|]; [|intros E; injection E as <- <-; reflexivity].
      destruct (fitsb l u); [|intros E; injection E as <- <-; reflexivity].
      unfold bind, call. cbn [c_w c_tab bot base al_deallocate]. unfold base_deallocate.
      destruct (negb _); [discriminate|]. destruct (remove_fit _ _ _); [|discriminate].
      intros E; injection E as <- <-. reflexivity.
    - destruct (get h tab) as [u|]; [|intros E; injection E as <- <-; reflexivity].
      destruct (fitsb old u && req_okb (su_bmax su) new); [|intros E; injection E as <- <-; reflexivity].
      unfold call. cbn [c_w c_tab bot base al_grow al_shrink]. unfold base_grow, base_shrink.
      destruct (l_size old <=? l_size new) eqn:Eg.
      + unfold base_resize. destruct (negb _); [discriminate|]. destruct (remove_fit _ _ _); [|discriminate].
        intros E; injection E as <- <-. reflexivity.
      + replace (l_size new <=? l_size old) with true by lia.
        unfold base_resize. destruct (negb _); [discriminate|]. destruct (remove_fit _ _ _); [|discriminate].
        intros E; injection E as <- <-. reflexivity.
    - destruct (get h tab) as [u|]; [|intros E; injection E as <- <-; reflexivity].
      destruct (fitsb old u && req_okb (su_bmax su) new && (l_size old <=? l_size new)) eqn:Ef; [|intros E; injection E as <- <-; reflexivity].
      assert (El : req_okb (su_bmax su) new = true) by (destruct (req_okb (su_bmax su) new); [reflexivity|rewrite andb_false_r in Ef; discriminate Ef]).
      unfold call. cbn [c_w c_tab]. unfold al_grow_zeroed, al_allocate_zeroed. cbn [bot base al_allocate al_deallocate]. unfold base_allocate, bind.
      rewrite El. cbn [negb]. destruct (st_alloc (su_strat su) (bw_trace w) new) as [b|].
      + cbn [mfill al_set_mem al_mem base bot ret]. cbv beta. unfold mcopy.
        destruct (_ || _); [|discriminate]. unfold base_deallocate. destruct (negb _); [discriminate|]. destruct (remove_fit _ _ _); [|discriminate].
        intros E; injection E as <- <-. reflexivity.
      + cbn. intros E; injection E as <- <-. reflexivity.
    - destruct (Hn k eq_refl).
  Qed.

  (** They leave the arena alone. *)
  Lemma theirs_exact cs o s s2 a q : xinvx su false (live (o_tab o)) (omem o) cs (o_g o) s -> agrees (omem o) (o_tab o) s2 ->
    oshows o q -> paced (cp_chunks (op_in q)) (g_thr (o_g o)) ->
    wp (theirs su a) o (fun es o' =>
      exists ms q', opr ms q = Some (es, q') /\ (length ms <= 1)%nat /\ Forall (eq (ByThem a)) ms /\ oshows o' q' /\
        paced (cp_chunks (op_in q')) (g_thr (o_g o'))).
  Proof.
    intros (R & _ & Hm & Ha & Hlk & Hpc & Hd) Ha2 Hs Hpa. pose proof Hs as [Ht Hg]. unfold omem in *.
    destruct o as [tab2 [tab thr k [ar w]]]. cbn [o_tab o_g g_tab g_thr g_lock g_aw fst snd] in *.
    destruct q as [tabq q]. cbn [op_tab op_in] in *. subst tabq.
    assert (Hstep : (forall kp, a <> OpReset kp) ->
      wp (step (su_bmax su) A (fun _ => ret tt) a) (mkCst tab2 w) (fun r st =>
        exists ms q', opr ms (mkOP tab2 q) = Some ([TheirEv a r], q') /\ (length ms <= 1)%nat /\ Forall (eq (ByThem a)) ms /\
          oshows (mkO (c_tab st) (mkG tab thr k (ar, c_w st))) q' /\ paced (cp_chunks (op_in q')) thr)).
    { intros Hn.
      pose proof (contract_framed amax (su_bmax su) A bown (map c_u cs) (bw_mem w) ctx) as Hct.
      assert (Hi : hinv A (framed A bown (map c_u cs) (bw_mem w)) (mkCst tab2 w) s2).
      { split; [|exact Ha2]. split; [|apply same_on_refl]. cbn [c_w c_tab].
        apply (ct_perm _ _ _ _ ctx _ _ _ (ar_own _ _ _ _ _ _ _ _ R)). apply Permutation_app_comm. }
      pose proof (step_any amax (su_bmax su) A _ (fun _ => ret tt) Hct a _ s2 (fun kp E => match Hn kp E with end) Hi) as H.
      apply wp_inv in H. destruct H as (r & [tab2' w'] & E & [Ho Sm] & _). cbn [c_tab c_w] in *.
      unfold wp. rewrite E. cbn [c_tab c_w].
      destruct (arep_frame amax (su_bmax su) A bown ctx _ (live tab2') cs ar w w' _ R) as [R' _].
      { apply (ct_perm _ _ _ _ ctx _ _ _ Ho). apply Permutation_app_comm. }
      { exact Sm. }
      pose proof (base_says a tab2 w r _ Hn E) as Eb. cbn [c_tab c_w] in Eb.
      destruct Hg as (G1 & G2 & G3 & G4). cbn [o_g g_tab g_thr g_aw fst snd] in *.
      pose proof (arep_headed su Hok _ _ _ _ _ R) as Hh. pose proof (headed_unique _ _ _ _ G1 Hh) as Ek.
      exists [ByThem a], (mkOP tab2' (mkCP (cp_chunks q) (cp_tab q) (bw_trace w') (cp_thr q))).
      split; [|split; [cbn; lia|split; [constructor; [reflexivity|constructor]|split; [|exact Hpa]]]].
      - cbn [op_run]. assert (Eo : ostp (ByThem a) (mkOP tab2 q) =
          Some ([TheirEv a r], mkOP tab2' (mkCP (cp_chunks q) (cp_tab q) (bw_trace w') (cp_thr q)))).
        { unfold op_step. cbn [op_tab op_in]. rewrite <- G3, Eb. destruct a as [| | | | |kp]; try reflexivity. destruct (Hn kp eq_refl). }
        rewrite Eo. reflexivity.
      - split; [reflexivity|]. cbn [o_g op_in]. split; [|auto]. cbn [g_aw fst snd cp_chunks]. rewrite Ek.
        apply (arep_headed su Hok _ _ _ _ _ R'). }
    unfold theirs, wp. cbn [o_tab o_g g_tab g_thr g_lock g_aw fst snd].
    destruct a; try (specialize (Hstep ltac:(discriminate)); unfold wp in Hstep;
      match type of Hstep with match ?m with _ => _ end => destruct m as [r st| | |] end;
      try contradiction; exact Hstep).
    exists [], (mkOP tab2 q). split; [reflexivity|]. split; [cbn; lia|]. split; [constructor|]. split; [exact Hs|exact Hpa].
  Qed.

  (** ** Every step *)
  Lemma by_us ms : forall q es q', cp_run (su_min su) (su_smax su) (su_strat su) ms (op_in q) = Some (es, q') ->
    opr (map ByUs ms) q = Some (map OurEv es, mkOP (op_tab q) q').
  Proof.
    induction ms as [|m ms IH]; intros q es q' E; cbn [map op_run cp_run op_step] in *.
    - injection E as <- <-. destruct q; reflexivity.
    - destruct (cp_step _ _ _ m (op_in q)) as [[e1 q1]|]; [|discriminate E].
      destruct (cp_run _ _ _ ms q1) as [[e2 q2]|] eqn:E2; [|discriminate E]. injection E as <- <-.
      rewrite (IH (mkOP (op_tab q) q1) _ _ E2), map_app. reflexivity.
  Qed.

  Lemma ours_exact o s s2 c q : oinv su o s s2 -> oshows o q -> paced (cp_chunks (op_in q)) (g_thr (o_g o)) ->
    wp (cstep su c) (o_g o) (fun es g' => advance su (moves_of c) (op_in q) es g').
  Proof.
    intros (X & _) [_ Hs] Hpa. apply (xstep_exact su Hok false (live (o_tab o)) (omem o) (o_g o) s c (op_in q) X Hs Hpa).
  Qed.

  Lemma ostep_exact o s s2 c q : oinv su o s s2 -> oshows o q -> paced (cp_chunks (op_in q)) (g_thr (o_g o)) ->
    wp (ostep su c) o (fun es o' =>
      exists ms q', opr ms q = Some (es, q') /\ (length ms <= 1)%nat /\ oshows o' q' /\
        paced (cp_chunks (op_in q')) (g_thr (o_g o'))).
  Proof.
    intros Hi Hs Hpa. destruct c as [c|a]; cbn [ostep].
    - apply wp_bind. pose proof (ours_exact o s s2 c q Hi Hs Hpa) as H. unfold wp, lift_g in *.
      destruct (cstep su c (o_g o)) as [es g'| | |]; try contradiction. cbn [ret].
      destruct H as (ms & q' & E & _ & L & Hs' & Hpa'). exists (map ByUs ms), (mkOP (op_tab q) q').
      split; [apply by_us; exact E|]. split; [rewrite map_length; exact L|]. split; [|exact Hpa'].
      split; [apply Hs|exact Hs'].
    - destruct Hi as ((cs & X) & Ha2). eapply wp_mono; [apply (theirs_exact cs o s s2 a q X Ha2 Hs Hpa)|].
      intros es o' (ms & q' & E & L & _ & H). exists ms, q'. auto.
  Qed.

  Lemma opr_app ms1 : forall ms2 q es1 q1 es2 q2, opr ms1 q = Some (es1, q1) -> opr ms2 q1 = Some (es2, q2) ->
    opr (ms1 ++ ms2) q = Some (es1 ++ es2, q2).
  Proof.
    induction ms1 as [|m ms1 IH]; intros ms2 q es1 q1 es2 q2 E1 E2; cbn [app op_run] in *.
    - injection E1 as <- <-. exact E2.
    - destruct (ostp m q) as [[e1 qa]|]; [|discriminate E1]. destruct (opr ms1 qa) as [[e2 qb]|] eqn:E; [|discriminate E1].
      injection E1 as <- <-. rewrite (IH _ _ _ _ _ _ E E2), app_assoc. reflexivity.
  Qed.

  Lemma orun_exact sched : forall o s s2 q es o', oinv su o s s2 -> oshows o q -> paced (cp_chunks (op_in q)) (g_thr (o_g o)) ->
    orun su sched o = ORet es o' ->
    exists ms q', opr ms q = Some (es, q') /\ (length ms <= length sched)%nat /\ oshows o' q'.
  Proof.
    induction sched as [|c sched IH]; intros o s s2 q es o' Hi Hs Hpa E; cbn [orun] in E.
    - injection E as <- <-. exists [], q. split; [reflexivity|]. split; [cbn; lia|exact Hs].
    - pose proof (wp_conj _ _ _ _ (ostep_ok su Hok c o s s2 Hi) (ostep_exact o s s2 c q Hi Hs Hpa)) as H. apply wp_inv in H.
      destruct H as (es1 & o1 & E1 & Hi1 & ms1 & q1 & Em1 & L1 & Hs1 & Hpa1). unfold bind in E. rewrite E1 in E.
      destruct (orun su sched o1) as [es2 o2| | |] eqn:E2; try discriminate E. injection E as <- <-.
      destruct (IH o1 _ _ q1 es2 o2 Hi1 Hs1 Hpa1 E2) as (ms2 & q2 & Em2 & L2 & Hs2).
      exists (ms1 ++ ms2), q2. split; [apply (opr_app _ _ _ _ _ _ _ Em1 Em2)|]. split; [rewrite app_length; cbn [length]; lia|exact Hs2].
  Qed.

  Lemma ostart_shows n : oshows (ostart su n) (op0 n) /\ paced (cp_chunks (op_in (op0 n))) (g_thr (o_g (ostart su n))).
  Proof.
    split.
    - split; [reflexivity|]. split; [exact I|]. split; [reflexivity|]. split; [reflexivity|]. cbn. clear. induction n; cbn; congruence.
    - cbn. unfold paced. rewrite Forall_forall. intros p Hp. apply repeat_spec in Hp. subst p. exact I.
  Qed.

  Lemma others_exact n sched es o : orun su sched (ostart su n) = ORet es o ->
    exists ms q, opr ms (op0 n) = Some (es, q) /\ (length ms <= length sched)%nat /\ oshows o q.
  Proof.
    intros E. destruct (ostart_shows n) as [H1 H2].
    apply (orun_exact sched (ostart su n) [] [] (op0 n) es o (ostart_inv su Hok n) H1 H2 E).
  Qed.
End Facts.
