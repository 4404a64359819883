(** Between resets chunks are kept and their cursors only grow: this is what the old values of a
    cursor rest on (see [old_value] in Conc.v). *)
From Coq Require Import Permutation.
From Verif Require Import Base BaseFacts Alloc AllocFacts Arena ArenaFacts ArenaInv ArenaOps
  BlinkAlloc BlinkFacts History HistoryFacts Setup SetupFacts SetupOps Conc ConcFacts ConcSteps ConcProps
  Race RaceFacts RaceSteps.

(** Nothing is reset. *)
Definition no_reset (c : choice) : Prop :=
  match c with Start _ (OpReset _) | Exclusive _ => False | _ => True end.

(** The chunk [u] is held, and its cursor is [v]. *)
Definition cursor_is (g : gst) (u : ublock) (v : Z) : Prop :=
  In u (cheld g) /\ load (cmem g) (u_ptr u + CURSOR) 8 = Some v.

Section Grow.
  Variable su : setup.
  Hypothesis Hok : setup_ok su.
  Notation amax := (su_amax su).
  Notation A := (bot su).
  Notation dbg := (su_dbg su).
  Notation ctx := (su_ct su Hok).
  Notation brep := (arep (su_amax su) (bot su) (base_own (su_amax su) (su_bmax su))).

  Definition grown (cs : list chunk) (g' : gst) : Prop :=
    forall c, In c cs -> exists v, cursor_is g' (c_u c) v /\ c_cur c <= v.

  Lemma grown_same cs g s g' : cinvx su cs g s -> cheld g' = cheld g ->
    (forall c, In c cs -> same_header c g g') -> grown cs g'.
  Proof.
    intros C Eh Hm c Hc. pose proof C as (R & Hh & _). exists (c_cur c). split; [|lia]. split.
    - rewrite Eh. change (In (c_u c) (outstanding (bw_trace (snd (g_aw g))))). rewrite <- Hh. apply in_map, Hc.
    - rewrite <- (chain_load (cmem g) cs c (ar_chain _ _ _ _ _ _ _ _ R) Hc).
      apply load_ext; [lia|]. intros x Hx. apply (Hm c Hc). unfold c_base, c_ptr, HDR, CURSOR in *. lia.
  Qed.

  Lemma grown_raised c cs0 g s n g' : cinvx su (c :: cs0) g s -> c_cur c <= n ->
    snd (g_aw g') = al_set_mem A (snd (g_aw g)) (store (cmem g) (c_ptr c + CURSOR) 8 n) -> grown (c :: cs0) g'.
  Proof.
    intros C L E d Hd. pose proof C as (R & Hh & _).
    assert (In (c_u d) (cheld g')).
    { unfold cheld. rewrite E. change (In (c_u d) (outstanding (bw_trace (snd (g_aw g))))). rewrite <- Hh. apply in_map, Hd. }
    unfold cursor_is, cmem. rewrite E. cbn [bw_mem al_set_mem bot base]. fold (c_ptr d).
    destruct (arep_two _ _ _ _ ctx _ _ _ _ _ c d R (or_introl eq_refl) Hd) as [<-|S].
    - exists n. split; [|exact L]. split; [assumption|]. apply load_store_same. lia.
    - exists (c_cur d). split; [|lia]. split; [assumption|]. rewrite load_store_other.
      + apply (chain_load _ _ d (ar_chain _ _ _ _ _ _ _ _ R) Hd).
      + lia.
      + destruct (arep_chunk_ok _ _ _ _ ctx _ _ _ _ _ c R (or_introl eq_refl)) as (_ & _ & _ & _ & H1 & _).
        destruct (arep_chunk_ok _ _ _ _ ctx _ _ _ _ _ d R Hd) as (_ & _ & _ & _ & H2 & _).
        unfold sep, c_end, HDR, CURSOR in *. lia.
  Qed.

  Lemma finish_held t j wr r g es g' : finish t j wr r g = ORet es g' -> g_aw g' = g_aw g.
  Proof. rewrite finish_eq. intros E; inversion E; reflexivity. Qed.

  (** A step that does not record [Bump] leaves the chunks held as they are, unless it is the slow path. *)
  Lemma go_held g t p sp : (forall j, p <> Slow j) -> wlp (go su t p sp) g (fun es g' => cheld g' = cheld g).
  Proof.
    intros Hns. 
    assert (Hf : forall t j wr r g1, bw_trace (snd (g_aw g1)) = bw_trace (snd (g_aw g)) ->
      wlp (finish t j wr r) g1 (fun (es : list event) g' => cheld g' = cheld g)).
    { intros t0 j0 wr0 r0 g1 E1 es g' E. apply finish_held in E. unfold cheld. rewrite E, E1. reflexivity. }
    assert (Hb : forall t p g1 (es0 : list event), bw_trace (snd (g_aw g1)) = bw_trace (snd (g_aw g)) ->
      wlp (become t p ;;; ret es0) g1 (fun (es : list event) g' => cheld g' = cheld g)).
    { intros t0 p0 g1 es0 E1 es g' E. inversion E; subst. unfold cheld. cbn. rewrite E1. reflexivity. }
    destruct p; cbn [go].
    - apply wlp_ret. reflexivity.
    - intros es g'. unfold bind, get_g. destruct (lk_writer (g_lock g)); [intros X; inversion X; reflexivity|].
      unfold put_lock. unfold enter.
      destruct (ar_root (fst (g_aw g))) as [r|], j; try (apply Hf; reflexivity); try (apply Hb; reflexivity).
      destruct (l_align new <=? l_align old); [|apply Hb; reflexivity].
      destruct (l_size new <=? l_size old); [apply Hf|apply Hb]; reflexivity.
    - apply wlp_on_w. intros v w' E. apply pure_load in E. destruct E as [-> _]. apply Hb; reflexivity.
    - apply wlp_on_w. intros v w' E. apply pure_load in E. destruct E as [-> _].
      apply wlp_on_w. intros a w1 Ea. apply pure_attempt in Ea. subst w1.
      destruct a as [[aligned next]|]; [|apply Hb; reflexivity].
      apply wlp_on_w. intros v2 w' E. apply pure_load in E. destruct E as [-> _].
      destruct (negb sp && (v2 =? cursor)); [|apply Hb; reflexivity].
      apply wlp_on_w. intros [] w1 Es. inversion Es; subst w1; clear Es.
      apply wlp_bind. intros len g1 E. apply pure_sub in E. subst g1.
      apply wlp_bind. intros [] g1 E. apply pure_assert in E. subst g1.
      apply wlp_bind. intros [] g1 E. apply pure_assert in E. subst g1.
      apply wlp_bind. unfold allocated. intros es g' E. apply wlp_ret. revert E.
      destruct j; [apply Hf|apply Hb|apply Hf]; reflexivity.
    - destruct j; try apply wlp_ub. apply wlp_bind. intros e g1 E. apply pure_ptr_add in E. destruct E as [-> _].
      apply wlp_on_w. intros v w' E. apply pure_load in E. destruct E as [-> _].
      destruct (v =? e); [|apply Hb; reflexivity].
      destruct (checked_add (u_ptr u) (l_size new)); [|apply Hb; reflexivity].
      apply wlp_on_w. intros v2 w' E. apply pure_load in E. destruct E as [-> _].
      destruct (v2 <? z); apply Hb; reflexivity.
    - destruct j; try apply wlp_ub. apply wlp_bind. intros e g1 E. apply pure_ptr_add in E. destruct E as [-> _].
      apply wlp_on_w. intros v w' E. apply pure_load in E. destruct E as [-> _].
      destruct (v =? cursor); [|apply Hb; reflexivity].
      apply wlp_on_w. intros [] w1 Es. inversion Es; subst w1; clear Es.
      apply wlp_bind. intros len g1 E. apply pure_sub in E. subst g1.
      apply wlp_bind. intros [] g1 E. apply pure_assert in E. subst g1.
      apply wlp_bind. intros es g' E. apply wlp_ret. revert E. apply Hf; reflexivity.
    - destruct j; try apply wlp_ub. apply wlp_on_w. intros [] w' E. apply Hf. cbn [g_aw snd].
      revert E. apply (wlp_elim _ (snd (g_aw g)) (fun _ w' => bw_trace w' = bw_trace (snd (g_aw g)))).
      unfold chunk_dealloc, cell_cas.
      apply wlp_bind. intros nw w1 E. apply pure_ptr_add in E. destruct E as [-> _].
      apply wlp_bind. apply wlp_bind. intros v w1 E. apply pure_load in E. destruct E as [-> _].
      destruct (u_ptr u =? v); [|apply wlp_ret; apply wlp_ret; reflexivity].
      apply wlp_bind. intros [] w1 Es. inversion Es; subst w1. apply wlp_ret. apply wlp_ret. reflexivity.
    - destruct j; try (apply wlp_ub). cbv zeta. destruct (negb _); [apply wlp_ub|].
      destruct (i <? Z.min (l_size new) (l_size old)); [|apply Hf; reflexivity].
      apply wlp_on_w. intros [] w' E. apply Hb. inversion E; subst w'. reflexivity.
    - intros es g' E. unfold bind, get_g, put_lock in E. cbn in E.
      destruct next as [j|]; inversion E; subst; reflexivity.
    - intros es g' E. unfold bind, get_g in E.
      destruct (lk_writer (g_lock g)); [|destruct (lk_readers (g_lock g))]; inversion E; subst; reflexivity.
    - destruct (Hns j eq_refl).
  Qed.

  Lemma go_quiet g t p sp : (forall j r cur, p <> Cas j r cur /\ p <> TipCas j r cur) ->
    wlp (go su t p sp) g (fun es g' => ~ In (Bump t) es).
  Proof.
    intros Hns.
    assert (Hf : forall j wr r g1, wlp (finish t j wr r) g1 (fun es (g' : gst) => ~ In (Bump t) es)).
    { intros j0 wr0 r0 g1 es g' E. rewrite finish_eq in E. inversion E; subst. intros [X|[]]; discriminate. }
    assert (Hb : forall p g1, wlp (become t p ;;; ret []) g1 (fun es (g' : gst) => ~ In (Bump t) es)).
    { intros p0 g1 es g' E. inversion E; subst. intros []. }
    destruct p; cbn [go].
    - apply wlp_ret. intros [].
    - intros es g'. unfold bind, get_g. destruct (lk_writer (g_lock g)); [intros X; inversion X; intros []|].
      unfold put_lock. unfold enter.
      destruct (ar_root (fst (g_aw g))) as [r|], j; try (apply Hf); try (apply Hb).
      destruct (l_align new <=? l_align old); [|apply Hb].
      destruct (l_size new <=? l_size old); [apply Hf|apply Hb].
    - apply wlp_on_w. intros v w' _. apply Hb.
    - destruct (Hns j r cursor) as [X _]. congruence.
    - destruct j; try apply wlp_ub. apply wlp_bind. intros e g1 E. apply pure_ptr_add in E. destruct E as [-> _].
      apply wlp_on_w. intros v w' _. destruct (v =? e); [|apply Hb].
      destruct (checked_add (u_ptr u) (l_size new)); [|apply Hb].
      apply wlp_on_w. intros v2 w2 _. destruct (v2 <? z); apply Hb.
    - destruct (Hns j r cursor) as [_ X]. congruence.
    - destruct j; try apply wlp_ub. apply wlp_on_w. intros [] w' E. apply Hf.
    - destruct j; try (apply wlp_ub). cbv zeta. destruct (negb _); [apply wlp_ub|].
      destruct (i <? Z.min (l_size new) (l_size old)); [|apply Hf].
      apply wlp_on_w. intros [] w' E. apply Hb.
    - intros es g' E. unfold bind, get_g, put_lock in E. cbn in E.
      destruct next as [j|]; inversion E; subst; [intros []|intros [X|[]]; discriminate].
    - intros es g' E. unfold bind, get_g in E.
      destruct (lk_writer (g_lock g)); [|destruct (lk_readers (g_lock g))]; inversion E; subst; intros [].
    - apply wlp_bind. intros [b|] g1 _; [|apply Hf]. unfold allocated. destruct j; [apply Hf|apply Hb|apply Hf].
  Qed.

  Lemma go_grows cs g s t p sp : cinvx su cs g s -> nth_error (g_thr g) t = Some p ->
    wlp (go su t p sp) g (fun es g' => grown cs g').
  Proof.
    intros C Hp es g' E.
    assert (Hmem : (forall j, p <> Slow j) -> (forall j r cur, p <> Cas j r cur /\ p <> TipCas j r cur) -> grown cs g').
    { intros Hns Nb. apply (grown_same cs g s); auto; [apply (go_held g t p sp Hns es g' E)|].
      intros c Hc. destruct (go_mem su Hok cs g s t p sp c C Hp Hc Hns es g' E) as [X|X]; [|exact X].
      destruct (go_quiet g t p sp Nb es g' E X). }
    pose proof C as (R & Hhe & Hm & _ & _ & Hpc & _).
    destruct p; try (apply Hmem; intros; repeat split; discriminate); clear Hmem.
    - destruct (Hpc _ _ Hp) as (Hj & Tj & Hcur & Hr).
      destruct (header_of su Hok _ _ _ _ _ R Hr) as (c & cs0 & -> & -> & L1 & L2 & P & B & Hend).
      assert (Hl : req_ok (su_smax su) (job_layout j)).
      { destruct j; cbn in Hj |- *; [exact Hj|tauto|contradiction]. }
      pose proof (su_smax_ok su Hok) as Hs. pose proof (su_amax_ok su Hok) as Hamax.
      assert (Hs0 : forall g1 : gst, g_aw g1 = g_aw g -> grown (c :: cs0) g1).
      { intros g1 E1. apply (grown_same _ g s); auto; [unfold cheld; rewrite E1; reflexivity|].
        intros d _ x _. unfold cmem. rewrite E1. reflexivity. }
      assert (Hb : forall p (g1 : gst), g_aw g1 = g_aw g ->
        wlp (become t p ;;; ret []) g1 (fun (_ : list event) g' => grown (c :: cs0) g')).
      { intros p g1 E1 es1 g2 E2. inversion E2; subst. apply Hs0. exact E1. }
      revert es g' E. cbn [go]. apply wlp_on_w. intros e w1 E1. apply pure_load in E1. destruct E1 as [-> E1].
      change (al_mem A) with bw_mem in E1. rewrite L2 in E1. inversion E1; subst e.
      apply wlp_on_w. intros a w1 Ea. cbn [g_aw snd] in Ea.
      rewrite (alloc_attempt_eq dbg _ _ _ (su_smax su)) in Ea by (auto; lia). inversion Ea; subst a w1.
      cbn [g_tab g_thr g_lock g_aw fst snd].
      destruct (room cursor (c_end c) (job_layout j)) eqn:Rm; [|apply Hb; symmetry; apply surjective_pairing].
      apply wlp_on_w. intros v w1 E2. apply pure_load in E2. destruct E2 as [-> E2]. cbn [g_aw snd] in E2.
      change (al_mem A) with bw_mem in E2. rewrite L1 in E2. inversion E2; subst v.
      cbn [g_tab g_thr g_lock g_aw fst snd].
      destruct (negb sp && (c_cur c =? cursor)) eqn:Ec; [|apply Hb; symmetry; apply surjective_pairing].
      assert (cursor = c_cur c) by lia. subst cursor.
      destruct (req_ok_facts _ _ Hl) as (kk & _ & _ & Hpos & Hsz & _).
      destruct (round_up_spec (c_cur c) (l_align (job_layout j)) Hpos) as [Bd Hmod].
      apply wlp_on_w. intros [] w' Es. inversion Es; subst w'; clear Es. cbn [g_tab g_thr g_lock g_aw fst snd].
      apply wlp_bind. intros len g1 E. apply pure_sub in E. subst g1.
      apply wlp_bind. intros [] g1 E. apply pure_assert in E. subst g1.
      apply wlp_bind. intros [] g1 E. apply pure_assert in E. subst g1.
      apply wlp_bind. intros es g' E. apply wlp_ret.
      apply (grown_raised c cs0 g s (round_up (c_cur c) (l_align (job_layout j)) + l_size (job_layout j)) g' C); [lia|].
      assert (X : g_aw g' = (fst (g_aw g), al_set_mem A (snd (g_aw g)) (store (al_mem A (snd (g_aw g))) (c_ptr c + CURSOR) 8
         (round_up (c_cur c) (l_align (job_layout j)) + l_size (job_layout j))))).
      { unfold allocated in E. destruct j; try (apply finish_held in E; rewrite E; reflexivity). inversion E; subst. reflexivity. }
      rewrite X. reflexivity.
    - destruct (Hpc _ _ Hp) as (Hjob & Hj2). destruct j as [l|h u old new|h u l]; try contradiction.
      destruct Hj2 as (Q1 & Q2 & -> & e & Hr & Q3).
      destruct (header_of su Hok _ _ _ _ r R (ex_intro _ e Hr)) as (c & cs0 & -> & -> & L1 & L2 & P & B & Hend).
      assert (Hs0 : forall g1 : gst, g_aw g1 = g_aw g -> grown (c :: cs0) g1).
      { intros g1 E1. apply (grown_same _ g s); auto; [unfold cheld; rewrite E1; reflexivity|].
        intros d _ x _. unfold cmem. rewrite E1. reflexivity. }
      pose proof Hjob as (Gt & (F1 & F2) & Hn).
      assert (Hu : u_ok amax u).
      { pose proof (ar_ok _ _ _ _ _ _ _ _ R) as Ho. rewrite Forall_forall in Ho. apply Ho.
        apply in_or_app. left. apply live_in. eauto. }
      destruct Hu as (_ & _ & Hu).
      revert es g' E. cbn [go]. apply wlp_bind. intros nx g1 E. apply pure_ptr_add in E. destruct E as [-> ->].
      apply wlp_on_w. intros v w1 E2. apply pure_load in E2. destruct E2 as [-> E2].
      change (al_mem A) with bw_mem in E2. rewrite L1 in E2. inversion E2; subst v.
      cbn [g_tab g_thr g_lock g_aw fst snd].
      destruct (Z.eqb_spec (c_cur c) (u_ptr u + l_size old)) as [Ec|Ec].
      2: { intros es1 g2 E3. inversion E3; subst. apply Hs0. symmetry; apply surjective_pairing. }
      apply wlp_on_w. intros [] w' Es. inversion Es; subst w'; clear Es. cbn [g_tab g_thr g_lock g_aw fst snd].
      apply wlp_bind. intros len g1 E. apply pure_sub in E. subst g1.
      apply wlp_bind. intros [] g1 E. apply pure_assert in E. subst g1.
      apply wlp_bind. intros es g' E. apply wlp_ret. apply finish_held in E.
      apply (grown_raised c cs0 g s (u_ptr u + l_size new) g' C); [lia|]. rewrite E. reflexivity.
    - destruct (Hpc _ _ Hp) as (Hj & Tj).
      assert (Hl : req_ok (su_smax su) (job_layout j)).
      { destruct j; cbn in Hj |- *; [exact Hj|tauto|contradiction]. }
      pose proof (su_cfg su Hok) as Hcfg. rewrite <- Hm in Hcfg.
      pose proof (alloc_slow_ok amax (su_smax su) (su_bmax su) A (base_own (su_amax su) (su_bmax su)) ctx (su_amax_ok su Hok) dbg
                 [] cs (fst (g_aw g)) (snd (g_aw g)) _ (job_layout j) R Hl (cfg_ok_for Hcfg)) as H.
      unfold wp in H. revert E. cbn [go]. unfold bind at 1. unfold on_aw, arena_alloc_slow, with_aw. unfold bind at 1.
      destruct (alloc_slow A dbg (ar_root (fst (g_aw g))) (ar_min (fst (g_aw g))) (job_layout j) (snd (g_aw g)))
        as [q w'| | |] eqn:Es; try discriminate.
      destruct H as (_ & H). intros E.
      assert (X : exists cs1, chain (bw_mem w') (cs1 ++ cs) /\ map c_u (cs1 ++ cs) = outstanding (bw_trace w')).
      { destruct q as [[b q]|].
        - destruct H as (_ & _ & c & (_ & w1 & Ew & Q) & _ & _ & _ & R2). exists [c].
          split; [apply (ar_chain _ _ _ _ _ _ _ _ R2)|]. rewrite (quiet_trace su _ _ Q).
          pose proof (j_alloc _ _ (held_jinv su) (map c_u cs) _ w1 _ _ Hhe Ew) as X. unfold held_j in X.
          rewrite <- X. cbn. destruct (c_u c); reflexivity.
        - destruct H as (Hi & R2). exists []. split; [apply (ar_chain _ _ _ _ _ _ _ _ R2)|].
          destruct Hi as [[_ ->]|(lay & _ & Ew)]; [exact Hhe|].
          apply (j_alloc _ _ (held_jinv su) (map c_u cs) _ w' _ _ Hhe Ew). }
      destruct X as (cs1 & Hch & Ho).
      assert (Eg : snd (g_aw g') = w').
      { destruct q as [[b q]|]; cbn [ret fst snd] in E.
        - unfold allocated in E. destruct j; try (apply finish_held in E; rewrite E; reflexivity). inversion E; subst. reflexivity.
        - apply finish_held in E. rewrite E. reflexivity. }
      intros c Hc. exists (c_cur c). split; [|lia]. split.
      + unfold cheld. rewrite Eg, <- Ho. apply in_map. apply in_or_app. right. exact Hc.
      + unfold cmem. rewrite Eg. apply (chain_load _ _ c Hch). apply in_or_app. right. exact Hc.
  Qed.

  Lemma cstep_grows cs g s c : cinvx su cs g s -> no_reset c -> wlp (cstep su c) g (fun es g' => grown cs g').
  Proof.
    intros C Hn es g' E.
    assert (Hs : forall g1 : gst, g_aw g1 = g_aw g -> grown cs g1).
    { intros g1 E1. apply (grown_same _ g s); auto; [unfold cheld; rewrite E1; reflexivity|].
      intros d _ x _. unfold cmem. rewrite E1. reflexivity. }
    assert (Hret : ret [] g = ORet es g' -> grown cs g').
    { intros E1. inversion E1; subst. apply Hs. reflexivity. }
    unfold cstep in E. unfold bind at 1, get_g in E.
    destruct c as [t o|t sp|t v|keep]; [| | |destruct Hn].
    - destruct (nth_error (g_thr g) t) as [p|] eqn:Hp; [|apply (Hret E)].
      destruct p; try (apply (Hret E)).
      pose proof C as (R & _).
      destruct o as [l z|h off cl|h l|h old new|h old new|keep]; [| | | | |destruct Hn].
      2: { unfold begin in E. unfold bind at 1, get_g in E.
           destruct (get h (g_tab g)) as [u|] eqn:G; [|apply (Hret E)].
           destruct (negb _ && _ && _) eqn:Ec; [|apply (Hret E)].
           apply andb_true_iff in Ec. destruct Ec as [Ec E3]. apply andb_true_iff in Ec. destruct Ec as [E1 E2].
           revert E. unfold bind, on_w, on_aw, with_aw, ret. cbn [fst snd]. intros E. inversion E; subst.
           apply (grown_same _ g s); [exact C|reflexivity|]. intros c Hc x Hx.
           unfold cmem. cbn [g_aw snd bw_mem al_set_mem bot base al_mem]. apply write_cells_other.
           assert (Hv : In u (live (g_tab g) ++ flat_map hold (g_thr g))).
           { apply in_or_app. left. apply live_in. eauto. }
           assert (~ in_u x u).
           { intros Hi. destruct (arep_us_not _ _ _ _ ctx _ _ _ _ _ c u x R Hc Hv Hi) as [X _]. contradiction. }
           unfold in_u in *. lia. }
      all: unfold begin in E; unfold bind at 1, get_g in E.
      + destruct z; [apply (Hret E)|]. destruct (req_okb _ _); [|apply (Hret E)]. inversion E; subst. apply Hs. reflexivity.
      + destruct (get h (g_tab g)) as [u|]; [|apply (Hret E)]. destruct (negb _ && _); [|apply (Hret E)].
        inversion E; subst. apply Hs. reflexivity.
      + destruct (get h (g_tab g)) as [u|]; [|apply (Hret E)]. destruct (negb _ && _ && _); [|apply (Hret E)].
        inversion E; subst. apply Hs. reflexivity.
      + apply (Hret E).
    - destruct (nth_error (g_thr g) t) as [p|] eqn:Hp; [|apply (Hret E)].
      apply (go_grows cs g s t p sp C Hp es g' E).
    - destruct (nth_error (g_thr g) t) as [p|] eqn:Hp; [|apply (Hret E)].
      destruct (stale_ok su t p v g es g' E) as [[-> ->]|[(-> & p' & Ep & ->)|(h & u & l & r & -> & F)]].
      + apply Hs; reflexivity.
      + apply Hs; reflexivity.
      + apply Hs. apply (finish_held _ _ _ _ _ _ _ F).
  Qed.

  Lemma crun_grows sched : forall g s es g' u v, cinv su g s -> Forall no_reset sched ->
    crun su sched g = ORet es g' -> cursor_is g u v ->
    exists v', cursor_is g' u v' /\ v <= v'.
  Proof.
    induction sched as [|c sched IH]; intros g s es g' u v Ci Hn E Hu; cbn [crun] in E.
    - inversion E; subst. exists v. split; [exact Hu|lia].
    - unfold bind, ret in E. destruct (cstep su c g) as [es1 g1| | |] eqn:E1; try discriminate.
      destruct (crun su sched g1) as [es2 g2| | |] eqn:E2; try discriminate. inversion E; subst.
      inversion Hn as [|? ? Hn1 Hn2]; subst. destruct Ci as (cs & C).
      pose proof (cstep_grows cs g s c C Hn1 _ _ E1) as Hg.
      pose proof (cstep_ok su Hok g s c (ex_intro _ cs C)) as H. unfold wp in H. rewrite E1 in H.
      pose proof C as (R & Hh & _). destruct Hu as (Hu & Lu).
      change (In u (outstanding (bw_trace (snd (g_aw g))))) in Hu. rewrite <- Hh in Hu.
      apply in_map_iff in Hu. destruct Hu as (d & <- & Hd).
      pose proof (chain_load _ _ d (ar_chain _ _ _ _ _ _ _ _ R) Hd) as Ld. unfold cmem in Lu. fold (c_ptr d) in Lu.
      change (al_mem A) with bw_mem in Ld. assert (v = c_cur d) by congruence. subst v.
      destruct (Hg d Hd) as (v1 & Hv1 & L1).
      destruct (IH g1 _ es2 g' (c_u d) v1 H Hn2 E2 Hv1) as (v2 & Hv2 & L2). exists v2. split; [exact Hv2|lia].
  Qed.
End Grow.
