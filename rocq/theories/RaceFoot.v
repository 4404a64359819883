(** The actions of a step are all it does: memory is changed only where an action writes, and
    what a step does depends only on the places it accesses. *)
From Coq Require Import Permutation.
From Verif Require Import Base BaseFacts Alloc AllocFacts Arena ArenaFacts ArenaInv ArenaOps
  BlinkAlloc BlinkFacts History HistoryFacts Setup SetupFacts SetupOps Conc ConcFacts ConcSteps ConcProps
  Race RaceFacts RaceSteps.

(** The action touches the byte at [x] / may write it. *)
Definition touches (x : Z) (a : action) : Prop :=
  match a with Acc _ (Bytes y n) _ => y <= x < y + n | Excl => True | _ => False end.
Definition writes (x : Z) (a : action) : Prop :=
  match a with Acc _ _ NaRead => False | _ => touches x a end.

Section Foot.
  Variable su : setup.
  Hypothesis Hok : setup_ok su.
  Notation amax := (su_amax su).
  Notation A := (bot su).
  Notation dbg := (su_dbg su).
  Notation ctx := (su_ct su Hok).
  Notation brep := (arep (su_amax su) (bot su) (base_own (su_amax su) (su_bmax su))).

  (** ** Writes *)

  (** Memory differs from [m] only at places that satisfy [P]. *)
  Definition within (m : mem) (P : Z -> Prop) (m' : mem) : Prop := forall x, ~ P x -> m' x = m x.

  Lemma within_refl m P : within m P m.
  Proof. intros x _. reflexivity. Qed.
  Lemma within_trans m P m1 m2 : within m P m1 -> within m1 P m2 -> within m P m2.
  Proof. intros H1 H2 x N. rewrite (H2 x N). apply H1, N. Qed.
  Lemma within_store m (P : Z -> Prop) a v : (forall x, a <= x < a + 8 -> P x) -> within m P (store m a 8 v).
  Proof.
    intros H x N. apply store_other. destruct (Z.lt_ge_cases x a); [lia|].
    destruct (Z.lt_ge_cases x (a + 8)); [|lia]. destruct N. apply H. lia.
  Qed.
  Lemma within_fill m (P : Z -> Prop) a n c : (forall x, a <= x < a + n -> P x) -> within m P (fill m a n c).
  Proof.
    intros H x N. apply fill_other. destruct (Z.lt_ge_cases x a); [lia|].
    destruct (Z.lt_ge_cases x (a + n)); [|lia]. destruct N. apply H. lia.
  Qed.

  (** What has to be shown of a step. *)
  Definition covered (g0 : gst) (P : Z -> Prop) (es : list event) (g' : gst) : Prop := within (cmem g0) P (cmem g').

  Lemma finish_cov t j wr r g0 P g : within (cmem g0) P (cmem g) -> wlp (finish t j wr r) g (covered g0 P).
  Proof. intros H es g' E. rewrite finish_eq in E. inversion E; subst. exact H. Qed.
  Lemma become_cov t p g0 P g es0 : within (cmem g0) P (cmem g) -> wlp (become t p ;;; ret es0) g (covered g0 P).
  Proof. intros H es g' E. inversion E; subst. exact H. Qed.
  Lemma bump_cov t g0 P g m : wlp m g (covered g0 P) -> wlp (ev <- m ;; ret (Bump t :: ev)) g (covered g0 P).
  Proof. intros H. apply wlp_bind. intros es g' E. apply wlp_ret. apply (H es g' E). Qed.
  Lemma allocated_cov t j b wr g0 P g : within (cmem g0) P (cmem g) -> wlp (allocated t j b wr) g (covered g0 P).
  Proof. intros H. unfold allocated. destruct j; [apply finish_cov|apply become_cov|apply finish_cov]; exact H. Qed.

  Ltac load_w v H := apply wlp_on_w; intros v ?w H; apply pure_load in H; destruct H as [-> H];
    cbn [g_tab g_thr g_lock g_aw fst snd].

  Lemma mstore_cov a v w (P : Z -> Prop) m0 : within m0 P (bw_mem w) -> (forall x, a <= x < a + 8 -> P x) ->
    wlp (mstore A a 8 v) w (fun _ w' => within m0 P (bw_mem w') /\ bw_trace w' = bw_trace w).
  Proof.
    intros H1 H2 b w' E. inversion E; subst. split; [|reflexivity]. eapply within_trans; [exact H1|].
    apply within_store. exact H2.
  Qed.

  (** The slow path: only the new block of the underlying allocator is written. *)
  Definition is_new (w : bworld) (x : Z) (u : ublock) (tr' : list uevent) : Prop :=
    outstanding tr' = u :: outstanding (bw_trace w) /\ u_ptr u <= x < u_ptr u + Z.max HDR (u_len u).

  Lemma init_cov slice prev w (P : Z -> Prop) m0 : within m0 P (bw_mem w) ->
    (forall x, b_ptr slice <= x < b_ptr slice + HDR -> P x) ->
    wlp (init_chunk A dbg slice prev) w (fun c w' =>
      c = b_ptr slice /\ within m0 P (bw_mem w') /\ bw_trace w' = bw_trace w).
  Proof.
    intros H HP. unfold init_chunk. cbv zeta.
    apply wlp_bind. intros [] w1 E. apply pure_assert in E. subst w1.
    apply wlp_bind. intros [] w1 E. apply pure_assert in E. subst w1.
    apply wlp_bind. intros e w1 E. apply pure_ptr_add in E. destruct E as [-> _].
    apply wlp_bind. intros bs w1 E. apply pure_ptr_add in E. destruct E as [-> _].
    apply wlp_bind. intros cum w1 E.
    assert (w1 = w).
    { destruct prev as [p|]; [|inversion E; reflexivity]. revert E. apply (wlp_elim _ w (fun _ w' => w' = w)).
      unfold chunk_cap. apply wlp_bind. intros c w2 E. assert (w2 = w).
      { revert E. apply (wlp_elim _ w (fun _ w' => w' = w)). apply wlp_bind. intros v w3 E. apply pure_load in E.
        destruct E as [-> _]. apply wlp_ret. reflexivity. }
      subst w2. apply wlp_bind. intros s w3 E3. apply pure_load in E3. destruct E3 as [-> _].
      intros ? ? Ea. apply pure_add in Ea. exact Ea. }
    subst w1. unfold HDR, CURSOR, END, PREV, CUM in *.
    apply wlp_bind. eapply wlp_mono; [apply (mstore_cov _ _ _ P m0 H)|]; [intros x Hx; apply HP; lia|].
    intros _ w1 (H1 & T1).
    apply wlp_bind. eapply wlp_mono; [apply (mstore_cov _ _ _ P m0 H1)|]; [intros x Hx; apply HP; lia|].
    intros _ w2 (H2 & T2).
    apply wlp_bind. eapply wlp_mono; [apply (mstore_cov _ _ _ P m0 H2)|]; [intros x Hx; apply HP; lia|].
    intros _ w3 (H3 & T3).
    apply wlp_bind. eapply wlp_mono; [apply (mstore_cov _ _ _ P m0 H3)|]; [intros x Hx; apply HP; lia|].
    intros _ w4 (H4 & T4). apply wlp_ret. split; [reflexivity|]. split; [exact H4|]. congruence.
  Qed.

  Lemma chunk_alloc_cov c l w (P : Z -> Prop) m0 : within m0 P (bw_mem w) ->
    (forall x, c <= x < c + HDR -> P x) ->
    wlp (chunk_alloc A dbg c l) w (fun _ w' => within m0 P (bw_mem w') /\ bw_trace w' = bw_trace w).
  Proof.
    intros H HP. unfold chunk_alloc, HDR, CURSOR in *.
    apply wlp_bind. intros cur w1 E. apply pure_load in E. destruct E as [-> _].
    apply wlp_bind. intros e w1 E. apply pure_load in E. destruct E as [-> _].
    apply wlp_bind. intros a w1 E. apply pure_attempt in E. subst w1.
    destruct a as [[al nx]|]; [|apply wlp_ret; auto].
    unfold cell_cas_weak. apply wlp_bind. apply wlp_bind. intros v w1 E. apply pure_load in E. destruct E as [-> _].
    apply wlp_bind. intros [] w1 E. apply pure_assert in E. subst w1.
    eapply wlp_mono; [apply (mstore_cov _ _ _ P m0 H)|]; [intros x Hx; apply HP; lia|].
    intros _ w1 (H1 & T1).
    apply wlp_bind. intros len w2 E. apply pure_sub in E. subst w2.
    apply wlp_bind. intros [] w2 E. apply pure_assert in E. subst w2.
    apply wlp_bind. intros [] w2 E. apply pure_assert in E. subst w2.
    apply wlp_ret. auto.
  Qed.

  Lemma alloc_slow_cov root mn l w :
    wlp (alloc_slow A dbg root mn l) w (fun _ w' => within (bw_mem w) (fun x => exists u, is_new w x u (bw_trace w')) (bw_mem w')).
  Proof.
    unfold alloc_slow. apply wlp_bind. intros cum w1 E.
    assert (w1 = w).
    { destruct root as [r|]; [|inversion E; reflexivity]. revert E. apply (wlp_elim _ w (fun _ w' => w' = w)).
      apply wlp_bind. intros c w2 E. apply pure_load in E. destruct E as [-> _]. apply wlp_ret. reflexivity. }
    subst w1. destruct (next_chunk_size cum mn l) as [size|]; [|apply wlp_ret; apply within_refl].
    apply wlp_bind. intros [] w1 E'. apply pure_assert in E'. subst w1.
    unfold alloc_chunk. apply wlp_bind.
    destruct (align_up size HDR_ALIGN) as [sz|]; [|apply wlp_ret; apply wlp_ret; apply within_refl].
    apply wlp_bind. intros r w1 Ea. cbn [al_allocate bot base] in Ea. unfold base_allocate in Ea.
    destruct (negb (req_okb _ _)); [discriminate|]. cbv zeta in Ea.
    assert (E1 : st_alloc (su_strat su) (bw_trace w) (mkLayout sz HDR_ALIGN) = r) by congruence.
    rewrite E1 in Ea. assert (E2 : w1 = mkB (match r with Some b => fill (bw_mem w) (b_ptr b) (b_len b) Undef | None => bw_mem w end)
      (EvAlloc (mkLayout sz HDR_ALIGN) r :: bw_trace w)) by congruence.
    clear Ea. destruct r as [b|].
    2: { apply wlp_ret. apply wlp_ret. subst w1. apply within_refl. }
    apply wlp_bind.
    set (u := mkU (b_ptr b) (b_len b) (mkLayout sz HDR_ALIGN)).
    set (P := fun x => u_ptr u <= x < u_ptr u + Z.max HDR (u_len u)).
    assert (H1 : within (bw_mem w) P (bw_mem w1)).
    { subst w1. apply within_fill. intros x Hx. unfold P, u. cbn [u_ptr u_len]. lia. }
    assert (HP : forall x, b_ptr b <= x < b_ptr b + HDR -> P x).
    { intros x Hx. unfold P, u. cbn [u_ptr u_len]. lia. }
    eapply wlp_mono; [apply (init_cov b root w1 P _ H1 HP)|]. intros c w2 (-> & H2 & T2).
    apply wlp_ret. apply wlp_bind. eapply wlp_mono; [apply (chunk_alloc_cov (b_ptr b) l w2 P _ H2 HP)|].
    intros p w3 (H3 & T3). destruct p as [b3|]; [|apply wlp_ub]. apply wlp_ret.
    intros x N. apply H3. intros Hx. apply N. exists u. split; [|exact Hx].
    rewrite T3, T2, E2. cbn [bw_trace outstanding]. reflexivity.
  Qed.

  (** Resetting: only blocks of the underlying allocator are written. *)
  Lemma free_chain_cov n : forall c w (P : Z -> Prop) m0, within m0 P (bw_mem w) ->
    (forall u x, In u (outstanding (bw_trace w)) -> u_ptr u <= x < u_ptr u + u_len u -> P x) ->
    wlp (free_chain A n c) w (fun _ w' => within m0 P (bw_mem w')).
  Proof.
    induction n as [|n IH]; intros c w P m0 H HP; cbn [free_chain]; (destruct c as [c|]; [|apply wlp_ret; exact H]).
    - apply wlp_ub.
    - apply wlp_bind. unfold dealloc_chunk.
      apply wlp_bind. intros pv w1 E. apply pure_load in E. destruct E as [-> _].
      apply wlp_bind. intros e w1 E. apply pure_load in E. destruct E as [-> _].
      apply wlp_bind. intros [] w1 Ed. cbn [al_deallocate bot base] in Ed. unfold base_deallocate in Ed.
      destruct (negb (req_okb _ _)); [discriminate|].
      destruct (remove_fit c _ _) as [us|] eqn:Er; [|discriminate]. inversion Ed as [E1]. clear Ed.
      apply wlp_ret. destruct (remove_fit_some _ _ _ _ Er) as (u & Eu & Hf & Hp).
      apply IH.
      + eapply within_trans; [exact H|]. apply within_fill. cbn [l_size]. intros x Hx. apply (HP u x).
        * apply (Permutation_in _ (Permutation_sym Hp)). left; reflexivity.
        * destruct Hf as (_ & Hf). cbn [l_size] in Hf. lia.
      + intros v x Hv Hx. cbn [bw_trace outstanding] in Hv. apply (HP v x); [|exact Hx].
        rewrite Er in Hv. apply (Permutation_in _ (Permutation_sym Hp)). right; exact Hv.
  Qed.

  Lemma reset_cov cs g s keep : cinvx su cs g s ->
    wlp (do_reset su keep) (g_aw g) (fun _ aw' =>
      within (cmem g) (fun x => exists u, In u (cheld g) /\ u_ptr u <= x < u_ptr u + u_len u) (bw_mem (snd aw'))).
  Proof.
    intros (R & Hh & _). set (P := fun x : Z => exists u, In u (cheld g) /\ u_ptr u <= x < u_ptr u + u_len u).
    assert (HP : forall u x, In u (outstanding (bw_trace (snd (g_aw g)))) -> u_ptr u <= x < u_ptr u + u_len u -> P x).
    { intros u x Hu Hx. exists u. auto. }
    pose proof (ar_head _ _ _ _ _ _ _ _ R) as Hhd.
    unfold do_reset, blink_reset, blink_reset_final. destruct (g_aw g) as [ar w] eqn:Eg. cbn [fst snd] in *.
    assert (Ec : cmem g = bw_mem w) by (unfold cmem; rewrite Eg; reflexivity). rewrite Ec.
    intros b aw' E. destruct keep; unfold arena_reset, with_aw in E; cbn [fst snd] in E.
    - destruct (ar_root ar) as [r|] eqn:Er.
      + unfold bind at 1 in E.
        destruct (chunk_reset A r w) as [pv w1| | |] eqn:E1; try discriminate.
        assert (H1 : within (bw_mem w) P (bw_mem w1) /\ bw_trace w1 = bw_trace w).
        { destruct cs as [|c cs']; [discriminate|]. cbn [head_ptr] in Hhd. inversion Hhd; subst r.
          destruct (arep_chunk_ok _ _ _ _ ctx _ _ _ _ _ c R (or_introl eq_refl)) as ((_ & _ & Wc) & _).
          assert (HH : forall x, c_ptr c <= x < c_ptr c + HDR -> P x).
          { intros x Hx. apply (HP (c_u c)); [rewrite <- Hh; left; reflexivity|].
            unfold c_base, c_end, c_ptr in *. lia. }
          unfold HDR in HH.
          revert E1. apply (wlp_elim _ w (fun _ w1 => within (bw_mem w) P (bw_mem w1) /\ bw_trace w1 = bw_trace w)).
          unfold chunk_reset, chunk_cap, CURSOR, END, PREV, CUM.
          apply wlp_bind. intros e w2 E2. apply pure_load in E2. destruct E2 as [-> _].
          apply wlp_bind. apply wlp_bind. intros v w2 E2. apply pure_load in E2. destruct E2 as [-> _]. apply wlp_ret.
          apply wlp_bind. eapply wlp_mono; [apply (mstore_cov _ _ _ P (bw_mem w) (within_refl _ _))|];
            [intros x Hx; apply HH; lia|]. intros _ w2 (H2 & T2).
          apply wlp_bind. eapply wlp_mono; [apply (mstore_cov _ _ _ P (bw_mem w) H2)|];
            [intros x Hx; apply HH; lia|]. intros _ w3 (H3 & T3).
          apply wlp_bind. intros v3 w4 E4. apply pure_load in E4. destruct E4 as [-> _].
          apply wlp_bind. eapply wlp_mono; [apply (mstore_cov _ _ _ P (bw_mem w) H3)|];
            [intros x Hx; apply HH; lia|]. intros _ w4 (H4 & T4).
          apply wlp_ret. split; [exact H4|congruence]. }
        destruct H1 as (H1 & T1). unfold bind at 1 in E.
        destruct (free_chain A (ar_depth ar) pv w1) as [[] w2| | |] eqn:E2; try discriminate.
        inversion E; subst. cbn [snd].
        apply (free_chain_cov _ _ _ P _ H1 (fun u x Hu Hx => HP u x (eq_ind _ (fun t => In u (outstanding t)) Hu _ T1) Hx) _ _ E2).
      + inversion E; subst. apply within_refl.
    - unfold bind at 1 in E.
      destruct (free_chain A (ar_depth ar) (ar_root ar) w) as [[] w2| | |] eqn:E2; try discriminate.
      inversion E; subst. cbn [snd].
      apply (free_chain_cov _ _ _ P _ (within_refl _ _) HP _ _ E2).
  Qed.
  Lemma cursor_within (P : Z -> Prop) t p r g v acts : (forall x, P x <-> Exists (writes x) acts) ->
    In (cursor_of t r) acts -> p = r + CURSOR -> within (cmem g) P (store (cmem g) p 8 v).
  Proof.
    intros HP Hin ->. apply within_store. intros x Hx. apply HP. apply Exists_exists. exists (cursor_of t r). auto.
  Qed.

  Lemma go_writes cs g s t p sp : cinvx su cs g s -> nth_error (g_thr g) t = Some p ->
    wlp (go su t p sp) g (fun es g' => within (cmem g) (fun x => Exists (writes x) (go_acts t p g g')) (cmem g')).
  Proof.
    intros C Hp. pose proof C as (R & Hh & _).
    assert (Hr : forall P, within (cmem g) P (cmem g)) by (intros P; apply within_refl).
    assert (Hsame : forall (m : M gst (list event)), (forall P, wlp m g (covered g P)) ->
      wlp m g (fun es g' => within (cmem g) (fun x => Exists (writes x) (go_acts t p g g')) (cmem g'))).
    { intros m H es g' E. apply (H _ es g' E). }
    assert (Hfix : forall (m : M gst (list event)) l, (forall g', go_acts t p g g' = l) ->
        wlp m g (covered g (fun x => Exists (writes x) l)) ->
      wlp m g (fun es g' => within (cmem g) (fun x => Exists (writes x) (go_acts t p g g')) (cmem g'))).
    { intros m l El H es g' E. rewrite El. apply (H es g' E). }
    destruct p; cbn [go].
    - apply Hsame. intros P. apply wlp_ret. apply Hr.
    - apply Hsame. intros P es g'. unfold bind, get_g. destruct (lk_writer (g_lock g)).
      { apply wlp_ret. apply Hr. }
      unfold put_lock. unfold enter.
      destruct (ar_root (fst (g_aw g))) as [r|], j; try (apply finish_cov; apply Hr); try (apply become_cov; apply Hr).
      destruct (l_align new <=? l_align old); [|apply become_cov; apply Hr].
      destruct (l_size new <=? l_size old); [apply finish_cov; apply Hr|apply become_cov; apply Hr].
    - apply Hsame. intros P. load_w v1 E1. apply become_cov; apply Hr.
    - apply (Hfix _ (go_acts t (Cas j r cursor) g g)); [reflexivity|].
      load_w v1 E1. apply wlp_on_w. intros a w1 Ea. apply pure_attempt in Ea. subst w1.
      cbn [g_tab g_thr g_lock g_aw fst snd].
      destruct a as [[aligned next]|]; [|apply become_cov; apply Hr].
      load_w v2 E2. destruct (negb sp && (v2 =? cursor)); [|apply become_cov; apply Hr].
      apply wlp_on_w. intros [] w1 Es. inversion Es; subst w1; clear Es.
      apply wlp_bind. intros len g1 E. apply pure_sub in E. subst g1.
      apply wlp_bind. intros [] g1 E. apply pure_assert in E. subst g1.
      apply wlp_bind. intros [] g1 E. apply pure_assert in E. subst g1. apply bump_cov.
      apply allocated_cov. apply within_store. intros x Hx. right; left. exact Hx.
    - apply Hsame. intros P.
      destruct j; try apply wlp_ub. apply wlp_bind. intros e g1 E. apply pure_ptr_add in E. destruct E as [-> _].
      load_w v1 E1. destruct (v1 =? e); [|apply become_cov; apply Hr].
      destruct (checked_add (u_ptr u) (l_size new)); [|apply become_cov; apply Hr].
      load_w v2 E2. destruct (v2 <? z); apply become_cov; apply Hr.
    - apply (Hfix _ (go_acts t (TipCas j r cursor) g g)); [reflexivity|].
      destruct j; try apply wlp_ub. apply wlp_bind. intros e g1 E. apply pure_ptr_add in E. destruct E as [-> _].
      load_w v1 E1. destruct (v1 =? cursor); [|apply become_cov; apply Hr].
      apply wlp_on_w. intros [] w1 Es. inversion Es; subst w1; clear Es.
      apply wlp_bind. intros len g1 E. apply pure_sub in E. subst g1.
      apply wlp_bind. intros [] g1 E. apply pure_assert in E. subst g1. apply bump_cov.
      apply finish_cov. apply within_store. intros x Hx. left. exact Hx.
    - apply (Hfix _ (go_acts t (FreeCas j r) g g)); [reflexivity|].
      destruct j; try apply wlp_ub. apply wlp_on_w. intros [] w' E. apply finish_cov.
      unfold cmem at 2. cbn [g_aw snd]. set (P := fun x => _). revert E.
      apply (wlp_elim _ (snd (g_aw g)) (fun _ w' => within (cmem g) P (bw_mem w'))).
      unfold chunk_dealloc, cell_cas.
      apply wlp_bind. intros nw w1 E. apply pure_ptr_add in E. destruct E as [-> _].
      apply wlp_bind. apply wlp_bind. intros v w1 E. apply pure_load in E. destruct E as [-> _].
      destruct (u_ptr u =? v); [|apply wlp_ret; apply wlp_ret; apply Hr].
      apply wlp_bind. eapply wlp_mono; [apply (mstore_cov _ _ (snd (g_aw g)) P (cmem g) (Hr P))|].
      { intros x Hx. left. exact Hx. }
      intros _ w1 (H1 & _). apply wlp_ret. apply wlp_ret. exact H1.
    - destruct j; try (apply wlp_ub). cbv zeta. destruct (negb _); [apply wlp_ub|].
      destruct (i <? Z.min (l_size new) (l_size old)) eqn:Ei.
      2: apply Hsame; intros P; apply finish_cov; apply Hr.
      match type of Hp with _ = Some ?q => apply (Hfix _ (go_acts t q g g)) end; [reflexivity|]. cbn [go_acts]. rewrite Ei.
      apply wlp_on_w. intros [] w' E. apply become_cov. inversion E; subst w'.
      unfold cmem. cbn [g_aw snd bw_mem al_set_mem bot base al_mem]. intros x Hx.
      apply copy_other. destruct (Z.eq_dec x (b_ptr b + i)) as [->|N]; [|lia].
      destruct Hx. right; left. cbn. lia.
    - apply Hsame. intros P es g' E. unfold bind, get_g, put_lock in E. cbn in E.
      destruct next as [j|]; inversion E; subst; apply Hr.
    - apply Hsame. intros P es g' E. unfold bind, get_g in E.
      destruct (lk_writer (g_lock g)); [|destruct (lk_readers (g_lock g))]; inversion E; subst; apply Hr.
    - apply wlp_bind. intros r g1 E.
      unfold on_aw, arena_alloc_slow, with_aw in E. unfold bind at 1 in E.
      destruct (alloc_slow A dbg (ar_root (fst (g_aw g))) (ar_min (fst (g_aw g))) (job_layout j) (snd (g_aw g)))
        as [q w'| | |] eqn:Es; try discriminate.
      pose proof (alloc_slow_cov _ _ _ _ _ _ Es) as Hc.
      assert (E1 : snd (g_aw g1) = w').
      { destruct q as [[b c]|]; inversion E; subst; reflexivity. }
      assert (Hu : forall u, outstanding (bw_trace w') = u :: outstanding (bw_trace (snd (g_aw g))) -> HDR <= u_len u).
      { intros u Eu. pose proof C as (_ & _ & Hm & _ & _ & Hpc & _). destruct (Hpc _ _ Hp) as (Hj & Tj).
        assert (Hl : req_ok (su_smax su) (job_layout j)).
        { destruct j; cbn in Hj |- *; [exact Hj|tauto|contradiction]. }
        pose proof (su_cfg su Hok) as Hcfg. rewrite <- Hm in Hcfg.
        pose proof (alloc_slow_ok amax (su_smax su) (su_bmax su) A (base_own (su_amax su) (su_bmax su)) ctx (su_amax_ok su Hok) dbg
               [] cs (fst (g_aw g)) (snd (g_aw g)) _ (job_layout j) R Hl (cfg_ok_for Hcfg)) as H.
        unfold wp in H. rewrite Es in H. destruct H as (_ & H). destruct q as [[b q]|].
        - destruct H as (_ & _ & c & (_ & w1 & Ew & Q) & _ & _ & _ & R2).
          assert (u = c_u c).
          { rewrite (quiet_trace su _ _ Q) in Eu.
            pose proof (j_alloc _ _ (held_jinv su) (map c_u cs) _ w1 _ _ Hh Ew) as X. unfold held_j in X.
            rewrite Eu in X. cbn in X. inversion X. destruct (c_u c); reflexivity. }
          subst u. destruct (arep_chunk_ok _ _ _ _ ctx _ _ _ _ _ c R2 (or_introl eq_refl)) as ((_ & _ & Wc) & _).
          unfold c_base, c_end, c_ptr in Wc. lia.
        - destruct H as (H & _). exfalso.
          assert (outstanding (bw_trace w') = outstanding (bw_trace (snd (g_aw g)))).
          { destruct H as [[_ ->]|(lay & _ & Ew)]; [reflexivity|].
            pose proof (j_alloc _ _ (held_jinv su) (map c_u cs) _ w' _ _ Hh Ew) as X. unfold held_j in X. congruence. }
          rewrite H0 in Eu. apply (f_equal (@length _)) in Eu. cbn in Eu. lia. }
      assert (Hlast : forall g', cmem g' = bw_mem w' -> cheld g' = outstanding (bw_trace w') ->
        within (cmem g) (fun x => Exists (writes x) (go_acts t (Slow j) g g')) (cmem g')).
      { intros g' Em Eh. rewrite Em. intros x N. apply Hc. intros (u & Eu & Hx). apply N. clear N. cbn [go_acts].
        rewrite Eh, Eu. fold (cheld g). cbn [length]. replace (S (length (cheld g)) - length (cheld g))%nat with 1%nat by lia.
        right. apply Exists_app. right. cbn [firstn all_of map]. left. cbn. specialize (Hu u Eu). lia. }
      clear E. intros es g' E.
      assert (X : cmem g' = cmem g1 /\ cheld g' = cheld g1).
      { destruct r as [b|].
        - unfold allocated in E. destruct j as [l|h u old new|h u l]; try (rewrite finish_eq in E); inversion E; split; reflexivity.
        - rewrite finish_eq in E. inversion E; split; reflexivity. }
      destruct X as [X1 X2]. apply Hlast; [rewrite X1|rewrite X2]; unfold cmem, cheld; rewrite E1; reflexivity.
  Qed.

  Lemma cstep_writes cs g s c : cinvx su cs g s ->
    wlp (cstep su c) g (fun es g' => within (cmem g) (fun x => Exists (writes x) (acts c g es g')) (cmem g')).
  Proof.
    intros C es g' E. unfold cstep in E. unfold bind at 1, get_g in E.
    assert (Hs : forall P, ret [] g = ORet es g' -> within (cmem g) P (cmem g')).
    { intros P E'. inversion E'; subst. apply within_refl. }
    destruct c as [t o|t sp|t v|keep]; cbn [acts].
    - destruct (nth_error (g_thr g) t) as [p|] eqn:Hp; [|apply (Hs _ E)].
      destruct p; try (apply (Hs _ E)). unfold begin in E. unfold bind at 1, get_g in E.
      assert (Hb : forall P j, (become t (WantRead j) ;;; ret [Call t o]) g = ORet es g' -> within (cmem g) P (cmem g')).
      { intros P j E'. inversion E'; subst. apply within_refl. }
      destruct o as [l z|h off cl|h l|h old new|h old new|keep]; try (apply (Hs _ E)).
      + destruct z; [apply (Hs _ E)|]. destruct (req_okb _ _); [apply (Hb _ _ E)|apply (Hs _ E)].
      + destruct (get h (g_tab g)) as [u|] eqn:G; [|apply (Hs _ E)].
        destruct (negb _ && _ && _); [|apply (Hs _ E)].
        revert E. unfold bind, on_w, on_aw, with_aw, ret. cbn [fst snd]. intros E. inversion E; subst.
        cbn [begin_acts]. rewrite G. unfold cmem. cbn [g_aw snd bw_mem al_set_mem bot base al_mem].
        intros x N. apply write_cells_other. destruct (Z.lt_ge_cases x (u_ptr u + off)); [lia|].
        destruct (Z.lt_ge_cases x (u_ptr u + off + Z.of_nat (length cl))); [|lia].
        destruct N. right; left. cbn. lia.
      + destruct (get h (g_tab g)) as [u|]; [|apply (Hs _ E)]. destruct (negb _ && _); [apply (Hb _ _ E)|apply (Hs _ E)].
      + destruct (get h (g_tab g)) as [u|]; [|apply (Hs _ E)].
        destruct (negb _ && _ && _); [apply (Hb _ _ E)|apply (Hs _ E)].
      + destruct keep; [|apply (Hs _ E)]. destruct (forallb away (g_thr g)); [|apply (Hs _ E)].
        unfold bind at 1, on_aw in E. destruct (do_reset su true (g_aw g)) as [[] aw'| | |] eqn:Er; try discriminate.
        inversion E; subst. cbn [begin_acts]. unfold cmem at 2. cbn [g_aw].
        intros x N. apply (reset_cov cs g s true C _ _ Er). intros (u & Hu & Hx). apply N. right.
        apply Exists_app. right. right. apply Exists_app. left. apply Exists_exists.
        exists (Acc t (Bytes (u_ptr u) (u_len u)) NaWrite). split; [|exact Hx].
        unfold all_of. apply in_map_iff. exists u. auto.
    - destruct (nth_error (g_thr g) t) as [p|] eqn:Hp; [|apply (Hs _ E)].
      apply (go_writes cs g s t p sp C Hp es g' E).
    - destruct (nth_error (g_thr g) t) as [p|] eqn:Hp; [|apply (Hs _ E)].
      destruct (stale_ok su t p v g es g' E) as [[-> ->]|[(-> & p' & Ep & ->)|(h & u & l & r & -> & F)]];
        try apply within_refl.
      rewrite finish_eq in F. inversion F; subst. apply within_refl.
    - destruct (forallb is_idle (g_thr g)); [|apply (Hs _ E)].
      apply reset_shape in E. destruct E as (-> & _). intros x N. destruct N. left. exact I.
  Qed.

  (** ** Reads *)

  (** Operations that do not use the state. *)
  Definition stateless {B} (m : forall W, M W B) : Prop :=
    forall W V (w : W) (v : V) b w', m W w = ORet b w' -> w' = w /\ m V v = ORet b v.

  Lemma sl_assert x : stateless (fun W => debug_assert (W := W) dbg x).
  Proof. intros W V w v b w'. unfold debug_assert, ret, panic. destruct (dbg && negb x); [discriminate|]. intros E; inversion E; auto. Qed.
  Lemma sl_add x y : stateless (fun W => add_usize (W := W) dbg x y).
  Proof.
    intros W V w v b w'. unfold add_usize, ret, panic. destruct (_ <=? _); [intros E; inversion E; auto|].
    destruct dbg; [discriminate|]. intros E; inversion E; auto.
  Qed.
  Lemma sl_sub x y : stateless (fun W => sub_usize (W := W) dbg x y).
  Proof.
    intros W V w v b w'. unfold sub_usize, ret, panic. destruct (_ <=? _); [intros E; inversion E; auto|].
    destruct dbg; [discriminate|]. intros E; inversion E; auto.
  Qed.
  Lemma sl_ptr_add x y : stateless (fun W => ptr_add (W := W) x y).
  Proof. intros W V w v b w'. unfold ptr_add, ret, ub. destruct (_ <=? _); [|discriminate]. intros E; inversion E; auto. Qed.
  Lemma sl_ret {B} (b : B) : stateless (fun W => ret (W := W) b).
  Proof. intros W V w v b' w' E. inversion E; auto. Qed.
  Lemma sl_bind {B C} (m : forall W, M W B) (f : forall W, B -> M W C) :
    stateless m -> (forall b, stateless (fun W => f W b)) -> stateless (fun W => bind (m W) (f W)).
  Proof.
    intros Hm Hf W V w v c w' E. unfold bind in *. destruct (m W w) as [b w1| | |] eqn:E1; try discriminate.
    destruct (Hm W V w v b w1 E1) as [-> ->]. apply (Hf b W V w v c w' E).
  Qed.
  Lemma sl_attempt l c e : stateless (fun W => alloc_attempt (W := W) dbg l c e).
  Proof.
    unfold alloc_attempt, layout_sum. apply sl_bind; [apply sl_add|]. intros sum. destruct (checked_add c sum); [|apply sl_ret].
    apply sl_bind; [apply sl_sub|]. intros u. cbv zeta.
    apply (sl_bind (fun W => debug_assert dbg _) (fun W _ => _)); [apply sl_assert|]. intros _.
    apply sl_bind; [apply sl_sub|]. intros d.
    apply (sl_bind (fun W => debug_assert dbg _) (fun W _ => _)); [apply sl_assert|]. intros _.
    apply sl_bind; [apply sl_add|]. intros n. destruct (e <? n); [apply sl_ret|].
    apply sl_bind; [apply sl_ptr_add|]. intros a. apply sl_bind; [apply sl_ptr_add|]. intros n'. apply sl_ret.
  Qed.

  (** Two worlds that agree on the places in [S]. *)
  Definition alike (S : Z -> Prop) (w v : bworld) : Prop :=
    bw_trace v = bw_trace w /\ forall x, S x -> bw_mem v x = bw_mem w x.

  (** What [m] does from [w] it does from every world that agrees on [S]; afterwards they agree on [S']. *)
  Definition dep {B} (S : Z -> Prop) (m : M bworld B) (w : bworld) (S' : B -> Z -> Prop) : Prop :=
    forall v, alike S w v -> forall b w', m w = ORet b w' -> exists v', m v = ORet b v' /\ alike (S' b) w' v'.

  Lemma dep_ret {B} (S : Z -> Prop) (b : B) w (S' : B -> Z -> Prop) : (forall x, S' b x -> S x) -> dep S (ret b) w S'.
  Proof.
    intros H v [T M] b' w' E. inversion E; subst. exists v. split; [reflexivity|]. split; [exact T|]. intros x Hx. apply M, H, Hx.
  Qed.
  Lemma dep_ub {B} (S : Z -> Prop) w (S' : B -> Z -> Prop) : dep S ub w S'.
  Proof. intros v _ b w' E. discriminate. Qed.
  Lemma dep_bind {B C} (S : Z -> Prop) (m : M bworld B) (f : B -> M bworld C) w S1 S2 :
    dep S m w S1 -> (forall b w', m w = ORet b w' -> dep (S1 b) (f b) w' S2) -> dep S (bind m f) w S2.
  Proof.
    intros Hm Hf v Hv c w' E. unfold bind in *. destruct (m w) as [b w1| | |] eqn:E1; try discriminate.
    destruct (Hm v Hv b w1 E1) as (v1 & -> & Hv1). apply (Hf b w1 eq_refl v1 Hv1 c w' E).
  Qed.
  Lemma dep_sl {B C} (S : Z -> Prop) (m : forall W, M W B) (f : B -> M bworld C) w S2 : stateless m ->
    (forall b, dep S (f b) w S2) -> dep S (bind (m bworld) f) w S2.
  Proof.
    intros Hm Hf. apply (dep_bind S _ _ _ (fun _ => S)).
    - intros v Hv b w' E. destruct (Hm _ bworld w v b w' E) as [-> ->]. eauto.
    - intros b w' E. destruct (Hm _ bworld w w b w' E) as [-> _]. apply Hf.
  Qed.
  Lemma dep_load {C} (S : Z -> Prop) a (f : Z -> M bworld C) w S2 : (forall x, a <= x < a + 8 -> S x) ->
    (forall b, dep S (f b) w S2) -> dep S (bind (mload A a 8) f) w S2.
  Proof.
    intros HS Hf. apply (dep_bind S _ _ _ (fun _ => S)).
    - intros v [T M] b w' E. pose proof (pure_load A _ _ _ _ _ E) as [-> L]. exists v. split; [|split; assumption].
      unfold mload in *. cbn [al_mem bot base] in *. rewrite (load_ext (bw_mem w) (bw_mem v) a 8); [|lia|intros x Hx; apply M, HS, Hx].
      rewrite L. reflexivity.
    - intros b w' E. apply pure_load in E. destruct E as [-> _]. apply Hf.
  Qed.
  Lemma dep_store {C} (S : Z -> Prop) a z (f : unit -> M bworld C) w S2 :
    (forall w', dep (fun x => S x \/ a <= x < a + 8) (f tt) w' S2) -> dep S (bind (mstore A a 8 z) f) w S2.
  Proof.
    intros Hf. apply (dep_bind S _ _ _ (fun _ x => S x \/ a <= x < a + 8)).
    - intros v [T M] b w' E. inversion E; subst. eexists. split; [reflexivity|]. split; [exact T|].
      intros x Hx. cbn. unfold store. destruct (_ && _) eqn:Eb; [reflexivity|]. apply M.
      destruct Hx as [Hx|Hx]; [exact Hx|lia].
    - intros [] w' _. apply Hf.
  Qed.

  Lemma init_dep slice prev w (S : Z -> Prop) :
    (forall p x, prev = Some p -> p <= x < p + HDR -> S x) ->
    dep S (init_chunk A dbg slice prev) w (fun c x => S x \/ c <= x < c + HDR).
  Proof.
    intros HS. unfold init_chunk. cbv zeta.
    apply (dep_sl S (fun W => debug_assert dbg _)); [apply sl_assert|]. intros _.
    apply (dep_sl S (fun W => debug_assert dbg _)); [apply sl_assert|]. intros _.
    apply (dep_sl S (fun W => ptr_add _ _)); [apply sl_ptr_add|]. intros e.
    apply (dep_sl S (fun W => ptr_add _ _)); [apply sl_ptr_add|]. intros bs.
    apply (dep_bind S _ _ _ (fun _ => S)).
    { destruct prev as [p|]; [|apply dep_ret; auto]. unfold chunk_cap.
      assert (HH : forall x, p <= x < p + HDR -> S x) by (intros x; apply HS; reflexivity).
      unfold HDR, END, CUM in *. apply (dep_bind S _ _ _ (fun _ => S)).
      - apply dep_load; [intros x Hx; apply HH; lia|]. intros b. apply dep_ret; auto.
      - intros b w' _. apply dep_load; [intros x Hx; apply HH; lia|]. intros b'.
        intros v Hv z w2 E. destruct (sl_add _ _ _ bworld _ v _ _ E) as [-> E2]. eauto. }
    intros cum w1 _. apply dep_store. intros w2. apply dep_store. intros w3. apply dep_store. intros w4.
    apply dep_store. intros w5. apply dep_ret. intros x [Hx|Hx]; [tauto|].
    unfold CURSOR, END, PREV, CUM, HDR in *. set (q := b_ptr slice) in *.
    assert (H : q + 0 <= x < q + 0 + 8 \/ q + 8 <= x < q + 8 + 8 \/ q + 16 <= x < q + 16 + 8 \/ q + 24 <= x < q + 24 + 8) by lia.
    tauto.
  Qed.

  Lemma chunk_alloc_dep c l w (S : Z -> Prop) : (forall x, c <= x < c + HDR -> S x) ->
    dep S (chunk_alloc A dbg c l) w (fun _ => S).
  Proof.
    intros HS. unfold chunk_alloc, HDR, CURSOR, END in *.
    apply dep_load; [intros x Hx; apply HS; lia|]. intros cur.
    apply dep_load; [intros x Hx; apply HS; lia|]. intros e.
    apply (dep_sl S (fun W => alloc_attempt dbg _ _ _)); [apply sl_attempt|]. intros [[a n]|]; [|apply dep_ret; auto].
    apply (dep_bind S _ _ _ (fun _ => S)).
    - unfold cell_cas_weak. apply dep_load; [intros x Hx; apply HS; lia|]. intros v.
      apply (dep_sl S (fun W => debug_assert dbg _)); [apply sl_assert|]. intros _.
      intros v1 [T M] b w' E. inversion E; subst. eexists. split; [reflexivity|]. split; [exact T|].
      intros x Hx. cbn. unfold store. destruct (_ && _); [reflexivity|]. apply M, Hx.
    - intros _ w1 _. apply (dep_sl S (fun W => sub_usize dbg _ _)); [apply sl_sub|]. intros len.
      apply (dep_sl S (fun W => debug_assert dbg _)); [apply sl_assert|]. intros _.
      apply (dep_sl S (fun W => debug_assert dbg _)); [apply sl_assert|]. intros _. apply dep_ret. auto.
  Qed.

  Lemma allocate_dep l w (S : Z -> Prop) : dep S (al_allocate A l) w (fun r x => S x \/
    match r with Some b => b_ptr b <= x < b_ptr b + b_len b | None => False end).
  Proof.
    intros v [T M] r w' E. cbn [al_allocate bot base] in *. unfold base_allocate in *.
    destruct (negb _); [discriminate|]. cbv zeta in *. inversion E as [[E1 E2]]. rewrite T. eexists. split; [reflexivity|].
    split; [reflexivity|]. cbn [bw_mem]. intros x Hx.
    destruct (st_alloc (su_strat su) (bw_trace w) l) as [b|]; [|apply M; tauto].
    unfold fill. destruct ((b_ptr b <=? x) && (x <? b_ptr b + b_len b)) eqn:Eb; [reflexivity|].
    apply M. destruct Hx as [Hx|Hx]; [exact Hx|lia].
  Qed.

  (** [alloc_slow] reads the header of the root chunk and the header it has just written. *)
  Lemma alloc_slow_dep root mn l w (S : Z -> Prop) :
    (forall r x, root = Some r -> r <= x < r + HDR -> S x) ->
    dep S (alloc_slow A dbg root mn l) w (fun _ => S).
  Proof.
    intros HS. unfold alloc_slow. apply (dep_bind S _ _ _ (fun _ => S)).
    { destruct root as [r|]; [|apply dep_ret; auto].
      assert (HH : forall x, r <= x < r + HDR -> S x) by (intros x; apply HS; reflexivity). unfold HDR, CUM in *.
      apply dep_load; [intros x Hx; apply HH; lia|]. intros c. apply dep_ret. auto. }
    intros cum w1 _. destruct (next_chunk_size cum mn l) as [size|]; [|apply dep_ret; auto].
    apply (dep_sl S (fun W => debug_assert dbg _)); [apply sl_assert|]. intros _.
    apply (dep_bind S _ _ _ (fun r x => S x \/ match r with Some c => c <= x < c + HDR | None => False end)).
    { unfold alloc_chunk. destruct (align_up size HDR_ALIGN) as [sz|]; [|apply dep_ret; tauto].
      eapply dep_bind; [apply allocate_dep|]. intros [b|] w2 _; [|apply dep_ret; cbn; tauto].
      eapply dep_bind.
      - apply init_dep. intros p x E Hx. left. apply (HS p x E Hx).
      - intros c w3 _. apply dep_ret. cbn. tauto. }
    intros [c|] w2 _; [|apply dep_ret; cbn; tauto].
    eapply dep_bind; [apply chunk_alloc_dep; cbn; tauto|]. intros [b|] w3 _; [|apply dep_ub]. apply dep_ret. cbn. tauto.
  Qed.

  (** The same for whole states. *)
  Definition galike (S : Z -> Prop) (g h : gst) : Prop :=
    g_tab h = g_tab g /\ g_thr h = g_thr g /\ g_lock h = g_lock g /\ fst (g_aw h) = fst (g_aw g) /\
    alike S (snd (g_aw g)) (snd (g_aw h)).

  Definition gdep {B} (S : Z -> Prop) (m : M gst B) (g : gst) : Prop :=
    forall h, galike S g h -> forall b g', m g = ORet b g' -> exists h', m h = ORet b h' /\ galike S g' h'.

  Lemma gdep_ret {B} (S : Z -> Prop) (b : B) g : gdep S (ret b) g.
  Proof. intros h Hh b' g' E. inversion E; subst. exists h. split; [reflexivity|exact Hh]. Qed.
  Lemma gdep_ub {B} (S : Z -> Prop) g : gdep (B := B) S ub g.
  Proof. intros h _ b g' E. discriminate. Qed.
  Lemma gdep_bind {B C} (S : Z -> Prop) (m : M gst B) (f : B -> M gst C) g :
    gdep S m g -> (forall b g', m g = ORet b g' -> gdep S (f b) g') -> gdep S (bind m f) g.
  Proof.
    intros Hm Hf h Hh c g' E. unfold bind in *. destruct (m g) as [b g1| | |] eqn:E1; try discriminate.
    destruct (Hm h Hh b g1 E1) as (h1 & -> & Hh1). apply (Hf b g1 eq_refl h1 Hh1 c g' E).
  Qed.
  Lemma gdep_sl {B C} (S : Z -> Prop) (m : forall W, M W B) (f : B -> M gst C) g : stateless m ->
    (forall b, gdep S (f b) g) -> gdep S (bind (m gst) f) g.
  Proof.
    intros Hm Hf. apply gdep_bind.
    - intros v Hv b w' E. destruct (Hm _ gst g v b w' E) as [-> ->]. eauto.
    - intros b w' E. destruct (Hm _ gst g g b w' E) as [-> _]. apply Hf.
  Qed.
  Lemma gdep_on_w {B C} S (m : M bworld B) (f : B -> M gst C) g : dep S m (snd (g_aw g)) (fun _ => S) ->
    (forall b w', m (snd (g_aw g)) = ORet b w' -> gdep S (f b) (mkG (g_tab g) (g_thr g) (g_lock g) (fst (g_aw g), w'))) ->
    gdep S (bind (on_w m) f) g.
  Proof.
    intros Hm Hf. apply gdep_bind.
    - intros h (H1 & H2 & H3 & H4 & H5) b g' E. unfold on_w, on_aw, with_aw, bind, ret in *.
      destruct (m (snd (g_aw g))) as [b0 w0| | |] eqn:Em; try discriminate. inversion E; subst.
      destruct (Hm _ H5 b w0 Em) as (v & Ev & Hv). rewrite Ev. eexists. split; [reflexivity|].
      repeat split; cbn; try assumption; apply Hv.
    - intros b g' E. unfold on_w, on_aw, with_aw, bind, ret in E.
      destruct (m (snd (g_aw g))) as [b0 w0| | |] eqn:Em; try discriminate. inversion E; subst. apply Hf. reflexivity.
  Qed.
  Lemma gdep_word {C} (S : Z -> Prop) a (f : Z -> M gst C) g : (forall x, a <= x < a + 8 -> S x) ->
    (forall b, gdep S (f b) g) -> gdep S (bind (on_w (mload A a 8)) f) g.
  Proof.
    intros HS Hf. apply gdep_on_w.
    - intros v [T M] b w' E. pose proof (pure_load A _ _ _ _ _ E) as [-> L]. exists v. split; [|split; assumption].
      unfold mload in *. cbn [al_mem bot base] in *.
      rewrite (load_ext (bw_mem (snd (g_aw g))) (bw_mem v) a 8); [|lia|intros x Hx; apply M, HS, Hx].
      rewrite L. reflexivity.
    - intros b w' E. apply pure_load in E. destruct E as [-> _]. destruct g as [tab thr k [ar w]]. apply Hf.
  Qed.
  Lemma gdep_set_word {C} (S : Z -> Prop) a z (f : unit -> M gst C) g :
    (forall g', gdep S (f tt) g') -> gdep S (bind (on_w (mstore A a 8 z)) f) g.
  Proof.
    intros Hf. apply gdep_on_w.
    - intros v [T M] b w' E. inversion E; subst. eexists. split; [reflexivity|]. split; [exact T|].
      intros x Hx. cbn. unfold store. destruct (_ && _); [reflexivity|]. apply M, Hx.
    - intros [] w' _. apply Hf.
  Qed.
  Lemma gdep_attempt {C} (S : Z -> Prop) l c e (f : option (Z * Z) -> M gst C) g :
    (forall b, gdep S (f b) g) -> gdep S (bind (on_w (alloc_attempt dbg l c e)) f) g.
  Proof.
    intros Hf. apply gdep_on_w.
    - intros v Hv b w' E. destruct (sl_attempt l c e _ bworld _ v b w' E) as [-> E2]. eauto.
    - intros b w' E. apply pure_attempt in E. subst w'. destruct g as [tab thr k [ar w]]. apply Hf.
  Qed.
  Lemma gdep_become (S : Z -> Prop) t p (es : list event) g : gdep S (become t p ;;; ret es) g.
  Proof.
    intros h (H1 & H2 & H3 & H4 & H5) b g' E. inversion E; subst. eexists. split; [reflexivity|].
    repeat split; cbn; try congruence; apply H5.
  Qed.
  Lemma gdep_finish (S : Z -> Prop) t j wr r g : gdep S (finish t j wr r) g.
  Proof.
    intros h (H1 & H2 & H3 & H4 & H5) b g' E. rewrite finish_eq in *. inversion E; subst. eexists. split; [reflexivity|].
    repeat split; cbn; try congruence; apply H5.
  Qed.
  Lemma gdep_allocated (S : Z -> Prop) t j b wr g : gdep S (allocated t j b wr) g.
  Proof. unfold allocated. destruct j; [apply gdep_finish|apply gdep_become|apply gdep_finish]. Qed.
  Lemma gdep_bump (S : Z -> Prop) t (m : M gst (list event)) g : gdep S m g -> gdep S (ev <- m ;; ret (Bump t :: ev)) g.
  Proof. intros H. apply gdep_bind; [exact H|]. intros b g' _. apply gdep_ret. Qed.

  Lemma go_reads cs g s t p sp (S : Z -> Prop) : cinvx su cs g s -> nth_error (g_thr g) t = Some p ->
    (forall x, Exists (touches x) (go_acts t p g g) -> S x) -> gdep S (go su t p sp) g.
  Proof.
    intros C Hp HS. pose proof C as (R & Hh & _). destruct p; cbn [go]; cbn [go_acts] in HS.
    - apply gdep_ret.
    - intros h (H1 & H2 & H3 & H4 & H5) b g' E. unfold bind at 1, get_g in E. unfold bind at 1, get_g. rewrite H3.
      destruct (lk_writer (g_lock g)).
      { inversion E; subst. exists h. split; [reflexivity|]. repeat split; auto; apply H5. }
      unfold put_lock, bind at 1 in E. unfold put_lock, bind at 1.
      assert (Hg : galike S (mkG (g_tab g) (g_thr g) (with_reader t (g_lock g)) (g_aw g))
                            (mkG (g_tab h) (g_thr h) (with_reader t (g_lock g)) (g_aw h))).
      { repeat split; cbn; auto; apply H5. }
      rewrite H4. revert Hg b g' E.
      match goal with |- galike S ?a ?b -> _ => generalize b; generalize a end. intros g1 g2 Hg b g' E.
      assert (X : gdep S (enter t j (ar_root (fst (g_aw g)))) g1); [|apply (X _ Hg _ _ E)].
      unfold enter. destruct (ar_root (fst (g_aw g))) as [r|], j; try apply gdep_finish; try apply gdep_become.
      destruct (l_align new <=? l_align old); [|apply gdep_become].
      destruct (l_size new <=? l_size old); [apply gdep_finish|apply gdep_become].
    - apply gdep_word; [|intros v; apply gdep_become]. intros x Hx. apply HS. left. exact Hx.
    - apply gdep_word; [intros x Hx; apply HS; left; exact Hx|]. intros e.
      apply gdep_attempt. intros [[a n]|]; [|apply gdep_become].
      apply gdep_word; [intros x Hx; apply HS; right; left; exact Hx|]. intros v.
      destruct (negb sp && (v =? cursor)); [|apply gdep_become].
      apply gdep_set_word. intros g1.
      apply (gdep_sl S (fun W => sub_usize dbg _ _)); [apply sl_sub|]. intros len.
      apply (gdep_sl S (fun W => debug_assert dbg _)); [apply sl_assert|]. intros _.
      apply (gdep_sl S (fun W => debug_assert dbg _)); [apply sl_assert|]. intros _.
      apply gdep_bump, gdep_allocated.
    - destruct j; try apply gdep_ub. apply (gdep_sl S (fun W => ptr_add _ _)); [apply sl_ptr_add|]. intros e.
      apply gdep_word; [intros x Hx; apply HS; left; exact Hx|]. intros v.
      destruct (v =? e); [|apply gdep_become].
      destruct (checked_add (u_ptr u) (l_size new)); [|apply gdep_become].
      apply gdep_word; [intros x Hx; apply HS; right; left; exact Hx|]. intros v2.
      destruct (v2 <? z); apply gdep_become.
    - destruct j; try apply gdep_ub. apply (gdep_sl S (fun W => ptr_add _ _)); [apply sl_ptr_add|]. intros e.
      apply gdep_word; [intros x Hx; apply HS; left; exact Hx|]. intros v.
      destruct (v =? cursor); [|apply gdep_become]. apply gdep_set_word. intros g1.
      apply (gdep_sl S (fun W => sub_usize dbg _ _)); [apply sl_sub|]. intros len.
      apply (gdep_sl S (fun W => debug_assert dbg _)); [apply sl_assert|]. intros _.
      apply gdep_bump, gdep_finish.
    - destruct j; try apply gdep_ub. apply gdep_on_w; [|intros [] w' _; apply gdep_finish].
      unfold chunk_dealloc, cell_cas. apply (dep_sl S (fun W => ptr_add _ _)); [apply sl_ptr_add|]. intros e.
      apply (dep_bind S _ _ _ (fun _ => S)).
      + apply dep_load; [intros x Hx; apply HS; left; exact Hx|]. intros v.
        destruct (u_ptr u =? v); [|apply dep_ret; auto]. apply dep_store. intros w'. apply dep_ret. auto.
      + intros b w' _. apply dep_ret. auto.
    - destruct j; try apply gdep_ub. cbv zeta. destruct (negb _); [apply gdep_ub|].
      destruct (i <? Z.min (l_size new) (l_size old)) eqn:Ei; [|apply gdep_finish].
      apply gdep_on_w; [|intros [] w' _; apply gdep_become].
      intros v [T M] b' w' E. inversion E; subst. eexists. split; [reflexivity|]. split; [exact T|].
      intros x Hx. cbn. unfold copy. destruct ((b_ptr b + i <=? x) && (x <? b_ptr b + i + 1)) eqn:Eb; [|apply M, Hx].
      apply M, HS. left. cbn. lia.
    - intros h0 (H1 & H2 & H3 & H4 & H5) b g' E. unfold bind, get_g, put_lock in *. rewrite H3. cbn in *.
      destruct next as [j|]; inversion E; subst; (eexists; split; [reflexivity|]); repeat split; cbn; try congruence; apply H5.
    - intros h0 (H1 & H2 & H3 & H4 & H5) b g' E. unfold bind, get_g, put_lock in *. rewrite H3. cbn in *.
      destruct (lk_writer (g_lock g)); [|destruct (lk_readers (g_lock g))]; inversion E; subst; (eexists; split; [reflexivity|]);
        repeat split; cbn; try congruence; apply H5.
    - intros h0 (H1 & H2 & H3 & H4 & H5) b g' E. unfold bind at 1 in E. unfold bind at 1.
      unfold on_aw, arena_alloc_slow, with_aw in *. unfold bind at 1 in E. unfold bind at 1.
      destruct (alloc_slow A dbg (ar_root (fst (g_aw g))) (ar_min (fst (g_aw g))) (job_layout j) (snd (g_aw g)))
        as [q w'| | |] eqn:Es; try discriminate.
      assert (HH : forall r x, ar_root (fst (g_aw g)) = Some r -> r <= x < r + HDR -> S x).
      { intros r x Er Hx. apply HS. right. apply Exists_app. left.
        pose proof (ar_head _ _ _ _ _ _ _ _ R) as Hhd. rewrite Er in Hhd. destruct cs as [|c cs']; [discriminate|].
        inversion Hhd; subst r. apply Exists_exists. exists (Acc t (Bytes (c_ptr c) HDR) NaWrite). split; [|exact Hx].
        unfold headers_of. apply in_map_iff. exists (c_u c). split; [reflexivity|]. unfold cheld. rewrite <- Hh. left. reflexivity. }
      destruct (alloc_slow_dep _ _ _ _ S HH _ H5 _ _ Es) as (v' & Ev & Hv). rewrite H4. rewrite Ev.
      destruct q as [[b0 c]|]; cbn [ret fst snd] in *.
      + refine (gdep_allocated S t j b0 true _ _ _ b g' E). repeat split; cbn; try assumption; apply Hv.
      + refine (gdep_finish S t j true None _ _ _ b g' E). repeat split; cbn; try assumption; apply Hv.
  Qed.

  Lemma old_value_dep {C} (S : Z -> Prop) r v (f : bool -> M gst C) g : (forall x, r + CURSOR <= x < r + CURSOR + 8 -> S x) ->
    (forall b, gdep S (f b) g) -> gdep S (bind (old_value su r v) f) g.
  Proof.
    intros HS Hf. unfold old_value.
    assert (X : gdep S (cur <- on_w (mload A (r + CURSOR) 8) ;; f ((r + HDR <=? v) && (v <=? cur))) g).
    { apply gdep_word; [exact HS|]. intros b. apply Hf. }
    intros h Hh c g' E. destruct (X h Hh c g') as (h' & E' & Hh').
    - unfold bind, ret in *. destruct (on_w (mload A (r + CURSOR) 8) g); try discriminate; exact E.
    - exists h'. split; [|exact Hh']. unfold bind, ret in *. destruct (on_w (mload A (r + CURSOR) 8) h); try discriminate; exact E'.
  Qed.

  Lemma stale_reads cs g s t p v (S : Z -> Prop) : cinvx su cs g s -> nth_error (g_thr g) t = Some p ->
    (forall x, Exists (touches x) (stale_acts t p g g) -> S x) -> gdep S (stale su t p v) g.
  Proof.
    intros C Hp HS. destruct p; cbn [stale]; cbn [stale_acts go_acts] in HS; try apply gdep_ret.
    - apply old_value_dep; [intros x Hx; apply HS; left; exact Hx|]. intros [|]; [apply gdep_become|apply gdep_ret].
    - apply gdep_word; [intros x Hx; apply HS; left; exact Hx|]. intros e.
      apply gdep_attempt. intros [a|]; [|apply gdep_become].
      apply old_value_dep; [intros x Hx; apply HS; right; left; exact Hx|]. intros [|]; [apply gdep_become|apply gdep_ret].
    - destruct j; try apply gdep_ub. apply (gdep_sl S (fun W => ptr_add _ _)); [apply sl_ptr_add|]. intros e.
      apply old_value_dep; [intros x Hx; apply HS; left; exact Hx|]. intros [|]; [|apply gdep_ret].
      destruct (v =? e); [|apply gdep_become].
      destruct (checked_add (u_ptr u) (l_size new)); [|apply gdep_become].
      apply gdep_word; [intros x Hx; apply HS; right; left; exact Hx|]. intros v2.
      destruct (v2 <? z); apply gdep_become.
    - apply old_value_dep; [intros x Hx; apply HS; left; exact Hx|].
      intros b. destruct (b && _); [apply gdep_become|apply gdep_ret].
    - destruct j; try apply gdep_ub. apply old_value_dep; [intros x Hx; apply HS; left; exact Hx|].
      intros b. destruct (b && _); [apply gdep_finish|apply gdep_ret].
  Qed.

  Lemma cstep_covered n sched es g c es' g' x : creached su n sched es g -> cstep su c g = ORet es' g' ->
    (forall a, In a (acts c g es' g') -> ~ writes x a) -> cmem g' x = cmem g x.
  Proof.
    intros H E Hx. apply (creached_inv su Hok) in H. destruct H as (cs & C).
    apply (cstep_writes cs g _ c C es' g' E). intros He. apply Exists_exists in He. destruct He as (a & Ha & Hw).
    apply (Hx a Ha Hw).
  Qed.

  Definition recorded (c : choice) (g : gst) (es : list event) (g' : gst) (x : Z) : Prop :=
    exists a, In a (acts c g es g') /\ touches x a.

  Lemma cstep_reads n sched es g c es' g' h : creached su n sched es g ->
    match c with Go _ _ | Stale _ _ => True | _ => False end -> cstep su c g = ORet es' g' ->
    galike (recorded c g es' g') g h ->
    exists h', cstep su c h = ORet es' h' /\ galike (recorded c g es' g') g' h'.
  Proof.
    intros H Hc E Hh. apply (creached_inv su Hok) in H. destruct H as (cs & C).
    set (S := recorded c g es' g') in *. pose proof Hh as (_ & H2 & _).
    unfold cstep in *. unfold bind at 1, get_g in E. unfold bind at 1, get_g.
    destruct c as [t o|t sp|t v|keep]; try contradiction; rewrite H2;
      (destruct (nth_error (g_thr g) t) as [p|] eqn:Hp; [|inversion E; subst; exists h; split; [reflexivity|exact Hh]]).
    - refine (go_reads cs g _ t p sp S C Hp _ h Hh es' g' E). intros x Hx. apply Exists_exists in Hx.
      destruct Hx as (a & Ha & Hx). exists a. split; [|exact Hx]. cbn [acts]. rewrite Hp.
      destruct p; try exact Ha. cbn [go_acts] in *. rewrite Nat.sub_diag in Ha. cbn [firstn all_of map] in Ha.
      destruct Ha as [Ha|Ha]; [left; exact Ha|right]. apply in_or_app. left. rewrite app_nil_r in Ha. exact Ha.
    - refine (stale_reads cs g _ t p v S C Hp _ h Hh es' g' E). intros x Hx. apply Exists_exists in Hx.
      destruct Hx as (a & Ha & Hx). exists a. split; [|exact Hx]. cbn [acts]. rewrite Hp.
      destruct p; exact Ha.
  Qed.
End Foot.
