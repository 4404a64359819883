(** When a thread asks for a new chunk, the newest chunk had no room for its request at some moment
    during the call - also when the thread saw old values of the cursor. *)
From Verif Require Import Base BaseFacts Alloc AllocFacts Arena ArenaFacts ArenaInv ArenaOps
  BlinkAlloc BlinkFacts History HistoryFacts Setup SetupFacts SetupOps Conc ConcFacts ConcSteps ConcProps
  ConcAsk Race RaceFacts RaceSteps RaceGrow.

(** [l] has no place in the newest chunk: no chunk is held, or every aligned place behind the cursor
    reaches beyond the end (or so near the end of the address space that the sum overflows). *)
Definition no_room (g : gst) (l : Layout) : Prop :=
  cheld g = [] \/
  exists k ks v, cheld g = k :: ks /\ load (cmem g) (u_ptr k + CURSOR) 8 = Some v /\
    (USIZE_MAX < v + (l_size l + (l_align l - 1)) \/
     forall x, v <= x -> x mod l_align l = 0 -> u_ptr k + u_len k < x + l_size l).

(** The thread has given up the fast path. *)
Definition pending (p : pc) : option job :=
  match p with Unlock _ (Some j) _ | WantWrite j | Slow j => Some j | _ => None end.

(** Thread [t] neither calls nor returns. *)
Definition same_call (t : nat) (es : list event) : Prop :=
  Forall (fun e => match e with Call t' _ | Return t' => t' <> t | _ => True end) es.

(** No thread's idea of the cursor is ahead of it. *)
Definition behind (g : gst) : Prop :=
  forall t j r cur, nth_error (g_thr g) t = Some (Cas j r cur) ->
    exists v, load (cmem g) (r + CURSOR) 8 = Some v /\ cur <= v.

Section Full.
  Variable su : setup.
  Hypothesis Hok : setup_ok su.
  Notation A := (bot su).
  Notation dbg := (su_dbg su).

  Lemma room_less cur cur' e l : 0 < l_align l -> cur <= cur' -> room cur e l = false -> room cur' e l = false.
  Proof.
    intros Ha Hc. unfold room.
    destruct (Z.leb_spec (cur + (l_size l + (l_align l - 1))) USIZE_MAX),
      (Z.leb_spec (cur' + (l_size l + (l_align l - 1))) USIZE_MAX); cbn [andb]; try reflexivity; try lia.
    destruct (round_up_spec cur' (l_align l) Ha) as [B M].
    pose proof (round_up_least cur (l_align l) (round_up cur' (l_align l)) Ha ltac:(lia) M). lia.
  Qed.

  Lemma no_room_intro cs g s c cs0 v l : cinvx su cs g s -> cs = c :: cs0 -> 0 < l_align l ->
    load (cmem g) (c_ptr c + CURSOR) 8 = Some v -> room v (c_end c) l = false -> no_room g l.
  Proof.
    intros C -> Ha L Rm. pose proof C as (_ & Hh & _). right. exists (c_u c), (map c_u cs0), v.
    split; [unfold cheld; rewrite <- Hh; reflexivity|]. split; [exact L|].
    unfold room in Rm. destruct (Z.leb_spec (v + (l_size l + (l_align l - 1))) USIZE_MAX) as [Lm|Gm].
    2: left; lia. right. cbn [andb] in Rm. intros x Hx Hm.
    pose proof (round_up_least v (l_align l) x Ha Hx Hm). unfold c_end, c_ptr in Rm. lia.
  Qed.

  (** *** Cursors read are never ahead *)

  Lemma behind_other g s c es g' t j r cur : cinv su g s -> behind g -> cstep su c g = ORet es g' ->
    nth_error (g_thr g) t = Some (Cas j r cur) ->
    exists v, load (cmem g') (r + CURSOR) 8 = Some v /\ cur <= v.
  Proof.
    intros (cs & C) Hb E Hp. destruct (Hb _ _ _ _ Hp) as (v & L & Le).
    assert (D : no_reset c \/ g' = g).
    { destruct c as [t0 o|t0 sp|t0 v0|keep]; cbn; auto.
      - destruct o; auto. right. unfold cstep, bind, get_g in E.
        destruct (nth_error (g_thr g) t0) as [p0|]; [|inversion E; reflexivity].
        destruct p0; try (inversion E; reflexivity).
        unfold begin, bind, get_g in E. destruct keep_last; [|inversion E; reflexivity].
        destruct (forallb away (g_thr g)) eqn:Ea; [|inversion E; reflexivity].
        pose proof (away_at _ _ _ Ea Hp). discriminate.
      - right. unfold cstep, bind, get_g in E.
        destruct (forallb is_idle (g_thr g)) eqn:Ea; [|inversion E; reflexivity].
        pose proof (idle_at _ _ _ Ea Hp). discriminate. }
    destruct D as [Hn| ->]; [|eauto].
    pose proof (cstep_grows su Hok cs g s c C Hn es g' E) as Hg.
    pose proof C as (R & Hh & _ & _ & _ & Hpc & _). specialize (Hpc _ _ Hp). cbn in Hpc.
    destruct Hpc as (_ & _ & _ & e & Hr). destruct cs as [|d cs0]; [contradiction|]. destruct Hr as [<- <-].
    destruct (Hg d (or_introl eq_refl)) as (v' & (_ & L') & Le').
    pose proof (chain_load _ _ d (ar_chain _ _ _ _ _ _ _ _ R) (or_introl eq_refl)) as Ld.
    unfold cmem in L. fold (c_ptr d) in Ld. cbn [al_mem bot base] in Ld. rewrite L in Ld. inversion Ld; subst v.
    exists v'. split; [exact L'|lia].
  Qed.

  Lemma thread_nth t p g es g' t' q : nth_error (g_thr g) t = Some p -> thread_step t p g es g' -> t' <> t ->
    nth_error (g_thr g') t' = Some q -> nth_error (g_thr g) t' = Some q.
  Proof. intros Hp (p' & E & _) N. rewrite E, nth_set_other by auto. auto. Qed.

  Lemma stale_cas g s t p v : cinv su g s -> behind g -> nth_error (g_thr g) t = Some p ->
    wlp (stale su t p v) g (fun es g' => forall j r cur, nth_error (g_thr g') t = Some (Cas j r cur) ->
      exists v, load (cmem g') (r + CURSOR) 8 = Some v /\ cur <= v).
  Proof.
    intros Ci Hb Hp.
    set (Q := fun (es : list event) (g' : gst) => forall j r cur, nth_error (g_thr g') t = Some (Cas j r cur) ->
      exists v, load (cmem g') (r + CURSOR) 8 = Some v /\ cur <= v).
    assert (Hstay : wlp (ret []) g Q) by (apply wlp_ret; intros j r cur; apply Hb).
    assert (Hbec : forall p', (forall j r cur, p' = Cas j r cur ->
        exists v, load (cmem g) (r + CURSOR) 8 = Some v /\ cur <= v) ->
      wlp (become t p' ;;; ret []) g Q).
    { intros p' H es g' E. inversion E; subst. intros j0 r0 c0. cbn [g_thr].
      rewrite (nth_set_same _ _ _ _ Hp). intros X; inversion X; subst. apply (H _ _ _ eq_refl). }
    assert (Hload : forall C x (f : Z -> M gst C) Q,
      (forall z, load (cmem g) x 8 = Some z -> wlp (f z) g Q) -> wlp (bind (on_w (mload A x 8)) f) g Q).
    { intros C x f Q0 H. apply wlp_on_w. intros z w' E. apply pure_load in E. destruct E as [-> E].
      destruct g as [tab thr k [ar w]]. cbn [g_tab g_thr g_lock g_aw fst snd]. apply H. exact E. }
    assert (Hold : forall C r x (f : bool -> M gst C) Q,
      (forall z, load (cmem g) (r + CURSOR) 8 = Some z -> wlp (f ((r + HDR <=? x) && (x <=? z))) g Q) ->
      wlp (bind (old_value su r x) f) g Q).
    { intros C r x f Q0 H. apply wlp_bind. unfold old_value. apply Hload. intros z Ez. apply wlp_ret. apply H. exact Ez. }
    assert (Hno : forall p', (forall j r cur, p' <> Cas j r cur) -> wlp (become t p' ;;; ret []) g Q).
    { intros p' H. apply Hbec. intros j r cur E. destruct (H _ _ _ E). }
    destruct p; cbn [stale]; try exact Hstay.
    - apply Hold. intros z Ez. destruct ((r + HDR <=? v) && (v <=? z)) eqn:Eb; [|exact Hstay].
      apply Hbec. intros j0 r0 c0 X. inversion X; subst. exists z. split; [exact Ez|lia].
    - apply Hload. intros e _. apply wlp_on_w. intros a w1 Ea. apply pure_attempt in Ea. subst w1.
      destruct g as [tab thr k [ar w]]. cbn [g_tab g_thr g_lock g_aw fst snd].
      destruct a as [[aligned next]|]; [|apply Hno; discriminate].
      apply Hold. intros z Ez. destruct ((r + HDR <=? v) && (v <=? z)) eqn:Eb; [|exact Hstay].
      apply Hbec. intros j0 r0 c0 X. inversion X; subst. exists z. split; [exact Ez|lia].
    - destruct j; try apply wlp_ub. apply wlp_bind. intros e g1 E. apply pure_ptr_add in E. destruct E as [-> _].
      apply Hold. intros z _. destruct (_ && _); [|exact Hstay]. destruct (v =? e); [|apply Hno; discriminate].
      destruct (checked_add (u_ptr u) (l_size new)); [|apply Hno; discriminate].
      apply Hload. intros e2 _. destruct (e2 <? z0); apply Hno; discriminate.
    - apply Hold. intros z _. destruct (_ && _ && _); [|exact Hstay]. apply Hno; discriminate.
    - destruct j; try apply wlp_ub. apply Hold. intros z _. destruct (_ && _ && _); [|exact Hstay].
      intros es g' E. rewrite finish_eq in E. inversion E; subst. intros j0 r0 c0. cbn [g_thr].
      rewrite (nth_set_same _ _ _ _ Hp). discriminate.
  Qed.

  Lemma begin_to t o g es g' : nth_error (g_thr g) t = Some Idle -> begin su t o g = ORet es g' ->
    exists q, nth_error (g_thr g') t = Some q /\ (q = Idle \/ exists j, q = WantRead j).
  Proof.
    intros Hp. unfold begin, bind, get_g.
    assert (Hs : g_thr g' = g_thr g -> exists q, nth_error (g_thr g') t = Some q /\ (q = Idle \/ exists j, q = WantRead j)).
    { intros X. rewrite X. eauto. }
    assert (Hb : forall j es0, (become t (WantRead j) ;;; ret es0) g = ORet es g' ->
      exists q, nth_error (g_thr g') t = Some q /\ (q = Idle \/ exists j, q = WantRead j)).
    { intros j es0 X. inversion X; subst. cbn. rewrite (nth_set_same _ _ _ _ Hp). eauto. }
    assert (Hr0 : ret [] g = ORet es g' ->
      exists q, nth_error (g_thr g') t = Some q /\ (q = Idle \/ exists j, q = WantRead j))
      by (intros X; inversion X; subst; apply Hs; reflexivity).
    destruct o as [l z|h off cl|h l|h old new|h old new|keep]; try exact Hr0.
    - destruct z; [exact Hr0|]. destruct (req_okb _ _); [|exact Hr0]. apply Hb.
    - destruct (get h (g_tab g)); [|exact Hr0]. destruct (negb _ && _ && _); [|exact Hr0].
      unfold on_w, on_aw, with_aw, bind, ret. intros X; inversion X; subst. apply Hs. reflexivity.
    - destruct (get h (g_tab g)); [|exact Hr0]. destruct (negb _ && _); [|exact Hr0]. apply Hb.
    - destruct (get h (g_tab g)); [|exact Hr0]. destruct (negb _ && _ && _); [|exact Hr0]. apply Hb.
    - destruct keep; [|exact Hr0]. destruct (forallb away (g_thr g)); [|exact Hr0].
      unfold on_aw, put_tab, ret. destruct (do_reset su true (g_aw g)); try discriminate.
      intros X; inversion X; subst. apply Hs. reflexivity.
  Qed.

  Lemma step_behind g s c es g' : cinv su g s -> behind g -> cstep su c g = ORet es g' -> behind g'.
  Proof.
    intros Ci Hb E t j r cur Hp'.
    destruct (nth_error (g_thr g) t) as [p|] eqn:Hp.
    2: { destruct (cstep_thread su c g es g' E) as [El _].
         apply nth_error_None in Hp. assert (nth_error (g_thr g') t <> None) as N by congruence.
         apply nth_error_Some in N. lia. }
    assert (Hoth : nth_error (g_thr g) t = Some (Cas j r cur) ->
      exists v, load (cmem g') (r + CURSOR) 8 = Some v /\ cur <= v)
      by (intros X; apply (behind_other g s c es g' t j r cur Ci Hb E X)).
    pose proof E as E0. unfold cstep, bind, get_g in E. destruct c as [t0 o|t0 sp|t0 v|keep].
    - destruct (nth_error (g_thr g) t0) as [p0|] eqn:Hp0; [|inversion E; subst; apply Hoth; exact Hp'].
      destruct p0; try (inversion E; subst; apply Hoth; exact Hp').
      destruct (Nat.eq_dec t t0) as [->|N].
      + destruct (begin_to t0 o g es g' Hp0 E) as (q & Hq & Dq). rewrite Hq in Hp'. inversion Hp'; subst q.
        destruct Dq as [X|(j0 & X)]; discriminate X.
      + apply Hoth. apply (thread_nth t0 Idle g es g' t); auto. apply (begin_thread su t0 o g Hp0 es g' E).
    - destruct (nth_error (g_thr g) t0) as [p0|] eqn:Hp0; [|inversion E; subst; apply Hoth; exact Hp'].
      destruct (Nat.eq_dec t t0) as [->|N].
      + exists cur. split; [|lia]. apply (fresh_cas su g t0 p0 sp Hp0 es g' E _ _ _ Hp').
      + apply Hoth. apply (thread_nth t0 p0 g es g' t); auto. apply (go_thread su t0 p0 sp g Hp0 es g' E).
    - destruct (nth_error (g_thr g) t0) as [p0|] eqn:Hp0; [|inversion E; subst; apply Hoth; exact Hp'].
      destruct (Nat.eq_dec t t0) as [->|N].
      + apply (stale_cas g s t0 p0 v Ci Hb Hp0 es g' E _ _ _ Hp').
      + apply Hoth. apply (thread_nth t0 p0 g es g' t); auto. apply (stale_thread su t0 p0 v g Hp0 es g' E).
    - destruct (forallb is_idle (g_thr g)); [|inversion E; subst; apply Hoth; exact Hp'].
      unfold on_aw, put_tab, ret in E. destruct (do_reset su keep (g_aw g)); try discriminate.
      inversion E; subst. apply Hoth. exact Hp'.
  Qed.

  (** *** Giving up *)

  Definition gives_up (t : nat) (p : pc) (g : gst) (es : list event) (g' : gst) : Prop :=
    forall p' j, nth_error (g_thr g') t = Some p' -> pending p' = Some j ->
      es = [] /\ (pending p = Some j \/ no_room g (job_layout j)).

  Lemma gu_finish t p j wr r g g0 : nth_error (g_thr g0) t = Some p -> g_thr g = g_thr g0 ->
    wlp (finish t j wr r) g (gives_up t p g0).
  Proof.
    intros Hp Et es g' E. rewrite finish_eq in E. inversion E; subst. intros p' j' Hn Hj. cbn in Hn.
    rewrite Et, (nth_set_same _ _ _ _ Hp) in Hn. inversion Hn; subst. discriminate.
  Qed.
  Lemma gu_become t p p' g g0 : nth_error (g_thr g0) t = Some p -> g_thr g = g_thr g0 ->
    (forall j, pending p' = Some j -> pending p = Some j \/ no_room g0 (job_layout j)) ->
    wlp (become t p' ;;; ret []) g (gives_up t p g0).
  Proof.
    intros Hp Et H es g' E. inversion E; subst. intros q j Hn Hj. cbn in Hn.
    rewrite Et, (nth_set_same _ _ _ _ Hp) in Hn. inversion Hn; subst. split; [reflexivity|]. apply H. exact Hj.
  Qed.
  Lemma gu_stay t p g : nth_error (g_thr g) t = Some p -> wlp (ret []) g (gives_up t p g).
  Proof. intros Hp. apply wlp_ret. intros q j Hn Hj. split; [reflexivity|]. left. congruence. Qed.
  Lemma gu_bump t p g0 g m : wlp m g (fun es g' => forall p', nth_error (g_thr g') t = Some p' -> pending p' = None) ->
    wlp (ev <- m ;; ret (Bump t :: ev)) g (gives_up t p g0).
  Proof.
    intros H. apply wlp_bind. intros es g' E. apply wlp_ret. intros q j Hn Hj.
    rewrite (H _ _ E q Hn) in Hj. discriminate.
  Qed.
  Lemma gu_none t q g1 g0 p : nth_error (g_thr g0) t = Some p -> g_thr g1 = g_thr g0 -> pending q = None ->
    wlp (become t q ;;; ret []) g1 (fun (es : list event) g' => forall p', nth_error (g_thr g') t = Some p' -> pending p' = None).
  Proof.
    intros Hp Et Hq es g' E. inversion E; subst. intros p' Hn. cbn in Hn.
    rewrite Et, (nth_set_same _ _ _ _ Hp) in Hn. congruence.
  Qed.
  Lemma gu_fin t j wr r g1 g0 p : nth_error (g_thr g0) t = Some p -> g_thr g1 = g_thr g0 ->
    wlp (finish t j wr r) g1 (fun es g' => forall p', nth_error (g_thr g') t = Some p' -> pending p' = None).
  Proof.
    intros Hp Et es g' E. rewrite finish_eq in E. inversion E; subst. intros p' Hn. cbn in Hn.
    rewrite Et, (nth_set_same _ _ _ _ Hp) in Hn. inversion Hn; reflexivity.
  Qed.

  Ltac load_w v H := apply wlp_on_w; intros v ?w H; apply pure_load in H; destruct H as [-> H];
    cbn [g_tab g_thr g_lock g_aw fst snd].

  (** The fast path fails only if there is no room, with the cursor read and hence with the newest one. *)
  Lemma attempt_full cs g s t j r cursor e (v w' : bworld) : cinvx su cs g s -> behind g ->
    nth_error (g_thr g) t = Some (Cas j r cursor) -> load (cmem g) (r + END) 8 = Some e ->
    alloc_attempt dbg (job_layout j) cursor e v = ORet None w' -> no_room g (job_layout j).
  Proof.
    intros C Hb Hp Le Ea. pose proof C as (R & Hh & _ & _ & _ & Hpc & _). specialize (Hpc _ _ Hp). cbn in Hpc.
    destruct Hpc as (Hj & Tj & Hcur & Hr).
    destruct (header_of su Hok _ _ _ _ _ R Hr) as (c & cs0 & Ecs & -> & L1 & L2 & P & B & Hend).
    assert (Hl : req_ok (su_smax su) (job_layout j)).
    { destruct j; cbn in Hj |- *; [exact Hj|tauto|contradiction]. }
    pose proof (su_smax_ok su Hok) as Hs. pose proof (su_amax_ok su Hok) as Hamax.
    unfold cmem in Le. rewrite L2 in Le. inversion Le; subst e.
    rewrite (alloc_attempt_eq dbg _ _ _ (su_smax su)) in Ea; auto; [|lia].
    destruct (room cursor (c_end c) (job_layout j)) eqn:Rm; [discriminate|].
    destruct (req_ok_facts _ _ Hl) as (kk & _ & _ & Hpos & _).
    destruct (Hb _ _ _ _ Hp) as (v1 & Lv & Lev).
    apply (no_room_intro cs g s c cs0 v1); auto.
    apply (room_less cursor); auto.
  Qed.

  (** A block at the cursor that cannot grow in place: nothing as large fits behind it. *)
  Lemma tip_full cs g s t h u old new r v1 : cinvx su cs g s ->
    nth_error (g_thr g) t = Some (TipLoad (JResize h u old new) r) ->
    (exists cur, load (cmem g) (r + CURSOR) 8 = Some cur /\ v1 <= cur) ->
    v1 = u_ptr u + l_size old ->
    (USIZE_MAX < u_ptr u + l_size new \/
     exists e, load (cmem g) (r + END) 8 = Some e /\ e < u_ptr u + l_size new) ->
    no_room g new.
  Proof.
    intros C Hp (cur & Lc & Le) Ev D. pose proof C as (R & Hh & _ & _ & _ & Hpc & _). specialize (Hpc _ _ Hp). cbn in Hpc.
    destruct Hpc as ((G & F & Hn) & Hr & (Q1 & Q2)).
    destruct (header_of su Hok _ _ _ _ _ R Hr) as (c & cs0 & Ecs & -> & L1 & L2 & P & B & Hend).
    assert (Hu : u_ok (su_amax su) u).
    { pose proof (ar_ok _ _ _ _ _ _ _ _ R) as Ho. rewrite Forall_forall in Ho. apply Ho.
      apply in_or_app. left. apply live_in. eauto. }
    destruct Hu as ((G1 & G2 & G3 & G4) & _ & G5). destruct F as (F1 & F2).
    destruct (req_ok_facts _ _ Hn) as (kk & _ & _ & Hpos & Hsz & _).
    apply (no_room_intro cs g s c cs0 cur); auto.
    unfold room. destruct (Z.leb_spec (cur + (l_size new + (l_align new - 1))) USIZE_MAX) as [Lm|Gm]; [|reflexivity].
    cbn [andb]. destruct (round_up_spec cur (l_align new) Hpos) as [Br _].
    assert (0 <= l_size old) by (cbn in *; lia).
    destruct D as [D|(e & Le2 & D)]; [lia|]. unfold cmem in Le2. rewrite L2 in Le2. inversion Le2; subst e. lia.
  Qed.

  Lemma go_gives_up g s t p sp : cinv su g s -> behind g -> nth_error (g_thr g) t = Some p ->
    wlp (go su t p sp) g (gives_up t p g).
  Proof.
    intros (cs & C) Hb Hp. destruct p; cbn [go].
    - apply gu_stay. exact Hp.
    - intros es g'. unfold bind, get_g. destruct (lk_writer (g_lock g)); [apply gu_stay; exact Hp|].
      unfold put_lock. intros E. revert E. unfold enter.
      assert (Hroot : ar_root (fst (g_aw g)) = None -> forall l, no_room g l).
      { intros En l. left. pose proof C as (R & Hh & _). pose proof (ar_head _ _ _ _ _ _ _ _ R) as Hr.
        rewrite En in Hr. destruct cs; [|discriminate]. unfold cheld. rewrite <- Hh. reflexivity. }
      destruct (ar_root (fst (g_aw g))) as [r|], j; try (apply gu_finish; auto; fail);
        try (apply gu_become; auto; intros j0 X; cbn in X; inversion X; subst; auto; fail).
      destruct (l_align new <=? l_align old); [|apply gu_become; auto; discriminate].
      destruct (l_size new <=? l_size old); [apply gu_finish; auto|apply gu_become; auto; discriminate].
    - load_w v1 E1. apply gu_become; auto; discriminate.
    - load_w v1 E1. apply wlp_on_w. intros a w1 Ea. pose proof Ea as Ea0. apply pure_attempt in Ea. subst w1.
      cbn [g_tab g_thr g_lock g_aw fst snd].
      destruct a as [[aligned next]|].
      2: { unfold retry. apply gu_become; auto. intros j0 X; cbn in X; inversion X; subst.
           right. apply (attempt_full cs g s t _ r cursor v1 _ _ C Hb Hp E1 Ea0). }
      load_w v2 E2. destruct (negb sp && (v2 =? cursor)); [|apply gu_become; auto; discriminate].
      apply wlp_on_w. intros ? ? _.
      apply wlp_bind. intros len g1 E. apply pure_sub in E. subst g1.
      apply wlp_bind. intros ? g1 E. apply pure_assert in E. subst g1.
      apply wlp_bind. intros ? g1 E. apply pure_assert in E. subst g1.
      apply gu_bump. unfold allocated. destruct j; try (eapply gu_fin; [exact Hp|reflexivity]).
      eapply gu_none; [exact Hp|reflexivity|reflexivity].
    - destruct j; try apply wlp_ub. apply wlp_bind. intros e g1 E. apply pure_ptr_add in E. destruct E as [-> Ee].
      load_w v1 E1. destruct (Z.eqb_spec v1 e) as [Ev|]; [|apply gu_become; auto; discriminate].
      unfold checked_add. destruct (Z.leb_spec (u_ptr u + l_size new) USIZE_MAX) as [Lu|Lu].
      2: { unfold retry. apply gu_become; auto. intros j0 X; cbn in X; inversion X; subst. right.
           apply (tip_full cs g s t h u old new r (u_ptr u + l_size old)); auto. exists (u_ptr u + l_size old). split; [exact E1|lia]. }
      load_w v2 E2. destruct (Z.ltb_spec v2 (u_ptr u + l_size new)) as [Le|Le]; [|apply gu_become; auto; discriminate].
      unfold retry. apply gu_become; auto. intros j0 X; cbn in X; inversion X; subst. right.
      apply (tip_full cs g s t h u old new r (u_ptr u + l_size old)); auto.
      + exists (u_ptr u + l_size old). split; [exact E1|lia].
      + right. exists v2. auto.
    - destruct j; try apply wlp_ub. apply wlp_bind. intros e g1 E. apply pure_ptr_add in E. destruct E as [-> _].
      load_w v1 E1. destruct (v1 =? cursor); [|apply gu_become; auto; discriminate].
      apply wlp_on_w. intros ? ? _.
      apply wlp_bind. intros len g1 E. apply pure_sub in E. subst g1.
      apply wlp_bind. intros ? g1 E. apply pure_assert in E. subst g1.
      apply gu_bump. eapply gu_fin; [exact Hp|reflexivity].
    - destruct j; try apply wlp_ub. apply wlp_on_w. intros ? ? _. apply gu_finish; auto.
    - destruct j; try apply wlp_ub. cbv zeta.
      destruct (negb _); [apply wlp_ub|]. destruct (i <? _); [|apply gu_finish; auto].
      apply wlp_on_w. intros ? ? _. apply gu_become; auto; discriminate.
    - intros es g' E. unfold bind, get_g, put_lock in E. cbn in E.
      destruct next as [j|]; inversion E; subst; intros p' j' Hn Hj; cbn in Hn;
        rewrite (nth_set_same _ _ _ _ Hp) in Hn; inversion Hn; subst; [|discriminate]. cbn in *. auto.
    - intros es g' E. unfold bind, get_g in E.
      destruct (lk_writer (g_lock g)); [|destruct (lk_readers (g_lock g))]; try (apply (gu_stay t _ g Hp es g' E)).
      revert E. apply gu_become; auto.
    - apply wlp_bind. intros r g1 E. unfold on_aw in E.
      destruct (arena_alloc_slow A dbg (job_layout j) (g_aw g)); try discriminate. inversion E; subst; clear E.
      destruct r as [b|]; [|apply gu_finish; auto].
      unfold allocated. destruct j; try (apply gu_become; auto; discriminate); apply gu_finish; auto.
  Qed.

  Lemma stale_gives_up g s t p v : cinv su g s -> behind g -> nth_error (g_thr g) t = Some p ->
    wlp (stale su t p v) g (gives_up t p g).
  Proof.
    intros (cs & C) Hb Hp.
    assert (Hstay : wlp (ret []) g (gives_up t p g)) by (apply gu_stay; exact Hp).
    assert (Hno : forall p', pending p' = None -> wlp (become t p' ;;; ret []) g (gives_up t p g)).
    { intros p' H. apply gu_become; auto. intros j X. congruence. }
    assert (Hload : forall C x (f : Z -> M gst C) Q,
      (forall z, load (cmem g) x 8 = Some z -> wlp (f z) g Q) -> wlp (bind (on_w (mload A x 8)) f) g Q).
    { intros C0 x f Q0 H. apply wlp_on_w. intros z w' E. apply pure_load in E. destruct E as [-> E].
      destruct g as [tab thr k [ar w]]. cbn [g_tab g_thr g_lock g_aw fst snd]. apply H. exact E. }
    assert (Hold : forall C r x (f : bool -> M gst C) Q,
      (forall z, load (cmem g) (r + CURSOR) 8 = Some z -> wlp (f ((r + HDR <=? x) && (x <=? z))) g Q) ->
      wlp (bind (old_value su r x) f) g Q).
    { intros C0 r x f Q0 H. apply wlp_bind. unfold old_value. apply Hload. intros z Ez. apply wlp_ret. apply H. exact Ez. }
    destruct p; cbn [stale]; try exact Hstay.
    - apply Hold. intros z _. destruct (_ && _); [apply Hno; reflexivity|exact Hstay].
    - apply Hload. intros e Le. apply wlp_on_w. intros a w1 Ea. pose proof Ea as Ea0. apply pure_attempt in Ea. subst w1.
      destruct a as [[aligned next]|].
      2: { unfold retry. apply gu_become; auto. intros j0 X; cbn in X; inversion X; subst.
           right. apply (attempt_full cs g s t _ r cursor e _ _ C Hb Hp Le Ea0). }
      destruct g as [tab thr k [ar w]]. cbn [g_tab g_thr g_lock g_aw fst snd].
      apply Hold. intros z _. destruct (_ && _); [apply Hno; reflexivity|exact Hstay].
    - destruct j; try apply wlp_ub. apply wlp_bind. intros e g1 E. apply pure_ptr_add in E. destruct E as [-> Ee].
      apply Hold. intros z Ez. destruct ((r + HDR <=? v) && (v <=? z)) eqn:Eb; [|exact Hstay].
      destruct (Z.eqb_spec v e) as [Ev|]; [|apply Hno; reflexivity]. 
      unfold checked_add. destruct (Z.leb_spec (u_ptr u + l_size new) USIZE_MAX) as [Lu|Lu].
      2: { unfold retry. apply gu_become; auto. intros j0 X; cbn in X; inversion X; subst. right.
           apply (tip_full cs g s t h u old new r (u_ptr u + l_size old)); auto. exists z. split; [exact Ez|lia]. }
      apply Hload. intros v2 E2. destruct (Z.ltb_spec v2 (u_ptr u + l_size new)) as [Le|Le]; [|apply Hno; reflexivity].
      unfold retry. apply gu_become; auto. intros j0 X; cbn in X; inversion X; subst. right.
      apply (tip_full cs g s t h u old new r (u_ptr u + l_size old)); auto.
      + exists z. split; [exact Ez|lia].
      + right. exists v2. auto.
    - apply Hold. intros z _. destruct (_ && _ && _); [apply Hno; reflexivity|exact Hstay].
    - destruct j; try apply wlp_ub. apply Hold. intros z _. destruct (_ && _ && _); [|exact Hstay]. apply gu_finish; auto.
  Qed.

  (** *** Whole runs *)

  Lemma events_same_call t t' es : t' <> t -> events_of t' es -> same_call t es.
  Proof. intros N H. induction H as [|e es He H IH]; constructor; auto. destruct e; cbn in He; subst; auto. Qed.

  Lemma step_gives_up g s c es g' t p' j : cinv su g s -> behind g -> cstep su c g = ORet es g' ->
    nth_error (g_thr g') t = Some p' -> pending p' = Some j ->
    same_call t es /\
    ((exists p, nth_error (g_thr g) t = Some p /\ pending p = Some j) \/ no_room g (job_layout j)).
  Proof.
    intros Ci Hb E Hp' Hj.
    assert (Hsame : g_thr g' = g_thr g -> same_call t es -> same_call t es /\
      ((exists p, nth_error (g_thr g) t = Some p /\ pending p = Some j) \/ no_room g (job_layout j))).
    { intros X Hs. split; [exact Hs|]. left. rewrite X in Hp'. eauto. }
    assert (Hret : ret [] g = ORet es g' -> same_call t es /\
      ((exists p, nth_error (g_thr g) t = Some p /\ pending p = Some j) \/ no_room g (job_layout j))).
    { intros X; inversion X; subst. apply Hsame; [reflexivity|constructor]. }
    assert (Hoth : forall t0 p0, t <> t0 -> nth_error (g_thr g) t0 = Some p0 -> thread_step t0 p0 g es g' ->
      same_call t es /\
      ((exists p, nth_error (g_thr g) t = Some p /\ pending p = Some j) \/ no_room g (job_layout j))).
    { intros t0 p0 N Hp0 T. pose proof T as (q & _ & _ & Ev). split; [apply (events_same_call t t0); auto|].
      left. exists p'. split; [|exact Hj]. apply (thread_nth t0 p0 g es g' t); auto. }
    assert (Hown : forall p0, nth_error (g_thr g) t = Some p0 -> gives_up t p0 g es g' -> same_call t es /\
      ((exists p, nth_error (g_thr g) t = Some p /\ pending p = Some j) \/ no_room g (job_layout j))).
    { intros p0 Hp0 G. destruct (G p' j Hp' Hj) as [-> [X|X]]; (split; [constructor|]); eauto. }
    unfold cstep, bind, get_g in E. destruct c as [t0 o|t0 sp|t0 v|keep].
    - destruct (nth_error (g_thr g) t0) as [p0|] eqn:Hp0; [|exact (Hret E)].
      destruct p0; try (exact (Hret E)).
      destruct (Nat.eq_dec t t0) as [->|N].
      + destruct (begin_to t0 o g es g' Hp0 E) as (q & Hq & Dq). rewrite Hq in Hp'. inversion Hp'; subst q.
        destruct Dq as [->|(j0 & ->)]; discriminate Hj.
      + apply (Hoth t0 Idle N Hp0). apply (begin_thread su t0 o g Hp0 es g' E).
    - destruct (nth_error (g_thr g) t0) as [p0|] eqn:Hp0; [|exact (Hret E)].
      destruct (Nat.eq_dec t t0) as [->|N].
      + apply (Hown p0 Hp0). apply (go_gives_up g s t0 p0 sp Ci Hb Hp0 es g' E).
      + apply (Hoth t0 p0 N Hp0). apply (go_thread su t0 p0 sp g Hp0 es g' E).
    - destruct (nth_error (g_thr g) t0) as [p0|] eqn:Hp0; [|exact (Hret E)].
      destruct (Nat.eq_dec t t0) as [->|N].
      + apply (Hown p0 Hp0). apply (stale_gives_up g s t0 p0 v Ci Hb Hp0 es g' E).
      + apply (Hoth t0 p0 N Hp0). apply (stale_thread su t0 p0 v g Hp0 es g' E).
    - destruct (forallb is_idle (g_thr g)); [|exact (Hret E)].
      unfold on_aw, put_tab, ret in E. destruct (do_reset su keep (g_aw g)); try discriminate.
      inversion E; subst. apply Hsame; [reflexivity|]. repeat constructor.
  Qed.

  Lemma start_behind n : behind (cstart su n).
  Proof.
    intros t j r cur H. exfalso. cbn in H. apply nth_error_In, repeat_spec in H. discriminate.
  Qed.

  Lemma creached_full n sched : forall es g, crun su sched (cstart su n) = ORet es g ->
    behind g /\
    forall t p j, nth_error (g_thr g) t = Some p -> pending p = Some j ->
      exists sched1 sched2 es1 es2 g1, sched = sched1 ++ sched2 /\
        crun su sched1 (cstart su n) = ORet es1 g1 /\ crun su sched2 g1 = ORet es2 g /\
        no_room g1 (job_layout j) /\ same_call t es2.
  Proof.
    induction sched as [|c sched IH] using rev_ind; intros es g E.
    - inversion E; subst. split; [apply start_behind|]. intros t p j H Hj. exfalso. cbn in H.
      apply nth_error_In, repeat_spec in H. subst p. discriminate.
    - rewrite crun_app in E. destruct (crun su sched (cstart su n)) as [es1 g1| | |] eqn:E1; try discriminate.
      destruct (crun su [c] g1) as [es2 g2| | |] eqn:E2; try discriminate. inversion E; subst. clear E.
      assert (E3 : cstep su c g1 = ORet es2 g).
      { cbn in E2. unfold bind, ret in E2. destruct (cstep su c g1); try discriminate.
        inversion E2; subst. rewrite app_nil_r. reflexivity. }
      pose proof (creached_inv su Hok n sched es1 g1 E1) as Ci.
      destruct (IH _ _ eq_refl) as [Hb IHf]. split; [apply (step_behind g1 _ c es2 g Ci Hb E3)|].
      intros t p j Hp Hj.
      destruct (step_gives_up g1 _ c es2 g t p j Ci Hb E3 Hp Hj) as (Hs & [(p0 & Hp0 & Hj0)|Hn]).
      + destruct (IHf t p0 j Hp0 Hj0) as (s1 & s2 & e1 & e2 & h & -> & F1 & F2 & F3 & F4).
        exists s1, (s2 ++ [c]), e1, (e2 ++ es2), h. rewrite app_assoc. split; [reflexivity|]. split; [exact F1|].
        split; [rewrite crun_app, F2, E2; reflexivity|]. split; [exact F3|]. apply Forall_app. auto.
      + exists sched, [c], es1, es2, g1. auto 10.
  Qed.
End Full.
