(** What one step of a thread can do, seen from outside. *)
From Verif Require Import Base BaseFacts Alloc AllocFacts Arena ArenaFacts ArenaInv ArenaOps
  BlinkAlloc BlinkFacts History HistoryFacts Setup SetupFacts SetupOps Conc ConcFacts ConcSteps ConcProps.

(** The job of a call that has not taken effect. *)
Definition pc_job (p : pc) : option job :=
  match p with
  | WantRead j | Load j _ | Cas j _ _ | TipLoad j _ | TipCas j _ _ | FreeCas j _
  | Copy j _ _ _ | WantWrite j | Slow j | Unlock _ (Some j) _ => Some j
  | Idle | Unlock _ None _ => None
  end.

Lemma pc_job_phase p j : pc_job p = Some j -> phase_of p = PCalled (job_op j).
Proof. destruct p; cbn; try discriminate; try (intros E; inversion E; reflexivity). destruct next; try discriminate. intros E; inversion E; reflexivity. Qed.

Definition quietly (t : nat) (pre : list event) : Prop := pre = [] \/ pre = [Bump t].

Inductive shape (t : nat) (p : pc) (g : gst) (es : list event) (g' : gst) : Prop :=
| sh_move p' : g_thr g' = set_nth t p' (g_thr g) -> g_tab g' = g_tab g -> quietly t es ->
    pc_job p' = pc_job p -> phase_of p' = phase_of p -> pc_handle p' = pc_handle p -> shape t p g es g'
| sh_lin j r pre wr : g_thr g' = set_nth t (Unlock wr None (fin_handle j r (g_tab g))) (g_thr g) ->
    g_tab g' = fin_tab j r (g_tab g) -> pc_job p = Some j -> quietly t pre ->
    es = pre ++ [Lin t (job_op j) r] -> pc_handle p = job_handle j -> shape t p g es g'
| sh_ret wr h : p = Unlock wr None h -> g_thr g' = set_nth t Idle (g_thr g) -> g_tab g' = g_tab g ->
    es = [Return t] -> shape t p g es g'.

Section Shape.
  Variable su : setup.
  Notation A := (bot su).
  Notation dbg := (su_dbg su).

  (** What is known about a thread on its way from the fast to the slow path. *)
  Definition unlock_ok (p : pc) : Prop := match p with Unlock _ (Some j) h => h = job_handle j | _ => True end.

  Lemma finish_shape t p j wr r g g0 : pc_job p = Some j -> pc_handle p = job_handle j ->
    g_thr g = g_thr g0 -> g_tab g = g_tab g0 -> wlp (finish t j wr r) g (shape t p g0).
  Proof.
    intros Ep Eh Et Eb es g' E. rewrite finish_eq in E. inversion E; subst.
    apply (sh_lin t p g0 _ _ j r [] wr); cbn; auto; try congruence. left; reflexivity.
  Qed.
  Lemma become_shape t p p' g g0 : pc_job p' = pc_job p -> phase_of p' = phase_of p -> pc_handle p' = pc_handle p ->
    g_thr g = g_thr g0 -> g_tab g = g_tab g0 -> wlp (become t p' ;;; ret []) g (shape t p g0).
  Proof.
    intros Ej Ep Eh Et Eb es g' E. inversion E; subst. apply (sh_move t p g0 _ _ p'); cbn; auto; try congruence.
    left; reflexivity.
  Qed.
  Lemma stay_shape t p g : nth_error (g_thr g) t = Some p -> wlp (ret []) g (shape t p g).
  Proof.
    intros Hp. apply wlp_ret. apply (sh_move t p g [] g p); auto; [|left; reflexivity].
    symmetry. apply set_nth_same. exact Hp.
  Qed.
  Lemma bump_shape t p g0 g m : wlp m g (fun es g' => shape t p g0 es g' /\ ~ In (Bump t) es /\ ~ In (Return t) es) ->
    wlp (ev <- m ;; ret (Bump t :: ev)) g (shape t p g0).
  Proof.
    intros H. apply wlp_bind. intros es g' E. destruct (H _ _ E) as (S & N & N2).
    apply wlp_ret. destruct S as [p' E1 E2 Q E3 E4 E5|j r pre wr E1 E2 E3 Q E4 E5|wr h E1 E2 E3 E4].
    - destruct Q as [->| ->]; [|destruct (N (or_introl eq_refl))].
      apply (sh_move t p g0 _ _ p'); auto. right; reflexivity.
    - destruct Q as [->| ->]; [|rewrite E4 in N; destruct (N (or_introl eq_refl))].
      apply (sh_lin t p g0 _ _ j r [Bump t] wr); auto; [right; reflexivity|]. rewrite E4. reflexivity.
    - rewrite E4 in N2. destruct (N2 (or_introl eq_refl)).
  Qed.
  Lemma finish_quiet t j wr r g : wlp (finish t j wr r) g (fun es _ => ~ In (Bump t) es /\ ~ In (Return t) es).
  Proof. intros es g' E. rewrite finish_eq in E. inversion E; subst. split; (intros [X|[]]; discriminate). Qed.
  Lemma wlp_and {W B} (m : M W B) w Q1 Q2 : wlp m w Q1 -> wlp m w Q2 -> wlp m w (fun b w' => Q1 b w' /\ Q2 b w').
  Proof. intros H1 H2 b w' E. split; [apply H1|apply H2]; exact E. Qed.

  Ltac skip_w := apply wlp_on_w; intros ? ? _; cbn [g_tab g_thr g_lock g_aw fst snd].

  Lemma go_shape t p sp g : nth_error (g_thr g) t = Some p -> unlock_ok p ->
    wlp (go su t p sp) g (shape t p g).
  Proof.
    intros Hp Hu. destruct p; cbn [go].
    - apply stay_shape. exact Hp.
    - intros es g'. unfold bind, get_g. destruct (lk_writer (g_lock g)); [apply stay_shape; exact Hp|].
      unfold put_lock. intros E. revert E. unfold enter.
      destruct (ar_root (fst (g_aw g))) as [r|], j; try apply finish_shape; try apply become_shape; auto.
      destruct (l_align new <=? l_align old); [|apply become_shape; auto].
      destruct (l_size new <=? l_size old); [apply finish_shape; auto|apply become_shape; auto].
    - skip_w. apply become_shape; auto.
    - skip_w. skip_w. destruct b0 as [[aligned next]|]; [|apply become_shape; auto].
      skip_w. destruct (negb sp && (b0 =? cursor)); [|apply become_shape; auto].
      skip_w. apply wlp_bind. intros len g1 E. apply pure_sub in E. subst g1.
      apply wlp_bind. intros ? g1 E. apply pure_assert in E. subst g1.
      apply wlp_bind. intros ? g1 E. apply pure_assert in E. subst g1.
      apply bump_shape. apply wlp_and.
      + unfold allocated. destruct j; try (apply become_shape; auto); apply finish_shape; auto.
      + unfold allocated. destruct j; try apply finish_quiet.
        intros es g' E. inversion E; subst. split; intros [].
    - destruct j; try apply wlp_ub. apply wlp_bind. intros e g1 E. apply pure_ptr_add in E. destruct E as [-> _].
      skip_w. destruct (b =? e); [|apply become_shape; auto].
      destruct (checked_add (u_ptr u) (l_size new)); [|apply become_shape; auto].
      skip_w. destruct (b0 <? z); apply become_shape; auto.
    - destruct j; try apply wlp_ub. apply wlp_bind. intros e g1 E. apply pure_ptr_add in E. destruct E as [-> _].
      skip_w. destruct (b =? cursor); [|apply become_shape; auto]. skip_w.
      apply wlp_bind. intros len g1 E. apply pure_sub in E. subst g1.
      apply wlp_bind. intros ? g1 E. apply pure_assert in E. subst g1.
      apply bump_shape. apply wlp_and; [apply finish_shape; auto|apply finish_quiet].
    - destruct j; try apply wlp_ub. skip_w. apply finish_shape; auto.
    - destruct j; try apply wlp_ub. cbv zeta.
      destruct (negb _); [apply wlp_ub|]. destruct (i <? _); [|apply finish_shape; auto].
      skip_w. apply become_shape; auto.
    - intros es g' E. unfold bind, get_g, put_lock in E. cbn in E.
      destruct next as [j|]; inversion E; subst.
      + apply (sh_move t _ g [] _ (WantWrite j)); cbn; auto. left; reflexivity.
      + apply (sh_ret t _ g _ _ wr h); auto.
    - intros es g' E. unfold bind, get_g in E.
      destruct (lk_writer (g_lock g)); [|destruct (lk_readers (g_lock g))]; try (apply (stay_shape t _ g Hp es g' E)).
      revert E. apply become_shape; auto.
    - apply wlp_bind. intros r g1 E. unfold on_aw in E.
      destruct (arena_alloc_slow A dbg (job_layout j) (g_aw g)); try discriminate. inversion E; subst; clear E.
      destruct r as [b|]; [|apply finish_shape; auto].
      unfold allocated. destruct j; try (apply become_shape; auto); apply finish_shape; auto.
  Qed.

  Lemma stale_shape_ok t p v g : nth_error (g_thr g) t = Some p -> wlp (stale su t p v) g (shape t p g).
  Proof.
    intros Hp.
    assert (Hstay : wlp (ret []) g (shape t p g)) by (apply stay_shape; exact Hp).
    assert (Hb : forall p', pc_job p' = pc_job p /\ phase_of p' = phase_of p /\ pc_handle p' = pc_handle p ->
      wlp (become t p' ;;; ret []) g (shape t p g)).
    { intros p' (E1 & E2 & E3). apply become_shape; auto. }
    assert (Hload : forall C x (f : Z -> M gst C) Q,
      (forall z, wlp (f z) g Q) -> wlp (bind (on_w (mload A x 8)) f) g Q).
    { intros C x f Q H. apply wlp_on_w. intros z w' E. apply pure_load in E. destruct E as [-> E].
      destruct g as [tab thr k [ar w]]. cbn [g_tab g_thr g_lock g_aw fst snd]. apply H. }
    assert (Hold : forall C r x (f : bool -> M gst C) Q,
      (forall b, wlp (f b) g Q) -> wlp (bind (old_value su r x) f) g Q).
    { intros C r x f Q H. apply wlp_bind. unfold old_value. apply Hload. intros z. apply wlp_ret. apply H. }
    destruct p; cbn [stale]; try exact Hstay.
    - apply Hold. intros []; [|exact Hstay]. apply Hb. auto.
    - apply Hload. intros e. apply wlp_on_w. intros a w1 Ea. apply pure_attempt in Ea. subst w1.
      destruct g as [tab thr k [ar w]]. cbn [g_tab g_thr g_lock g_aw fst snd].
      destruct a as [[aligned next]|]; [|apply Hb; auto].
      apply Hold. intros []; [|exact Hstay]. apply Hb. auto.
    - destruct j; try apply wlp_ub. apply wlp_bind. intros e g1 E. apply pure_ptr_add in E. destruct E as [-> _].
      apply Hold. intros []; [|exact Hstay]. destruct (v =? e); [|apply Hb; auto].
      destruct (checked_add (u_ptr u) (l_size new)); [|apply Hb; auto].
      apply Hload. intros e2. destruct (e2 <? z); apply Hb; auto.
    - apply Hold. intros b. destruct (b && _); [|exact Hstay]. apply Hb. auto.
    - destruct j; try apply wlp_ub. apply Hold. intros b. destruct (b && _); [|exact Hstay].
      apply finish_shape; auto.
  Qed.
End Shape.
