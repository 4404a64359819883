(** Properties of concurrent runs: blocks, linearizability, progress. *)
From Coq Require Import Permutation.
From Verif Require Import Base BaseFacts Alloc AllocFacts Arena ArenaFacts ArenaInv ArenaOps
  BlinkAlloc BlinkFacts History HistoryFacts Setup SetupFacts SetupOps Conc ConcFacts ConcSteps.

(** If [m] returns from [w], the result satisfies [Q]. *)
Definition wlp {W B} (m : M W B) (w : W) (Q : B -> W -> Prop) : Prop :=
  forall b w', m w = ORet b w' -> Q b w'.

Lemma wlp_ret {W B} (b : B) (w : W) (Q : B -> W -> Prop) : Q b w -> wlp (ret b) w Q.
Proof. intros H b' w' E. inversion E; subst. exact H. Qed.
Lemma wlp_bind {W B C} (m : M W B) (f : B -> M W C) w Q :
  wlp m w (fun b w' => wlp (f b) w' Q) -> wlp (bind m f) w Q.
Proof.
  intros H c w' E. unfold bind in E. destruct (m w) as [b w1| | |] eqn:Em; try discriminate.
  apply (H b w1 Em c w' E).
Qed.
Lemma wlp_mono {W B} (m : M W B) w (Q Q' : B -> W -> Prop) :
  wlp m w Q -> (forall b w', Q b w' -> Q' b w') -> wlp m w Q'.
Proof. intros H HQ b w' E. apply HQ, H, E. Qed.
Lemma wlp_ub {W B} (w : W) (Q : B -> W -> Prop) : wlp ub w Q.
Proof. intros b w' E. discriminate. Qed.
Lemma wlp_pure {W B} (m : M W B) w (Q : B -> W -> Prop) :
  (forall w b w', m w = ORet b w' -> w' = w) -> (forall b, m w = ORet b w -> Q b w) -> wlp m w Q.
Proof. intros Hp H b w' E. pose proof (Hp _ _ _ E). subst. apply H. exact E. Qed.
Lemma wlp_elim {W B} (m : M W B) w Q b w' : wlp m w Q -> m w = ORet b w' -> Q b w'.
Proof. intros H E. apply H. exact E. Qed.

Lemma pure_ptr_add {W} p n (w : W) b w' : ptr_add p n w = ORet b w' -> w' = w /\ b = p + n.
Proof. unfold ptr_add. destruct (p + n <=? USIZE_MAX); intros E; inversion E; auto. Qed.
Lemma pure_assert {W} d x (w : W) b w' : debug_assert d x w = ORet b w' -> w' = w.
Proof. unfold debug_assert. destruct (d && negb x); intros E; inversion E; auto. Qed.
Lemma pure_add {W} d x y (w : W) b w' : add_usize d x y w = ORet b w' -> w' = w.
Proof. unfold add_usize. destruct (x + y <=? USIZE_MAX); [|destruct d]; intros E; inversion E; auto. Qed.
Lemma pure_sub {W} d x y (w : W) b w' : sub_usize d x y w = ORet b w' -> w' = w.
Proof. unfold sub_usize. destruct (y <=? x); [|destruct d]; intros E; inversion E; auto. Qed.
Lemma pure_load {W} (A : Allocator W) a n w b w' : mload A a n w = ORet b w' -> w' = w /\ load (al_mem A w) a n = Some b.
Proof. unfold mload. destruct (load (al_mem A w) a n); intros E; inversion E; auto. Qed.
Lemma pure_attempt {W} d l c e (w : W) b w' : alloc_attempt d l c e w = ORet b w' -> w' = w.
Proof.
  unfold alloc_attempt, layout_sum. apply (wlp_elim _ w (fun _ w' => w' = w)).
  apply wlp_bind. intros s w1 E. apply pure_add in E. subst w1.
  destruct (checked_add c s); [|apply wlp_ret; reflexivity].
  apply wlp_bind. intros u w1 E. apply pure_sub in E. subst w1. cbv zeta.
  apply wlp_bind. intros [] w1 E. apply pure_assert in E. subst w1.
  apply wlp_bind. intros x w1 E. apply pure_sub in E. subst w1.
  apply wlp_bind. intros [] w1 E. apply pure_assert in E. subst w1.
  apply wlp_bind. intros y w1 E. apply pure_add in E. subst w1.
  destruct (e <? y); [apply wlp_ret; reflexivity|].
  apply wlp_bind. intros y1 w1 E. apply pure_ptr_add in E. destruct E as [-> _].
  apply wlp_bind. intros y2 w1 E. apply pure_ptr_add in E. destruct E as [-> _].
  apply wlp_ret. reflexivity.
Qed.

Lemma wlp_on_w {B C} (m : M bworld B) (f : B -> M gst C) g Q :
  wlp m (snd (g_aw g)) (fun b w' => wlp (f b) (mkG (g_tab g) (g_thr g) (g_lock g) (fst (g_aw g), w')) Q) ->
  wlp (bind (on_w m) f) g Q.
Proof.
  intros H. apply wlp_bind. intros b g' E. unfold on_w, on_aw, with_aw, bind, ret in E.
  destruct (m (snd (g_aw g))) as [b0 w0| | |] eqn:Em; try discriminate.
  inversion E; subst. apply (H _ _ Em).
Qed.

Lemma wlp_get {B} (f : gst -> M gst B) g Q : wlp (f g) g Q -> wlp (bind get_g f) g Q.
Proof. intros H. apply wlp_bind. intros x g' E. inversion E; subst. exact H. Qed.
Lemma wlp_put_lock {B} k (f : unit -> M gst B) g Q :
  wlp (f tt) (mkG (g_tab g) (g_thr g) k (g_aw g)) Q -> wlp (bind (put_lock k) f) g Q.
Proof. intros H. apply wlp_bind. intros x g' E. inversion E; subst. exact H. Qed.

(** ** Linearizability *)

Definition phase_of (p : pc) : phase :=
  match p with
  | Idle => PIdle
  | WantRead j | Load j _ | Cas j _ _ | TipLoad j _ | TipCas j _ _ | FreeCas j _
  | Copy j _ _ _ | WantWrite j | Slow j | Unlock _ (Some j) _ => PCalled (job_op j)
  | Unlock _ None _ => PDone
  end.

Lemma follows_app t ph1 es1 ph2 es2 ph3 :
  follows t ph1 es1 ph2 -> follows t ph2 es2 ph3 -> follows t ph1 (es1 ++ es2) ph3.
Proof.
  intros H1 H2. induction H1; cbn; auto; try (constructor; auto; fail).
  apply (fo_other t ph0 e _ ph3 t'); auto.
Qed.

(** Events of thread [t] only. *)
Definition events_of (t : nat) (es : list event) : Prop :=
  Forall (fun e => match e with Call t' _ | Lin t' _ _ | Return t' | Bump t' => t' = t | ResetAll _ => False end) es.

Lemma follows_others t t' es ph : t' <> t -> events_of t' es -> follows t ph es ph.
Proof.
  intros N H. induction H as [|e es He H IH]; [constructor|].
  destruct e; cbn in He; try contradiction; subst;
    try (apply (fo_other t ph _ es ph t'); auto; fail). constructor. exact IH.
Qed.

(** A thread step changes only the thread's own place. *)
Definition thread_step (t : nat) (p : pc) (g : gst) (es : list event) (g' : gst) : Prop :=
  exists p', g_thr g' = set_nth t p' (g_thr g) /\ follows t (phase_of p) es (phase_of p') /\ events_of t es.

Section Props.
  Variable su : setup.
  Hypothesis Hok : setup_ok su.
  Notation amax := (su_amax su).
  Notation A := (bot su).
  Notation dbg := (su_dbg su).

  Lemma finish_thread t p j wr r g g0 : phase_of p = PCalled (job_op j) -> g_thr g = g_thr g0 ->
    wlp (finish t j wr r) g (thread_step t p g0).
  Proof.
    intros Ep Et es g' E. rewrite finish_eq in E. inversion E; subst. cbn.
    eexists. split; [rewrite Et; reflexivity|]. rewrite Ep. split; [repeat constructor|].
    constructor; [reflexivity|constructor].
  Qed.

  Lemma become_thread t p p' g g0 : phase_of p' = phase_of p -> g_thr g = g_thr g0 ->
    wlp (become t p' ;;; ret []) g (thread_step t p g0).
  Proof.
    intros Ep Et es g' E. inversion E; subst. exists p'. cbn. split; [rewrite Et; reflexivity|].
    rewrite Ep. split; constructor.
  Qed.

  Lemma bump_thread t p g0 g m : wlp m g (thread_step t p g0) ->
    wlp (ev <- m ;; ret (Bump t :: ev)) g (thread_step t p g0).
  Proof.
    intros H. apply wlp_bind. intros es g' E. destruct (H _ _ E) as (p' & E1 & E2 & E3).
    apply wlp_ret. exists p'. split; [exact E1|]. split; [constructor; exact E2|].
    constructor; [reflexivity|exact E3].
  Qed.

  Lemma stay_thread t p g : nth_error (g_thr g) t = Some p -> wlp (ret []) g (thread_step t p g).
  Proof.
    intros Hp. apply wlp_ret. exists p. split; [symmetry; apply set_nth_same; exact Hp|].
    split; constructor.
  Qed.

  Ltac skip_w := apply wlp_on_w; intros ? ? _; cbn [g_tab g_thr g_lock g_aw fst snd].

  Lemma go_thread t p sp g : nth_error (g_thr g) t = Some p ->
    wlp (go su t p sp) g (thread_step t p g).
  Proof.
    intros Hp. destruct p; cbn [go].
    - apply stay_thread. exact Hp.
    - intros es g'. unfold bind, get_g. destruct (lk_writer (g_lock g)); [apply stay_thread; exact Hp|].
      unfold put_lock. intros E. revert E. unfold enter.
      destruct (ar_root (fst (g_aw g))) as [r|], j; try apply finish_thread; try apply become_thread; auto.
      destruct (l_align new <=? l_align old); [|apply become_thread; auto].
      destruct (l_size new <=? l_size old); [apply finish_thread; auto|apply become_thread; auto].
    - skip_w. apply become_thread; auto.
    - skip_w. skip_w. destruct b0 as [[aligned next]|]; [|apply become_thread; auto].
      skip_w. destruct (negb sp && (b0 =? cursor)); [|apply become_thread; auto].
      skip_w. apply wlp_bind. intros len g1 E. apply pure_sub in E. subst g1.
      apply wlp_bind. intros ? g1 E. apply pure_assert in E. subst g1.
      apply wlp_bind. intros ? g1 E. apply pure_assert in E. subst g1.
      apply bump_thread. unfold allocated. destruct j; try (apply become_thread; auto); apply finish_thread; auto.
    - destruct j; try apply wlp_ub. apply wlp_bind. intros e g1 E. apply pure_ptr_add in E. destruct E as [-> _].
      skip_w. destruct (b =? e); [|apply become_thread; auto].
      destruct (checked_add (u_ptr u) (l_size new)); [|apply become_thread; auto].
      skip_w. destruct (b0 <? z); apply become_thread; auto.
    - destruct j; try apply wlp_ub. apply wlp_bind. intros e g1 E. apply pure_ptr_add in E. destruct E as [-> _].
      skip_w. destruct (b =? cursor); [|apply become_thread; auto]. skip_w.
      apply wlp_bind. intros len g1 E. apply pure_sub in E. subst g1.
      apply wlp_bind. intros ? g1 E. apply pure_assert in E. subst g1.
      apply bump_thread. apply finish_thread; auto.
    - destruct j; try apply wlp_ub. skip_w. apply finish_thread; auto.
    - destruct j; try apply wlp_ub. cbv zeta.
      destruct (negb _); [apply wlp_ub|]. destruct (i <? _); [|apply finish_thread; auto].
      skip_w. apply become_thread; auto.
    - intros es g' E. unfold bind, get_g, put_lock in E. cbn in E.
      destruct next as [j|]; inversion E; subst; eexists; (split; [reflexivity|]); cbn.
      + split; constructor.
      + split; [repeat constructor|]. constructor; [reflexivity|constructor].
    - intros es g' E. unfold bind, get_g in E.
      destruct (lk_writer (g_lock g)); [|destruct (lk_readers (g_lock g))]; try (apply (stay_thread t _ g Hp es g' E)).
      revert E. apply become_thread; auto.
    - apply wlp_bind. intros r g1 E. unfold on_aw in E.
      destruct (arena_alloc_slow A dbg (job_layout j) (g_aw g)); try discriminate. inversion E; subst; clear E.
      destruct r as [b|]; [|apply finish_thread; auto].
      unfold allocated. destruct j; try (apply become_thread; auto); apply finish_thread; auto.
  Qed.

  (** What a load of an old value does: nothing but move the thread, or end a deallocation. *)
  Definition stale_shape (t : nat) (p : pc) (g : gst) (es : list event) (g' : gst) : Prop :=
    (es = [] /\ g' = g) \/
    (es = [] /\ exists p', (phase_of p' = phase_of p /\ pc_handle p' = pc_handle p /\ hold p' = hold p) /\
       g' = mkG (g_tab g) (set_nth t p' (g_thr g)) (g_lock g) (g_aw g)) \/
    (exists h u l r, p = FreeCas (JDealloc h u l) r /\ finish t (JDealloc h u l) false None g = ORet es g').

  Lemma stale_ok t p v g : wlp (stale su t p v) g (stale_shape t p g).
  Proof.
    assert (Hstay : wlp (ret []) g (stale_shape t p g)) by (apply wlp_ret; left; auto).
    assert (Hb : forall p', phase_of p' = phase_of p /\ pc_handle p' = pc_handle p /\ hold p' = hold p ->
      wlp (become t p' ;;; ret []) g (stale_shape t p g)).
    { intros p' Ep es g' E. inversion E; subst. right. left. split; [reflexivity|]. exists p'. auto. }
    assert (Hload : forall C x (f : Z -> M gst C) Q,
      (forall z, wlp (f z) g Q) -> wlp (bind (on_w (mload A x 8)) f) g Q).
    { intros C x f Q H. apply wlp_on_w. intros z w' E. apply pure_load in E. destruct E as [-> E].
      destruct g as [tab thr k [ar w]]. cbn [g_tab g_thr g_lock g_aw fst snd]. apply H. }
    assert (Hold : forall C r x (f : bool -> M gst C) Q,
      (forall b, wlp (f b) g Q) -> wlp (bind (old_value su r x) f) g Q).
    { intros C r x f Q H. apply wlp_bind. unfold old_value. apply Hload. intros z. apply wlp_ret. apply H. }
    destruct p; cbn [stale]; try exact Hstay.
    - apply Hold. intros []; [|exact Hstay]. apply Hb. auto.
    - apply Hload. intros e. apply wlp_on_w. intros a w1 Ea. apply pure_attempt in Ea. subst w1.
      destruct g as [tab thr k [ar w]]. cbn [g_tab g_thr g_lock g_aw fst snd].
      destruct a as [[aligned next]|]; [|apply Hb; auto].
      apply Hold. intros []; [|exact Hstay]. apply Hb. auto.
    - destruct j; try apply wlp_ub. apply wlp_bind. intros e g1 E. apply pure_ptr_add in E. destruct E as [-> _].
      apply Hold. intros []; [|exact Hstay]. destruct (v =? e); [|apply Hb; auto].
      destruct (checked_add (u_ptr u) (l_size new)); [|apply Hb; auto].
      apply Hload. intros e2. destruct (e2 <? z); apply Hb; auto.
    - apply Hold. intros b. destruct (b && _); [|exact Hstay]. apply Hb. auto.
    - destruct j; try apply wlp_ub. apply Hold. intros b. destruct (b && _); [|exact Hstay].
      intros es g' E. right. right. eauto 10.
  Qed.

  Lemma stale_thread t p v g : nth_error (g_thr g) t = Some p ->
    wlp (stale su t p v) g (thread_step t p g).
  Proof.
    intros Hp es g' E. destruct (stale_ok t p v g es g' E) as [[-> ->]|[(-> & p' & (Ep & _) & ->)|(h & u & l & r & -> & F)]].
    - apply (stay_thread t p g Hp). reflexivity.
    - exists p'. cbn. rewrite Ep. split; [reflexivity|]. split; constructor.
    - revert F. apply finish_thread; reflexivity.
  Qed.

  Lemma begin_thread t o g : nth_error (g_thr g) t = Some Idle ->
    wlp (begin su t o) g (thread_step t Idle g).
  Proof.
    intros Hp. unfold begin. intros es g'. unfold bind at 1, get_g.
    assert (Hb : forall j, job_op j = o -> wlp (become t (WantRead j) ;;; ret [Call t o]) g (thread_step t Idle g)).
    { intros j Ej es' g1 E. inversion E; subst. eexists. split; [reflexivity|]. cbn.
      split; [constructor; constructor|constructor; [reflexivity|constructor]]. }
    pose proof (stay_thread t Idle g Hp) as Hs.
    destruct o as [l z|h off cl|h l|h old new|h old new|keep]; try (apply Hs).
    - destruct z; [apply Hs|]. destruct (req_okb _ _); [|apply Hs]. apply (Hb (JAlloc l)). reflexivity.
    - destruct (get h (g_tab g)) as [u|]; [|apply Hs]. destruct (negb _ && _ && _); [|apply Hs].
      revert es g'. apply wlp_on_w. intros ? ? _. apply wlp_ret. exists Idle. cbn.
      split; [symmetry; apply set_nth_same; exact Hp|]. split; [repeat constructor|].
      repeat (constructor; [reflexivity|]). constructor.
    - destruct (get h (g_tab g)) as [u|]; [|apply Hs]. destruct (negb _ && _); [|apply Hs].
      apply (Hb (JDealloc h u l)). reflexivity.
    - destruct (get h (g_tab g)) as [u|]; [|apply Hs]. destruct (negb _ && _ && _); [|apply Hs].
      apply (Hb (JResize h u old new)). reflexivity.
    - destruct keep; [|apply Hs]. destruct (forallb away (g_thr g)); [|apply Hs].
      unfold bind, on_aw, put_tab, ret. destruct (do_reset su true (g_aw g)); try discriminate.
      intros E; inversion E; subst. exists Idle. cbn.
      split; [symmetry; apply set_nth_same; exact Hp|]. split; [repeat constructor|].
      repeat (constructor; [reflexivity|]). constructor.
  Qed.

  Lemma cstep_thread c g es g' : cstep su c g = ORet es g' ->
    length (g_thr g') = length (g_thr g) /\
    forall t p, nth_error (g_thr g) t = Some p ->
      exists p', nth_error (g_thr g') t = Some p' /\ follows t (phase_of p) es (phase_of p').
  Proof.
    assert (Hone : forall t0 p0, nth_error (g_thr g) t0 = Some p0 -> thread_step t0 p0 g es g' ->
      length (g_thr g') = length (g_thr g) /\
      forall t p, nth_error (g_thr g) t = Some p ->
        exists p', nth_error (g_thr g') t = Some p' /\ follows t (phase_of p) es (phase_of p')).
    { intros t0 p0 H0 (p' & -> & E2 & E3). split; [apply set_nth_length|].
      intros t p Hp. destruct (Nat.eq_dec t0 t) as [->|N].
      - exists p'. rewrite (nth_set_same _ _ _ _ H0). split; [reflexivity|].
        rewrite H0 in Hp. inversion Hp; subst. exact E2.
      - exists p. rewrite nth_set_other by exact N. split; [exact Hp|].
        apply (follows_others t t0); auto. }
    assert (Hnone : es = [] -> g' = g ->
      length (g_thr g') = length (g_thr g) /\
      forall t p, nth_error (g_thr g) t = Some p ->
        exists p', nth_error (g_thr g') t = Some p' /\ follows t (phase_of p) es (phase_of p')).
    { intros -> ->. split; [reflexivity|]. intros t p Hp. exists p. split; [exact Hp|constructor]. }
    unfold cstep. unfold bind at 1, get_g. destruct c as [t o|t sp|t v|keep].
    - destruct (nth_error (g_thr g) t) as [p|] eqn:Hp.
      2: { intros E; apply Hnone; inversion E; reflexivity. }
      destruct p; try (intros E; apply Hnone; inversion E; reflexivity).
      intros E. apply (Hone t Idle Hp). apply (begin_thread t o g Hp). exact E.
    - destruct (nth_error (g_thr g) t) as [p|] eqn:Hp.
      2: { intros E; apply Hnone; inversion E; reflexivity. }
      intros E. apply (Hone t p Hp). apply (go_thread t p sp g Hp). exact E.
    - destruct (nth_error (g_thr g) t) as [p|] eqn:Hp.
      2: { intros E; apply Hnone; inversion E; reflexivity. }
      intros E. apply (Hone t p Hp). apply (stale_thread t p v g Hp). exact E.
    - destruct (forallb is_idle (g_thr g)) eqn:Ei.
      2: { intros E; apply Hnone; inversion E; reflexivity. }
      unfold bind, on_aw, put_tab, ret. destruct (do_reset su keep (g_aw g)); try discriminate.
      intros E; inversion E; subst. cbn. split; [reflexivity|]. intros t p Hp. exists p.
      split; [exact Hp|]. rewrite (idle_at _ _ _ Ei Hp). cbn. constructor. constructor.
  Qed.

  Lemma crun_app sched1 : forall sched2 g,
    crun su (sched1 ++ sched2) g =
    match crun su sched1 g with
    | ORet es1 g1 => match crun su sched2 g1 with
                     | ORet es2 g2 => ORet (es1 ++ es2) g2
                     | OPanic w => OPanic w | OAbort => OAbort | OUB => OUB
                     end
    | OPanic w => OPanic w | OAbort => OAbort | OUB => OUB
    end.
  Proof.
    induction sched1 as [|c sched1 IH]; intros sched2 g.
    - cbn. destruct (crun su sched2 g); reflexivity.
    - cbn [crun app]. unfold bind, ret. destruct (cstep su c g) as [es g1| | |]; try reflexivity.
      rewrite IH. destruct (crun su sched1 g1) as [es1 g2| | |]; try reflexivity.
      destruct (crun su sched2 g2); try reflexivity. rewrite app_assoc. reflexivity.
  Qed.

  Lemma crun_thread sched : forall g es g', crun su sched g = ORet es g' ->
    length (g_thr g') = length (g_thr g) /\
    forall t p, nth_error (g_thr g) t = Some p ->
      exists p', nth_error (g_thr g') t = Some p' /\ follows t (phase_of p) es (phase_of p').
  Proof.
    induction sched as [|c sched IH]; intros g es g'; cbn [crun].
    - intros E; inversion E; subst. split; [reflexivity|]. intros t p Hp. exists p. split; [exact Hp|constructor].
    - unfold bind, ret. destruct (cstep su c g) as [es1 g1| | |] eqn:E1; try discriminate.
      destruct (crun su sched g1) as [es2 g2| | |] eqn:E2; try discriminate.
      intros E; inversion E; subst. destruct (cstep_thread _ _ _ _ E1) as [L1 H1].
      destruct (IH _ _ _ E2) as [L2 H2]. split; [congruence|]. intros t p Hp.
      destruct (H1 t p Hp) as (p1 & Hp1 & F1). destruct (H2 t p1 Hp1) as (p2 & Hp2 & F2).
      exists p2. split; [exact Hp2|]. apply (follows_app _ _ _ _ _ _ F1 F2).
  Qed.

  (** ** Blocks *)

  Definition creached (n : nat) (sched : list choice) (es : list event) (g : gst) : Prop :=
    crun su sched (cstart su n) = ORet es g.

  Lemma creached_inv n sched es g : creached n sched es g -> cinv su g (sevs es []).
  Proof.
    intros E. destruct (crun_total su Hok n sched) as (es' & g' & E' & H).
    unfold creached in E. rewrite E in E'. inversion E'; subst. exact H.
  Qed.

  Lemma creached_more n sched es g sched2 : creached n sched es g ->
    exists es2 g2, crun su sched2 g = ORet es2 g2 /\ creached n (sched ++ sched2) (es ++ es2) g2.
  Proof.
    intros E. pose proof (creached_inv _ _ _ _ E) as Hi.
    pose proof (crun_ok su Hok sched2 g _ Hi) as H. apply wp_inv in H.
    destruct H as (es2 & g2 & E2 & _). exists es2, g2. split; [exact E2|].
    unfold creached in *. rewrite crun_app, E, E2. reflexivity.
  Qed.

  Lemma crun_returns n sched : exists es g, crun su sched (cstart su n) = ORet es g.
  Proof. destruct (crun_total su Hok n sched) as (es & g & E & _). eauto. Qed.

  Definition cheld (g : gst) : list ublock := outstanding (bw_trace (snd (g_aw g))).
  Definition cmem (g : gst) : mem := bw_mem (snd (g_aw g)).

  Lemma creached_block n sched es g h u :
    creached n sched es g -> get h (g_tab g) = Some u ->
    0 < u_ptr u /\ u_ptr u mod l_align (u_layout u) = 0 /\
    l_size (u_layout u) <= u_len u /\ u_ptr u + u_len u <= amax /\
    exists k, In k (cheld g) /\ inside u k.
  Proof.
    intros E G. destruct (creached_inv _ _ _ _ E) as (cs & R & Hh & _).
    assert (Hin : In u (live (g_tab g) ++ flat_map hold (g_thr g))).
    { apply in_or_app. left. apply live_in. eauto. }
    pose proof (ar_ok _ _ _ _ _ _ _ _ R) as Ho. rewrite Forall_forall in Ho.
    destruct (Ho u Hin) as ((G1 & G2 & G3 & G4) & _). unfold ublk in *. cbn in G1, G2, G3, G4.
    split; [exact G1|]. split; [exact G2|]. split; [exact G3|]. split; [exact G4|].
    pose proof (ar_placed _ _ _ _ _ _ _ _ R) as P. unfold placed in P. rewrite Forall_forall in P.
    destruct (P u Hin) as (c & Hc & P1 & P2).
    destruct (arep_chunk_ok _ _ _ _ (su_ct su Hok) _ _ _ _ _ c R Hc) as ((_ & _ & W1) & _).
    exists (c_u c). split; [unfold cheld; rewrite <- Hh; apply in_map; exact Hc|].
    unfold inside, HEADER, c_base, c_end, c_ptr, HDR in *. lia.
  Qed.

  Lemma creached_disjoint n sched es g h1 h2 u1 u2 :
    creached n sched es g -> h1 <> h2 -> get h1 (g_tab g) = Some u1 -> get h2 (g_tab g) = Some u2 ->
    disjoint_u u1 u2.
  Proof.
    intros E N G1 G2. destruct (creached_inv _ _ _ _ E) as (cs & R & _).
    apply (get_pairwise disjoint_u disjoint_u_sym (g_tab g) h1 h2); auto.
    pose proof (ar_disj _ _ _ _ _ _ _ _ R) as D. apply pairwise_app in D. apply D.
  Qed.

  Lemma creached_legal n sched es g : creached n sched es g -> legal (su_bmax su) (bw_trace (snd (g_aw g))).
  Proof.
    intros E. destruct (creached_inv _ _ _ _ E) as (cs & R & _). apply (ar_own _ _ _ _ _ _ _ _ R).
  Qed.

  Lemma creached_agrees n sched es g : creached n sched es g ->
    agrees (cmem g) (g_tab g) (srun (lin_ops es) (map (option_map b_len) (lin_results es)) []).
  Proof.
    intros E. destruct (creached_inv _ _ _ _ E) as (cs & _ & _ & _ & Ha & _).
    rewrite <- sevs_run. exact Ha.
  Qed.

  Lemma creached_follows n sched es g t : creached n sched es g -> (t < n)%nat ->
    exists ph, follows t PIdle es ph /\
      (ph = PIdle <-> nth_error (g_thr g) t = Some Idle).
  Proof.
    intros E L. destruct (crun_thread _ _ _ _ E) as [_ H].
    assert (Hp : nth_error (g_thr (cstart su n)) t = Some Idle).
    { cbn. rewrite (nth_error_nth' _ Idle) by (rewrite repeat_length; exact L).
      rewrite nth_repeat. reflexivity. }
    destruct (H t Idle Hp) as (p' & Hp' & F). exists (phase_of p'). split; [exact F|].
    rewrite Hp'. split.
    - destruct p'; cbn; try discriminate; [reflexivity|]. destruct next; discriminate.
    - intros X; inversion X; reflexivity.
  Qed.
End Props.

(** ** Progress *)

Section Progress.
  Variable su : setup.
  Hypothesis Hok : setup_ok su.
  Notation amax := (su_amax su).
  Notation A := (bot su).
  Notation dbg := (su_dbg su).
  Notation ctx := (su_ct su Hok).
  Notation brep := (arep (su_amax su) (bot su) (base_own (su_amax su) (su_bmax su))).

  Definition same_header (c : chunk) (g g' : gst) : Prop :=
    forall x, c_ptr c <= x < c_base c -> cmem g' x = cmem g x.

  Definition bump_or_same (t : nat) (c : chunk) (g : gst) (es : list event) (g' : gst) : Prop :=
    In (Bump t) es \/ same_header c g g'.

  Lemma finish_mem t j wr r c g0 g : (forall x, c_ptr c <= x < c_base c -> cmem g x = cmem g0 x) ->
    wlp (finish t j wr r) g (bump_or_same t c g0).
  Proof.
    intros H es g' E. rewrite finish_eq in E. inversion E; subst. right. exact H.
  Qed.
  Lemma become_mem t p c g0 g : (forall x, c_ptr c <= x < c_base c -> cmem g x = cmem g0 x) ->
    wlp (become t p ;;; ret []) g (bump_or_same t c g0).
  Proof. intros H es g' E. inversion E; subst. right. exact H. Qed.
  Lemma bump_mem t c g0 g m : wlp (ev <- m ;; ret (Bump t :: ev)) g (bump_or_same t c g0).
  Proof. apply wlp_bind. intros es g' _. apply wlp_ret. left. left. reflexivity. Qed.

  Ltac load_w v H := apply wlp_on_w; intros v ?w H; apply pure_load in H; destruct H as [-> H];
    cbn [g_tab g_thr g_lock g_aw fst snd].

  Lemma go_mem cs g s t p sp c : cinvx su cs g s -> nth_error (g_thr g) t = Some p -> In c cs ->
    (forall j, p <> Slow j) -> wlp (go su t p sp) g (bump_or_same t c g).
  Proof.
    intros C Hp Hc Hns. pose proof C as (R & _ & _ & _ & _ & Hpc & _). specialize (Hpc t p Hp).
    assert (Hr : forall x, c_ptr c <= x < c_base c -> cmem g x = cmem g x) by reflexivity.
    assert (Hstay : wlp (ret []) g (bump_or_same t c g)) by (apply wlp_ret; right; exact Hr).
    destruct p; cbn [go].
    - exact Hstay.
    - intros es g'. unfold bind, get_g. destruct (lk_writer (g_lock g)); [apply Hstay|].
      unfold put_lock. unfold enter.
      destruct (ar_root (fst (g_aw g))) as [r|], j; try (apply finish_mem; exact Hr); try (apply become_mem; exact Hr).
      destruct (l_align new <=? l_align old); [|apply become_mem; exact Hr].
      destruct (l_size new <=? l_size old); [apply finish_mem; exact Hr|apply become_mem; exact Hr].
    - load_w v1 E1. apply become_mem; exact Hr.
    - load_w v1 E1. apply wlp_on_w. intros a w1 Ea. apply pure_attempt in Ea. subst w1.
      cbn [g_tab g_thr g_lock g_aw fst snd].
      destruct a as [[aligned next]|]; [|apply become_mem; exact Hr].
      load_w v2 E2. destruct (negb sp && (v2 =? cursor)); [|apply become_mem; exact Hr].
      apply wlp_on_w. intros ? ? _.
      apply wlp_bind. intros len g1 E. apply pure_sub in E. subst g1.
      apply wlp_bind. intros ? g1 E. apply pure_assert in E. subst g1.
      apply wlp_bind. intros ? g1 E. apply pure_assert in E. subst g1. apply bump_mem.
    - destruct j; try apply wlp_ub. apply wlp_bind. intros e g1 E. apply pure_ptr_add in E. destruct E as [-> _].
      load_w v1 E1. destruct (v1 =? e); [|apply become_mem; exact Hr].
      destruct (checked_add (u_ptr u) (l_size new)); [|apply become_mem; exact Hr].
      load_w v2 E2. destruct (v2 <? z); apply become_mem; exact Hr.
    - destruct j; try apply wlp_ub. apply wlp_bind. intros e g1 E. apply pure_ptr_add in E. destruct E as [-> _].
      load_w v1 E1. destruct (v1 =? cursor); [|apply become_mem; exact Hr].
      apply wlp_on_w. intros ? ? _.
      apply wlp_bind. intros len g1 E. apply pure_sub in E. subst g1.
      apply wlp_bind. intros ? g1 E. apply pure_assert in E. subst g1. apply bump_mem.
    - destruct j; try apply wlp_ub. apply wlp_on_w. intros [] w' E.
      apply finish_mem. cbn [fst snd]. intros x _. unfold cmem. cbn [g_aw snd].
      destruct Hpc as ((G & F) & (e & Hroot) & _).
      destruct (tab_split _ _ _ G) as (l0 & P1 & _ & _ & _).
      assert (R1 : brep [] cs (fst (g_aw g)) (snd (g_aw g)) (u :: l0 ++ flat_map hold (g_thr g))).
      { refine (arep_perm _ _ _ _ _ _ _ _ _ _ R). rewrite P1. reflexivity. }
      assert (Hsz : 0 <= l_size l <= u_len u).
      { pose proof (ar_ok _ _ _ _ _ _ _ _ R1) as Ho. inversion Ho as [|? ? (_ & _ & Hu) _]; subst.
        destruct F as (F1 & F2). lia. }
      pose proof (blink_dealloc_nop su Hok _ _ _ u _ (l_size l) R1 Hsz) as H.
      pose proof (ar_head _ _ _ _ _ _ _ _ R1) as Hh.
      destruct (g_aw g) as [ar w]. cbn [snd fst] in *.
      unfold blink_deallocate, dealloc, with_aw, arena_dealloc in H. cbn [fst snd] in H.
      unfold wp in H; cbn [fst snd] in H. rewrite Hh in H. destruct cs as [|c0 cs0]; [contradiction|].
      destruct Hroot as [<- _]. cbn [head_ptr] in H. unfold bind, ret in H.
      rewrite E in H. cbn in H. apply H.
    - destruct j; try apply wlp_ub. destruct Hpc as ((G & F) & (Hg & Hi & _)). cbv zeta.
      destruct (negb _); [apply wlp_ub|]. destruct (Z.ltb_spec i (Z.min (l_size new) (l_size old))) as [Lt|Ge].
      2: apply finish_mem; exact Hr.
      apply wlp_on_w. intros [] w' E. apply become_mem. inversion E; subst w'.
      unfold cmem. cbn [g_aw snd bw_mem al_set_mem bot base al_mem]. intros x Hx.
      apply copy_other. set (v := mkU (b_ptr b) (b_len b) new).
      assert (Hv : In v (live (g_tab g) ++ flat_map hold (g_thr g))).
      { apply in_or_app. right. apply in_flat_map. eexists. split; [apply (nth_error_In _ _ Hp)|].
        cbn. left. reflexivity. }
      destruct Hg as (_ & _ & G3 & _).
      destruct (Z.eq_dec x (b_ptr b + i)) as [->|N]; [|lia].
      destruct (arep_us_not _ _ _ _ ctx _ _ _ _ _ c v (b_ptr b + i) R Hc Hv) as [X _]; [|contradiction].
      unfold in_u, v. cbn. lia.
    - intros es g' E. unfold bind, get_g, put_lock in E. cbn in E.
      destruct next as [j|]; inversion E; subst; right; exact Hr.
    - intros es g' E. unfold bind, get_g in E.
      destruct (lk_writer (g_lock g)); [|destruct (lk_readers (g_lock g))]; try (apply (Hstay es g' E)).
      revert E. apply become_mem; exact Hr.
    - exfalso. apply (Hns j). reflexivity.
  Qed.

  Lemma begin_mem cs g s t o c : cinvx su cs g s -> nth_error (g_thr g) t = Some Idle -> In c cs ->
    forallb away (g_thr g) = false -> wlp (begin su t o) g (bump_or_same t c g).
  Proof.
    intros C Hp Hc Haw. pose proof C as (R & _). unfold begin. intros es g'. unfold bind at 1, get_g.
    assert (Hr : forall x, c_ptr c <= x < c_base c -> cmem g x = cmem g x) by reflexivity.
    assert (Hb : forall j, wlp (become t (WantRead j) ;;; ret [Call t o]) g (bump_or_same t c g)).
    { intros j es' g1 E. inversion E; subst. right. exact Hr. }
    assert (Hs : wlp (ret []) g (bump_or_same t c g)) by (apply wlp_ret; right; exact Hr).
    destruct o as [l z|h off cl|h l|h old new|h old new|keep]; try (apply Hs).
    - destruct z; [apply Hs|]. destruct (req_okb _ _); [|apply Hs]. apply Hb.
    - destruct (get h (g_tab g)) as [u|] eqn:G; [|apply Hs]. destruct (negb _ && _ && _) eqn:E; [|apply Hs].
      apply andb_true_iff in E. destruct E as [E E3]. apply andb_true_iff in E. destruct E as [E1 E2].
      revert es g'. apply wlp_on_w. intros [] w' E. apply wlp_ret. right. inversion E; subst w'.
      unfold same_header, cmem. cbn [g_aw snd bw_mem al_set_mem bot base al_mem]. intros x Hx.
      apply write_cells_other.
      assert (Hv : In u (live (g_tab g) ++ flat_map hold (g_thr g))).
      { apply in_or_app. left. apply live_in. eauto. }
      assert (~ in_u x u).
      { intros Hi. destruct (arep_us_not _ _ _ _ ctx _ _ _ _ _ c u x R Hc Hv Hi) as [X _]. contradiction. }
      unfold in_u in *. lia.
    - destruct (get h (g_tab g)) as [u|]; [|apply Hs]. destruct (negb _ && _); [|apply Hs]. apply Hb.
    - destruct (get h (g_tab g)) as [u|]; [|apply Hs]. destruct (negb _ && _ && _); [|apply Hs]. apply Hb.
    - destruct keep; [|apply Hs]. rewrite Haw. apply Hs.
  Qed.

  Lemma stale_mem g t p v c : wlp (stale su t p v) g (bump_or_same t c g).
  Proof.
    intros es g' E. destruct (stale_ok su t p v g es g' E) as [[-> ->]|[(-> & p' & Ep & ->)|(h & u & l & r & -> & F)]];
      try (right; intros x _; reflexivity).
    revert F. apply finish_mem. reflexivity.
  Qed.

  (** Not a step of thread [t]. *)
  Definition others (t : nat) (ch : choice) : Prop :=
    match ch with Start t' _ | Go t' _ | Stale t' _ => t' <> t | Exclusive _ => True end.

  (** While [t] is in the allocation loop, the cursor moves only with a [Bump] by somebody else. *)
  Lemma other_step g s t ch j r cur v : cinv su g s ->
    nth_error (g_thr g) t = Some (Cas j r cur) -> others t ch ->
    load (cmem g) (r + CURSOR) 8 = Some v ->
    wlp (cstep su ch) g (fun es g' => nth_error (g_thr g') t = Some (Cas j r cur) /\
      ((exists t', t' <> t /\ In (Bump t') es) \/ load (cmem g') (r + CURSOR) 8 = Some v)).
  Proof.
    intros (cs & C) Hp No L. pose proof C as (R & _ & _ & _ & Hlk & Hpc & _).
    pose proof (Hpc _ _ Hp) as Hj. cbn in Hj. destruct Hj as (_ & _ & _ & e & Hroot).
    destruct cs as [|c cs0]; [contradiction|]. destruct Hroot as [<- <-].
    assert (Hsame : forall g' : gst, same_header c g g' -> load (cmem g') (c_ptr c + CURSOR) 8 = Some v).
    { intros g' Hs. rewrite <- L. apply load_ext; [lia|]. intros x Hx. apply Hs. unfold c_base, HDR, CURSOR in *. lia. }
    assert (Hone : forall t0 p0 m, t0 <> t -> nth_error (g_thr g) t0 = Some p0 ->
      wlp m g (thread_step t0 p0 g) -> wlp m g (bump_or_same t0 c g) ->
      wlp m g (fun es g' => nth_error (g_thr g') t = Some (Cas j (c_ptr c) cur) /\
       ((exists t', t' <> t /\ In (Bump t') es) \/ load (cmem g') (c_ptr c + CURSOR) 8 = Some v))).
    { intros t0 p0 m N0 Hp0 H1 H2 es g' E. destruct (H1 _ _ E) as (p' & Et & _).
      split; [rewrite Et, nth_set_other by exact N0; exact Hp|].
      destruct (H2 _ _ E) as [Hb|Hs]; [left; exists t0; auto|right; apply Hsame; exact Hs]. }
    assert (Hnone : wlp (ret []) g (fun es g' => nth_error (g_thr g') t = Some (Cas j (c_ptr c) cur) /\
       ((exists t', t' <> t /\ In (Bump t') es) \/ load (cmem g') (c_ptr c + CURSOR) 8 = Some v))).
    { apply wlp_ret. auto. }
    unfold cstep. intros es g'. unfold bind at 1, get_g. revert es g'.
    destruct ch as [t0 o|t0 sp|t0 v0|keep]; cbn [others] in No.
    - destruct (nth_error (g_thr g) t0) as [p0|] eqn:Hp0; [|exact Hnone].
      destruct p0; try exact Hnone. apply (Hone t0 Idle); auto.
      + apply begin_thread; auto.
      + apply (begin_mem (c :: cs0) _ s); auto; [left; reflexivity|].
        destruct (forallb away (g_thr g)) eqn:Ea; [|reflexivity].
        pose proof (away_at _ _ _ Ea Hp). discriminate.
    - destruct (nth_error (g_thr g) t0) as [p0|] eqn:Hp0; [|exact Hnone].
      apply (Hone t0 p0); auto.
      + apply go_thread; auto.
      + apply (go_mem (c :: cs0) _ s); auto; [left; reflexivity|].
        intros j0 ->. destruct Hlk as (K1 & K2 & K3).
        assert (Hw : lk_writer (g_lock g) = Some t0) by (apply K2; eexists; split; [exact Hp0|reflexivity]).
        assert (Hrd : In t (lk_readers (g_lock g))) by (apply K1; eexists; split; [exact Hp|reflexivity]).
        rewrite K3 in Hrd by congruence. contradiction.
    - destruct (nth_error (g_thr g) t0) as [p0|] eqn:Hp0; [|exact Hnone].
      apply (Hone t0 p0); auto.
      + apply stale_thread; auto.
      + apply stale_mem.
    - destruct (forallb is_idle (g_thr g)) eqn:Ei; [|exact Hnone].
      pose proof (idle_at _ _ _ Ei Hp). discriminate.
  Qed.

  Lemma header_load g s : cinv su g s -> forall t j r cur, nth_error (g_thr g) t = Some (Cas j r cur) ->
    exists v, load (cmem g) (r + CURSOR) 8 = Some v.
  Proof.
    intros (cs & C) t j r cur Hp. pose proof C as (R & _ & _ & _ & _ & Hpc & _).
    pose proof (Hpc _ _ Hp) as Hj. cbn in Hj. destruct Hj as (_ & _ & _ & Hr).
    destruct (header_of su Hok _ _ _ _ _ R Hr) as (c & cs0 & _ & _ & L & _). eauto.
  Qed.

  Lemma other_run sched : forall g s t j r cur v, cinv su g s ->
    nth_error (g_thr g) t = Some (Cas j r cur) -> Forall (others t) sched ->
    load (cmem g) (r + CURSOR) 8 = Some v ->
    wlp (crun su sched) g (fun es g' => nth_error (g_thr g') t = Some (Cas j r cur) /\
      ((exists t', t' <> t /\ In (Bump t') es) \/ load (cmem g') (r + CURSOR) 8 = Some v)).
  Proof.
    induction sched as [|ch sched IH]; intros g s t j r cur v Hi Hp Hall L; cbn [crun].
    - apply wlp_ret. auto.
    - inversion Hall as [|? ? H1 H2]; subst. apply wlp_bind. intros es1 g1 E1.
      pose proof (cstep_ok su Hok g s ch Hi) as Hi1. apply wp_inv in Hi1.
      destruct Hi1 as (es1' & g1' & E1' & Hi1). rewrite E1 in E1'. inversion E1'; subst es1' g1'. clear E1'.
      destruct (other_step g s t ch j r cur v Hi Hp H1 L es1 g1 E1) as [Hp1 Hcase].
      apply wlp_bind. intros es2 g2 E2. apply wlp_ret.
      destruct Hcase as [(t' & N & Hb)|L1].
      + split; [|left; exists t'; split; [exact N|apply in_or_app; left; exact Hb]].
        destruct (header_load g1 _ Hi1 t j r cur Hp1) as (v1 & L1).
        apply (IH g1 _ t j r cur v1 Hi1 Hp1 H2 L1 es2 g2 E2).
      + destruct (IH g1 _ t j r cur v Hi1 Hp1 H2 L1 es2 g2 E2) as [Hp2 [(t' & N & Hb)|L2]]; split; auto.
        left. exists t'. split; [exact N|]. apply in_or_app; right; exact Hb.
  Qed.

  (** A thread that has just loaded the cursor has the current one. *)
  Lemma fresh_cas g t p sp : nth_error (g_thr g) t = Some p ->
    wlp (go su t p sp) g (fun es g' => forall j r cur, nth_error (g_thr g') t = Some (Cas j r cur) ->
      load (cmem g') (r + CURSOR) 8 = Some cur).
  Proof.
    intros Hp.
    assert (Hfin : forall j wr r g1, g_thr g1 = g_thr g ->
      wlp (finish t j wr r) g1 (fun es g' => forall j r cur, nth_error (g_thr g') t = Some (Cas j r cur) ->
        load (cmem g') (r + CURSOR) 8 = Some cur)).
    { intros j wr r g1 Et es g' E. rewrite finish_eq in E. inversion E; subst. cbn. rewrite Et.
      intros j0 r0 c0. rewrite (nth_set_same _ _ _ _ Hp). discriminate. }
    assert (Hbec : forall p' g1, g_thr g1 = g_thr g -> (forall j r cur, p' = Cas j r cur -> load (cmem g1) (r + CURSOR) 8 = Some cur) ->
      wlp (become t p' ;;; ret []) g1 (fun (es : list event) g' => forall j r cur, nth_error (g_thr g') t = Some (Cas j r cur) ->
        load (cmem g') (r + CURSOR) 8 = Some cur)).
    { intros p' g1 Et H es g' E. inversion E; subst. cbn. rewrite Et. intros j0 r0 c0.
      rewrite (nth_set_same _ _ _ _ Hp). intros X; inversion X; subst. apply (H _ _ _ eq_refl). }
    assert (Hbump : forall (m : M gst (list event)) g1, wlp m g1 (fun es g' => forall j r cur, nth_error (g_thr g') t = Some (Cas j r cur) ->
        load (cmem g') (r + CURSOR) 8 = Some cur) ->
      wlp (ev <- m ;; ret (Bump t :: ev)) g1 (fun es g' => forall j r cur, nth_error (g_thr g') t = Some (Cas j r cur) ->
        load (cmem g') (r + CURSOR) 8 = Some cur)).
    { intros m g1 H. apply wlp_bind. intros es g' E. apply wlp_ret. apply (H _ _ E). }
    assert (Hall : forall j b wr g1, g_thr g1 = g_thr g -> 
      wlp (allocated t j b wr) g1 (fun es g' => forall j r cur, nth_error (g_thr g') t = Some (Cas j r cur) ->
        load (cmem g') (r + CURSOR) 8 = Some cur)).
    { intros j b wr g1 Et. unfold allocated. destruct j; auto. apply Hbec; [exact Et|]. discriminate. }
    destruct p; cbn [go].
    - apply wlp_ret. rewrite Hp. discriminate.
    - apply wlp_get. destruct (lk_writer (g_lock g)); [apply wlp_ret; rewrite Hp; discriminate|].
      apply wlp_put_lock. unfold enter.
      destruct (ar_root (fst (g_aw g))) as [r|], j; try (apply Hfin; reflexivity); try (apply Hbec; [reflexivity|discriminate]).
      destruct (l_align new <=? l_align old); [|apply Hbec; [reflexivity|discriminate]].
      destruct (l_size new <=? l_size old); [apply Hfin; reflexivity|apply Hbec; [reflexivity|discriminate]].
    - load_w v1 E1. apply Hbec; [reflexivity|]. intros j0 r0 c0 E; inversion E; subst. exact E1.
    - load_w v1 E1. apply wlp_on_w. intros a w1 Ea. apply pure_attempt in Ea. subst w1.
      cbn [g_tab g_thr g_lock g_aw fst snd].
      destruct a as [[aligned next]|]; [|apply Hbec; [reflexivity|discriminate]].
      load_w v2 E2. destruct (negb sp && (v2 =? cursor)).
      2: { apply Hbec; [reflexivity|]. intros j0 r0 c0 E; inversion E; subst. exact E2. }
      apply wlp_on_w. intros ? ? _.
      apply wlp_bind. intros len g1 E. apply pure_sub in E. subst g1.
      apply wlp_bind. intros ? g1 E. apply pure_assert in E. subst g1.
      apply wlp_bind. intros ? g1 E. apply pure_assert in E. subst g1. apply Hbump, Hall. reflexivity.
    - destruct j; try apply wlp_ub. apply wlp_bind. intros e g1 E. apply pure_ptr_add in E. destruct E as [-> _].
      load_w v1 E1. destruct (v1 =? e); [|apply Hbec; [reflexivity|discriminate]].
      destruct (checked_add (u_ptr u) (l_size new)); [|apply Hbec; [reflexivity|discriminate]].
      load_w v2 E2. destruct (v2 <? z); apply Hbec; try reflexivity; discriminate.
    - destruct j; try apply wlp_ub. apply wlp_bind. intros e g1 E. apply pure_ptr_add in E. destruct E as [-> _].
      load_w v1 E1. destruct (v1 =? cursor); [|apply Hbec; [reflexivity|discriminate]].
      apply wlp_on_w. intros ? ? _.
      apply wlp_bind. intros len g1 E. apply pure_sub in E. subst g1.
      apply wlp_bind. intros ? g1 E. apply pure_assert in E. subst g1. apply Hbump, Hfin. reflexivity.
    - destruct j; try apply wlp_ub. apply wlp_on_w. intros [] w' _. apply Hfin. reflexivity.
    - destruct j; try apply wlp_ub. cbv zeta.
      destruct (negb _); [apply wlp_ub|]. destruct (i <? _); [|apply Hfin; reflexivity].
      apply wlp_on_w. intros [] w' _. apply Hbec; [reflexivity|discriminate].
    - intros es g' E. unfold bind, get_g, put_lock in E. cbn in E.
      destruct next as [j|]; inversion E; subst; cbn; intros j0 r0 c0; rewrite (nth_set_same _ _ _ _ Hp); discriminate.
    - apply wlp_get.
      assert (Hs : wlp (ret []) g (fun (es : list event) g' => forall j r cur, nth_error (g_thr g') t = Some (Cas j r cur) ->
        load (cmem g') (r + CURSOR) 8 = Some cur)) by (apply wlp_ret; rewrite Hp; discriminate).
      destruct (lk_writer (g_lock g)); [exact Hs|destruct (lk_readers (g_lock g)); [|exact Hs]].
      apply wlp_put_lock. apply Hbec; [reflexivity|discriminate].
    - apply wlp_bind. intros r g1 E. unfold on_aw in E.
      destruct (arena_alloc_slow A dbg (job_layout j) (g_aw g)); try discriminate. inversion E; subst; clear E.
      destruct r as [b|]; [|apply Hfin; reflexivity]. apply Hall. reflexivity.
  Qed.

  (** A compare-exchange that is not told to fail fails only on another value. *)
  Lemma cas_again g t j r cur : nth_error (g_thr g) t = Some (Cas j r cur) ->
    wlp (go su t (Cas j r cur) false) g (fun es g' =>
      forall j' r' cur', nth_error (g_thr g') t = Some (Cas j' r' cur') ->
      exists v, load (cmem g) (r + CURSOR) 8 = Some v /\ v <> cur).
  Proof.
    intros Hp.
    assert (Hfin : forall j wr r0 g1, g_thr g1 = g_thr g ->
      wlp (finish t j wr r0) g1 (fun es g' => forall j' r' cur', nth_error (g_thr g') t = Some (Cas j' r' cur') ->
        exists v, load (cmem g) (r + CURSOR) 8 = Some v /\ v <> cur)).
    { intros j0 wr r0 g1 Et es g' E. rewrite finish_eq in E. inversion E; subst. cbn. rewrite Et.
      intros j1 r1 c1. rewrite (nth_set_same _ _ _ _ Hp). discriminate. }
    cbn [go].
    load_w v1 E1. apply wlp_on_w. intros a w1 Ea. apply pure_attempt in Ea. subst w1.
    cbn [g_tab g_thr g_lock g_aw fst snd].
    destruct a as [[aligned next]|].
    2: { intros es g' E; inversion E; subst; cbn; intros j0 r0 c0; rewrite (nth_set_same _ _ _ _ Hp); discriminate. }
    load_w v2 E2. cbn [negb andb]. destruct (Z.eqb_spec v2 cur) as [->|N].
    - apply wlp_on_w. intros ? ? _.
      apply wlp_bind. intros len g1 E. apply pure_sub in E. subst g1.
      apply wlp_bind. intros ? g1 E. apply pure_assert in E. subst g1.
      apply wlp_bind. intros ? g1 E. apply pure_assert in E. subst g1.
      apply wlp_bind. intros es g' E. apply wlp_ret. revert es g' E.
      unfold allocated. destruct j; try (apply Hfin; reflexivity).
      intros es g' E; inversion E; subst; cbn; intros j0 r0 c0; rewrite (nth_set_same _ _ _ _ Hp); discriminate.
    - intros es g' _ j' r' cur' _. exists v2. auto.
  Qed.

  Lemma cas_fails n sched es t sp sched2 j r cur j' r' cur' es0 es2 es3 g g1 g2 g3 :
    creached su n sched es g ->
    cstep su (Go t sp) g = ORet es0 g1 ->
    nth_error (g_thr g1) t = Some (Cas j r cur) ->
    crun su sched2 g1 = ORet es2 g2 -> Forall (others t) sched2 ->
    cstep su (Go t false) g2 = ORet es3 g3 ->
    nth_error (g_thr g3) t = Some (Cas j' r' cur') ->
    exists t', t' <> t /\ In (Bump t') es2.
  Proof.
    intros H0 E0 Hp1 E2 Hall E3 Hp3.
    pose proof (creached_inv su Hok _ _ _ _ H0) as Hi.
    pose proof (cstep_ok su Hok g _ (Go t sp) Hi) as Hi1. apply wp_inv in Hi1.
    destruct Hi1 as (x1 & x2 & E1' & Hi1). rewrite E0 in E1'. inversion E1'; subst x1 x2. clear E1'.
    unfold cstep in E0. unfold bind at 1, get_g in E0.
    destruct (nth_error (g_thr g) t) as [p|] eqn:Hp.
    2: { inversion E0; subst. congruence. }
    pose proof (fresh_cas g t p sp Hp _ _ E0 _ _ _ Hp1) as L1.
    destruct (other_run sched2 g1 _ t j r cur cur Hi1 Hp1 Hall L1 _ _ E2) as [Hp2 [H|L2]]; [exact H|].
    unfold cstep in E3. unfold bind at 1, get_g in E3. rewrite Hp2 in E3.
    destruct (cas_again g2 t j r cur Hp2 _ _ E3 _ _ _ Hp3) as (v & L3 & N).
    rewrite L2 in L3. congruence.
  Qed.

  (** *** Running alone *)

  Definition job_bytes (j : job) : nat :=
    match j with JResize _ _ old new => Z.to_nat (Z.min (l_size new) (l_size old)) | _ => 0%nat end.
  Definition pc_bytes (p : pc) : nat :=
    match p with
    | WantRead j | Load j _ | Cas j _ _ | TipLoad j _ | TipCas j _ _ | FreeCas j _
    | Copy j _ _ _ | WantWrite j | Slow j | Unlock _ (Some j) _ => job_bytes j
    | _ => 0%nat
    end.

  Definition matched (g : gst) (r cur : Z) : bool :=
    match load (cmem g) (r + CURSOR) 8 with Some v => v =? cur | None => false end.

  Definition mu (g : gst) (p : pc) : nat :=
    match p with
    | Idle => 0
    | Unlock _ None _ => 1
    | FreeCas _ _ => 2
    | Copy j _ i _ => 2 + (job_bytes j - Z.to_nat i)
    | Slow j => 3 + job_bytes j
    | WantWrite j => 4 + job_bytes j
    | Unlock _ (Some j) _ => 5 + job_bytes j
    | Cas j r cur => if matched g r cur then 6 + job_bytes j else 7 + job_bytes j
    | Load j _ => 7 + job_bytes j
    | TipCas j _ _ => 8 + job_bytes j
    | TipLoad j _ => 9 + job_bytes j
    | WantRead j => 10 + job_bytes j
    end%nat.

  Lemma mu_bound g p : (mu g p <= 10 + pc_bytes p)%nat.
  Proof. destruct p; cbn; try lia; [destruct (matched _ _ _); lia|destruct next; lia]. Qed.

  Definition blocked (g : gst) (p : pc) : Prop :=
    match p with
    | WantRead _ => lk_writer (g_lock g) <> None
    | WantWrite _ => lk_writer (g_lock g) <> None \/ lk_readers (g_lock g) <> []
    | _ => False
    end.

  Definition less (t : nat) (g : gst) (p : pc) (g' : gst) : Prop :=
    exists p', g_thr g' = set_nth t p' (g_thr g) /\ (mu g' p' < mu g p)%nat.

  Lemma finish_less t j wr r g g0 p : g_thr g = g_thr g0 -> (1 < mu g0 p)%nat ->
    wlp (finish t j wr r) g (fun _ g' => less t g0 p g').
  Proof.
    intros Et L es g' E. rewrite finish_eq in E. inversion E; subst. cbn.
    eexists. cbn [g_thr]. split; [rewrite Et; reflexivity|]. cbn. exact L.
  Qed.
  Lemma become_less t g g0 p p' : g_thr g = g_thr g0 -> (mu g p' < mu g0 p)%nat ->
    wlp (become t p' ;;; ret []) g (fun (_ : list event) g' => less t g0 p g').
  Proof.
    intros Et L es g' E. inversion E; subst. exists p'. cbn [g_thr].
    split; [rewrite Et; reflexivity|]. destruct p'; exact L.
  Qed.
  Lemma allocated_less t j b wr g g0 p : g_thr g = g_thr g0 -> (2 + job_bytes j < mu g0 p)%nat ->
    wlp (allocated t j b wr) g (fun _ g' => less t g0 p g').
  Proof.
    intros Et L. unfold allocated. destruct j; try (apply finish_less; [exact Et|lia]).
    apply become_less; [exact Et|]. cbn in *. lia.
  Qed.
  Lemma bump_less t m g g0 p : wlp m g (fun _ g' => less t g0 p g') ->
    wlp (ev <- m ;; ret (Bump t :: ev)) g (fun _ g' => less t g0 p g').
  Proof. intros H. apply wlp_bind. intros es g' E. apply wlp_ret. apply (H _ _ E). Qed.

  Lemma go_less g t p : nth_error (g_thr g) t = Some p -> p <> Idle -> ~ blocked g p ->
    match p with Copy _ _ i _ => 0 <= i | _ => True end ->
    wlp (go su t p false) g (fun _ g' => less t g p g').
  Proof.
    intros Hp Ni Nb Hi. destruct p; cbn [go].
    - congruence.
    - apply wlp_get. cbn in Nb.
      destruct (lk_writer (g_lock g)); [exfalso; apply Nb; discriminate|].
      apply wlp_put_lock. unfold enter.
      destruct (ar_root (fst (g_aw g))) as [r|], j;
        try (apply finish_less; [reflexivity|cbn; lia]); try (apply become_less; [reflexivity|cbn; lia]).
      destruct (l_align new <=? l_align old); [|apply become_less; [reflexivity|cbn; lia]].
      destruct (l_size new <=? l_size old); [apply finish_less; [reflexivity|cbn; lia]|apply become_less; [reflexivity|cbn; lia]].
    - load_w v1 E1. apply become_less; [reflexivity|]. cbn [mu]. unfold matched, cmem. cbn [g_aw snd].
      change (bw_mem (snd (g_aw g))) with (al_mem A (snd (g_aw g))). rewrite E1, Z.eqb_refl. lia.
    - load_w v1 E1. apply wlp_on_w. intros a w1 Ea. apply pure_attempt in Ea. subst w1.
      cbn [g_tab g_thr g_lock g_aw fst snd].
      destruct a as [[aligned next]|].
      2: { apply become_less; [reflexivity|]. cbn. destruct (matched _ _ _); lia. }
      load_w v2 E2. cbn [negb andb]. destruct (Z.eqb_spec v2 cursor) as [->|N].
      + apply wlp_on_w. intros ? ? _.
        apply wlp_bind. intros len g1 E. apply pure_sub in E. subst g1.
        apply wlp_bind. intros ? g1 E. apply pure_assert in E. subst g1.
        apply wlp_bind. intros ? g1 E. apply pure_assert in E. subst g1.
        apply bump_less, allocated_less; [reflexivity|]. cbn. destruct (matched _ _ _); lia.
      + apply become_less; [reflexivity|]. cbn [mu]. unfold matched, cmem. cbn [g_aw snd].
        change (bw_mem (snd (g_aw g))) with (al_mem A (snd (g_aw g))). cbn [g_aw snd] in E2. rewrite E2, Z.eqb_refl.
        destruct (Z.eqb_spec v2 cursor); [congruence|]. lia.
    - destruct j; try apply wlp_ub. apply wlp_bind. intros e g1 E. apply pure_ptr_add in E. destruct E as [-> _].
      load_w v1 E1. destruct (v1 =? e); [|apply become_less; [reflexivity|cbn; lia]].
      destruct (checked_add (u_ptr u) (l_size new)); [|apply become_less; [reflexivity|cbn; lia]].
      load_w v2 E2. destruct (v2 <? z); apply become_less; try reflexivity; cbn; lia.
    - destruct j; try apply wlp_ub. apply wlp_bind. intros e g1 E. apply pure_ptr_add in E. destruct E as [-> _].
      load_w v1 E1. destruct (v1 =? cursor); [|apply become_less; [reflexivity|cbn; lia]].
      apply wlp_on_w. intros ? ? _.
      apply wlp_bind. intros len g1 E. apply pure_sub in E. subst g1.
      apply wlp_bind. intros ? g1 E. apply pure_assert in E. subst g1.
      apply bump_less, finish_less; [reflexivity|cbn; lia].
    - destruct j; try apply wlp_ub. apply wlp_on_w. intros [] w' _. apply finish_less; [reflexivity|cbn; lia].
    - destruct j; try apply wlp_ub. cbv zeta.
      destruct (negb _); [apply wlp_ub|].
      destruct (Z.ltb_spec i (Z.min (l_size new) (l_size old))); [|apply finish_less; [reflexivity|cbn; lia]].
      apply wlp_on_w. intros [] w' _. apply become_less; [reflexivity|]. cbn. lia.
    - intros es g' E. unfold bind, get_g, put_lock in E. cbn in E.
      destruct next as [j|]; inversion E; subst; eexists; (split; [reflexivity|]); cbn; lia.
    - apply wlp_get. cbn in Nb.
      destruct (lk_writer (g_lock g)); [exfalso; apply Nb; left; discriminate|].
      destruct (lk_readers (g_lock g)); [|exfalso; apply Nb; right; discriminate].
      apply wlp_put_lock. apply become_less; [reflexivity|cbn; lia].
    - apply wlp_bind. intros r g1 E. unfold on_aw in E.
      destruct (arena_alloc_slow A dbg (job_layout j) (g_aw g)); try discriminate. inversion E; subst; clear E.
      destruct r as [b|]; [|apply finish_less; [reflexivity|cbn; lia]].
      apply allocated_less; [reflexivity|cbn; lia].
  Qed.

  (** Where a thread that runs alone can stop. *)
  Definition waits (t : nat) (g0 : gst) (p : pc) : Prop :=
    exists j, p = WantWrite j /\ exists t', t' <> t /\ In t' (lk_readers (g_lock g0)).

  Lemma solo_blocked sole ext m0 g s t p : xinv su sole ext m0 g s -> nth_error (g_thr g) t = Some p ->
    lk_writer (g_lock g) = None \/ lk_writer (g_lock g) = Some t ->
    blocked g p -> waits t g p.
  Proof.
    intros (cs & C) Hp Hw Hb. pose proof C as (_ & _ & _ & _ & (K1 & K2 & K3) & _ & _).
    assert (Hnw : writing p = false -> lk_writer (g_lock g) = None).
    { intros W. destruct Hw as [Hw|Hw]; [exact Hw|]. apply K2 in Hw. destruct Hw as (q & Hq & Wq).
      rewrite Hp in Hq. inversion Hq; subst. congruence. }
    destruct p; cbn in Hb; try contradiction.
    - exfalso. apply Hb, Hnw. reflexivity.
    - exists j. split; [reflexivity|]. rewrite Hnw in Hb by reflexivity.
      destruct Hb as [Hb|Hb]; [congruence|].
      destruct (lk_readers (g_lock g)) as [|t' rs] eqn:Er; [congruence|]. exists t'. split; [|left; reflexivity].
      intros ->. assert (Hin : In t (t :: rs)) by (left; reflexivity).
      apply K1 in Hin. destruct Hin as (q & Hq & Rq). rewrite Hp in Hq. inversion Hq; subst. discriminate.
  Qed.

  Lemma solo sole ext m0 k : forall g s t p, xinv su sole ext m0 g s -> nth_error (g_thr g) t = Some p ->
    lk_writer (g_lock g) = None \/ lk_writer (g_lock g) = Some t ->
    (mu g p <= k)%nat ->
    exists es g' p', crun su (repeat (Go t false) k) g = ORet es g' /\
      nth_error (g_thr g') t = Some p' /\ (p' = Idle \/ waits t g p').
  Proof.
    induction k as [|k IH]; intros g s t p Hi Hp Hw Hmu; cbn [repeat crun].
    - exists [], g, p. split; [reflexivity|]. split; [exact Hp|].
      destruct p; cbn in Hmu; try lia; [left; reflexivity|destruct (matched _ _ _); lia|destruct next; lia].
    - pose proof (xcstep_ok su Hok sole ext m0 g s (Go t false) Hi) as Hi1. apply wp_inv in Hi1.
      destruct Hi1 as (es1 & g1 & E1 & Hi1). unfold bind, ret. rewrite E1.
      pose proof E1 as Eg. unfold cstep in Eg. unfold bind at 1, get_g in Eg. rewrite Hp in Eg.
      assert (Hdec : p = Idle \/ blocked g p \/ (p <> Idle /\ ~ blocked g p)).
      { destruct p; cbn; try (left; reflexivity); try (right; right; split; [discriminate|tauto]).
        - destruct (lk_writer (g_lock g)); [right; left; discriminate|right; right; split; [discriminate|tauto]].
        - destruct (lk_writer (g_lock g)), (lk_readers (g_lock g));
            try (right; left; left; discriminate); try (right; left; right; discriminate).
          right; right. split; [discriminate|]. intros [X|X]; congruence. }
      assert (Hstop : g1 = g -> p = Idle \/ waits t g p ->
        exists es g' p', match crun su (repeat (Go t false) k) g1 with
          | ORet b w' => ORet (es1 ++ b) w' | OPanic w' => OPanic w' | OAbort => OAbort | OUB => OUB end = ORet es g' /\
          nth_error (g_thr g') t = Some p' /\ (p' = Idle \/ waits t g p')).
      { intros -> Hst.
        assert (Hrep : forall k, exists es, crun su (repeat (Go t false) k) g = ORet es g).
        { intros k0. induction k0 as [|k0 (es0 & IHk)]; cbn [repeat crun]; [eexists; reflexivity|].
          unfold bind, ret. rewrite E1, IHk. eexists. reflexivity. }
        destruct (Hrep k) as (es2 & ->). exists (es1 ++ es2), g, p. auto. }
      destruct Hdec as [->|[Hb|[Ni Nb]]].
      + apply Hstop; [|auto]. cbn in Eg. inversion Eg; reflexivity.
      + apply Hstop; [|right; apply (solo_blocked sole ext m0 g s); auto].
        destruct p; cbn in Hb; try contradiction; cbn [go] in Eg; unfold bind at 1, get_g in Eg.
        * destruct (lk_writer (g_lock g)); [|congruence]. inversion Eg; reflexivity.
        * destruct (lk_writer (g_lock g)); [inversion Eg; reflexivity|].
          destruct (lk_readers (g_lock g)); [|inversion Eg; reflexivity]. destruct Hb; congruence.
      + assert (Hci : match p with Copy _ _ i _ => 0 <= i | _ => True end).
        { destruct Hi as (cs & C). pose proof C as (_ & _ & _ & _ & _ & Hpc & _).
          specialize (Hpc t p Hp). destruct p; auto. cbn in Hpc. destruct Hpc as [_ Hpc].
          destruct j; try contradiction. tauto. }
        destruct (go_less g t p Hp Ni Nb Hci _ _ Eg) as (p1 & Et & Hl).
        assert (Hp1 : nth_error (g_thr g1) t = Some p1) by (rewrite Et; apply (nth_set_same _ _ _ _ Hp)).
        assert (Hoth : forall t', t' <> t -> nth_error (g_thr g1) t' = nth_error (g_thr g) t').
        { intros t' N. rewrite Et, nth_set_other by congruence. reflexivity. }
        destruct Hi as (cs & C). pose proof C as (_ & _ & _ & _ & (K1 & K2 & K3) & _ & _).
        destruct Hi1 as (cs1 & C1). pose proof C1 as (_ & _ & _ & _ & (J1 & J2 & J3) & _ & _).
        assert (Hw1 : lk_writer (g_lock g1) = None \/ lk_writer (g_lock g1) = Some t).
        { destruct (lk_writer (g_lock g1)) as [t'|] eqn:Ew; [|auto]. right.
          destruct (Nat.eq_dec t' t) as [->|N]; [reflexivity|]. exfalso.
          destruct (proj1 (J2 t') eq_refl) as (q & Hq & Wq). rewrite Hoth in Hq by exact N.
          assert (X : lk_writer (g_lock g) = Some t') by (apply K2; eauto).
          destruct Hw as [Hw|Hw]; congruence. }
        destruct (IH g1 _ t p1 (ex_intro _ cs1 C1) Hp1 Hw1 ltac:(lia)) as (es2 & g2 & p2 & E2 & Hp2 & Hst).
        rewrite E2. exists (es1 ++ es2), g2, p2. split; [reflexivity|]. split; [exact Hp2|].
        destruct Hst as [->|(j & -> & t' & N & Hr)]; [auto|right]. exists j. split; [reflexivity|].
        exists t'. split; [exact N|]. apply J1 in Hr. destruct Hr as (q & Hq & Rq). apply K1. exists q.
        rewrite Hoth in Hq by exact N. auto.
  Qed.

  Lemma creached_solo n sched es g t p :
    creached su n sched es g -> nth_error (g_thr g) t = Some p ->
    lk_writer (g_lock g) = None \/ lk_writer (g_lock g) = Some t ->
    exists k es2 g2 p2, (k <= 10 + pc_bytes p)%nat /\
      crun su (repeat (Go t false) k) g = ORet es2 g2 /\ nth_error (g_thr g2) t = Some p2 /\
      (p2 = Idle \/
       exists j, p2 = WantWrite j /\ exists t', t' <> t /\ In t' (lk_readers (g_lock g))).
  Proof.
    intros E Hp Hw. pose proof (creached_inv su Hok _ _ _ _ E) as Hi.
    apply (sole_inv su (bw_mem bworld0)) in Hi.
    destruct (solo _ _ _ (mu g p) g _ t p Hi Hp Hw ltac:(lia)) as (es2 & g2 & p2 & H1 & H2 & H3).
    exists (mu g p), es2, g2, p2. split; [apply mu_bound|]. auto.
  Qed.
End Progress.
