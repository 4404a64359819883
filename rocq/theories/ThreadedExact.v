(** In concurrent runs, too, a [SyncBlinkAlloc] gives exactly what it is asked for. *)
From Verif Require Import Base BaseFacts Alloc AllocFacts Arena ArenaFacts ArenaInv ArenaOps
  BlinkAlloc BlinkFacts History HistoryFacts Setup SetupFacts SetupOps Conc ConcFacts ConcSteps ConcProps BlinkEnv.

Definition exact_pc (p : pc) : Prop := Forall (fun u => u_len u = l_size (u_layout u)) (hold p).
Definition exact_job (j : job) (r : option block) : Prop :=
  match r, j with
  | None, _ => True
  | Some b, JAlloc l => b_len b = l_size l
  | Some b, JResize _ _ old new => l_size old <= l_size new -> b_len b = l_size new
  | Some b, JDealloc _ _ _ => True
  end.
Definition exact_op (o : op) (r : option block) : Prop :=
  match r, o with
  | Some b, OpAlloc l _ => b_len b = l_size l
  | Some b, OpResize _ old new => l_size old <= l_size new -> b_len b = l_size new
  | _, _ => True
  end.

Section Exact.
  Variable su : setup.
  Notation A := (bot su).
  Notation dbg := (su_dbg su).
  Variable t : nat.

  Definition exact_step (es : list event) (g' : gst) : Prop :=
    (forall o r, In (Lin t o r) es -> exact_op o r) /\ forall p', nth_error (g_thr g') t = Some p' -> exact_pc p'.

  Lemma attempt_len l cur e : yields (alloc_attempt dbg l cur e : M bworld _) (fun r => match r with Some (a, n) => n = a + l_size l | None => True end).
  Proof.
    unfold alloc_attempt. apply yields_step. intros sum. destruct (checked_add cur sum) as [u|]; [|apply yields_ret; exact I].
    apply yields_step. intros u'. apply yields_step. intros _. apply yields_step. intros d. apply yields_step. intros _.
    apply yields_step. intros nx. destruct (e <? nx); [apply yields_ret; exact I|].
    apply yields_step. intros a. apply (yields_bind _ _ _ _ (yields_ptr_add a (l_size l))). intros n ->. apply yields_ret. reflexivity.
  Qed.

  Lemma finish_exact g j wr r p : nth_error (g_thr g) t = Some p -> exact_job j r -> wlp (finish t j wr r) g exact_step.
  Proof.
    intros Hp Hx es g' E. rewrite finish_eq in E. injection E as <- <-. split.
    - intros o r' [X|[]]. injection X as <- <-. destruct j, r; cbn in *; auto.
    - cbn [g_thr]. rewrite (nth_set_same _ _ _ _ Hp). intros p' X. injection X as <-. constructor.
  Qed.
  Lemma become_exact g p p' : nth_error (g_thr g) t = Some p -> exact_pc p' -> wlp (become t p' ;;; ret []) g exact_step.
  Proof.
    intros Hp Hx es g' E. injection E as <- <-. split; [intros o r []|]. cbn [g_thr]. rewrite (nth_set_same _ _ _ _ Hp).
    intros q X. injection X as <-. exact Hx.
  Qed.
  Lemma stay_exact g p : nth_error (g_thr g) t = Some p -> exact_pc p -> wlp (ret []) g exact_step.
  Proof. intros Hp Hx. apply wlp_ret. split; [intros o r []|]. intros q X. rewrite Hp in X. injection X as <-. exact Hx. Qed.
  Lemma bump_exact g m : wlp m g exact_step -> wlp (ev <- m ;; ret (Bump t :: ev)) g exact_step.
  Proof.
    intros H. apply wlp_bind. intros es g' E. destruct (H _ _ E) as [H1 H2]. apply wlp_ret. split; [|exact H2].
    intros o r [X|X]; [discriminate X|]. apply (H1 o r X).
  Qed.
  Lemma allocated_exact g j b wr p : nth_error (g_thr g) t = Some p -> b_len b = l_size (job_layout j) ->
    wlp (allocated t j b wr) g exact_step.
  Proof.
    intros Hp E. unfold allocated. destruct j; cbn [job_layout] in E.
    - apply (finish_exact g _ _ _ p Hp). exact E.
    - apply (become_exact g p _ Hp). constructor; [exact E|constructor].
    - apply (finish_exact g _ _ _ p Hp). exact I.
  Qed.

  Ltac next_w := apply wlp_on_w; intros ? ? _; cbn [g_tab g_thr g_lock g_aw fst snd].

  Lemma go_exact p sp g : nth_error (g_thr g) t = Some p -> exact_pc p ->
    (forall j, 0 <= l_size (job_layout j) <= USIZE_MAX \/ phase_of p <> PCalled (job_op j)) ->
    wlp (go su t p sp) g exact_step.
  Proof.
    intros Hp Hx Hr.
    assert (Hs : forall j, phase_of p = PCalled (job_op j) -> 0 <= l_size (job_layout j) <= USIZE_MAX).
    { intros j E. destruct (Hr j) as [H|H]; [exact H|contradiction]. }
    destruct p; cbn [go].
    - apply (stay_exact g _ Hp Hx).
    - apply wlp_get. destruct (lk_writer (g_lock g)); [apply (stay_exact g _ Hp Hx)|]. apply wlp_put_lock. unfold enter.
      destruct (ar_root (fst (g_aw g))) as [r|], j;
        try (eapply finish_exact; [exact Hp|exact I]); try (eapply become_exact; [exact Hp|constructor]).
      destruct (l_align new <=? l_align old); [|eapply become_exact; [exact Hp|constructor]].
      destruct (Z.leb_spec (l_size new) (l_size old)); [|eapply become_exact; [exact Hp|constructor]].
      eapply finish_exact; [exact Hp|]. cbn. lia.
    - next_w. eapply become_exact; [exact Hp|constructor].
    - next_w. apply wlp_on_w. intros a w1 Ea. pose proof (attempt_len _ _ _ _ _ _ Ea) as Ha. cbn beta in Ha.
      cbn [g_tab g_thr g_lock g_aw fst snd]. destruct a as [[aligned next]|]; [|eapply become_exact; [exact Hp|constructor]].
      next_w. destruct (negb sp && _); [|eapply become_exact; [exact Hp|constructor]].
      next_w. apply wlp_bind. intros len g1 E. pose proof (yields_sub dbg _ _ _ _ _ E) as Hl. cbn beta in Hl. apply pure_sub in E. subst g1.
      apply wlp_bind. intros ? g1 E. apply pure_assert in E. subst g1.
      apply wlp_bind. intros ? g1 E. apply pure_assert in E. subst g1.
      apply bump_exact. eapply allocated_exact; [exact Hp|]. cbn [b_len]. pose proof (Hs j eq_refl). rewrite Hl; lia.
    - destruct j; try apply wlp_ub. apply wlp_bind. intros e g1 E. apply pure_ptr_add in E. destruct E as [-> _].
      next_w. destruct (b =? e); [|eapply become_exact; [exact Hp|constructor]].
      destruct (checked_add (u_ptr u) (l_size new)); [|eapply become_exact; [exact Hp|constructor]].
      next_w. destruct (b0 <? z); eapply become_exact; try exact Hp; constructor.
    - destruct j; try apply wlp_ub. apply wlp_bind. intros e g1 E. apply pure_ptr_add in E. destruct E as [-> ->].
      next_w. destruct (b =? cursor); [|eapply become_exact; [exact Hp|constructor]]. next_w.
      apply wlp_bind. intros len g1 E. pose proof (yields_sub dbg _ _ _ _ _ E) as Hl. cbn beta in Hl. apply pure_sub in E. subst g1.
      apply wlp_bind. intros ? g1 E. apply pure_assert in E. subst g1.
      apply bump_exact. eapply finish_exact; [exact Hp|]. cbn [exact_job b_len]. intros _.
      pose proof (Hs (JResize h u old new) eq_refl) as H. cbn [job_layout] in H. rewrite Hl; lia.
    - destruct j; try apply wlp_ub. next_w. eapply finish_exact; [exact Hp|exact I].
    - destruct j; try apply wlp_ub. cbv zeta. destruct (negb _); [apply wlp_ub|].
      unfold exact_pc in Hx. cbn [hold] in Hx. apply Forall_inv in Hx. cbn in Hx.
      destruct (i <? _).
      + next_w. eapply become_exact; [exact Hp|]. constructor; [exact Hx|constructor].
      + eapply finish_exact; [exact Hp|]. intros _. exact Hx.
    - intros es g' E. unfold bind, get_g, put_lock in E. cbn in E. destruct next as [j|]; injection E as <- <-.
      + split; [intros o r []|]. cbn [g_thr]. rewrite (nth_set_same _ _ _ _ Hp). intros q X. injection X as <-. constructor.
      + split; [intros o r [X|[]]; discriminate X|]. cbn [g_thr]. rewrite (nth_set_same _ _ _ _ Hp). intros q X. injection X as <-. constructor.
    - apply wlp_get. destruct (lk_writer (g_lock g)); [apply (stay_exact g _ Hp Hx)|].
      destruct (lk_readers (g_lock g)); [|apply (stay_exact g _ Hp Hx)].
      apply wlp_put_lock. eapply become_exact; [exact Hp|constructor].
    - apply wlp_bind. intros r g1 E. unfold on_aw in E.
      destruct (arena_alloc_slow A dbg (job_layout j) (g_aw g)) as [r1 aw1| | |] eqn:Es; try discriminate E. injection E as <- <-.
      assert (Hl : len_is (l_size (job_layout j)) r1).
      { revert Es. generalize r1, aw1. generalize (g_aw g).
        change (yields (arena_alloc_slow A dbg (job_layout j)) (len_is (l_size (job_layout j)))).
        unfold arena_alloc_slow. apply yields_with. intros ar.
        apply (yields_bind _ _ _ _ (alloc_slow_len A dbg _ _ _ (Hs j eq_refl))). intros [[b c]|] H'; apply yields_ret; exact H'. }
      destruct r1 as [b|].
      + eapply allocated_exact; [exact Hp|exact Hl].
      + eapply finish_exact; [exact Hp|exact I].
  Qed.

  Lemma stale_exact p v g : nth_error (g_thr g) t = Some p -> exact_pc p -> wlp (stale su t p v) g exact_step.
  Proof.
    intros Hp Hx es g' E. destruct (stale_ok su t p v g es g' E) as [[-> ->]|[(-> & p' & (_ & _ & Eh) & ->)|(h & u & l & r & -> & F)]].
    - apply (stay_exact g p Hp Hx). reflexivity.
    - apply (become_exact g p p' Hp); [|reflexivity]. unfold exact_pc. rewrite Eh. exact Hx.
    - revert F. eapply finish_exact; [exact Hp|exact I].
  Qed.
End Exact.
