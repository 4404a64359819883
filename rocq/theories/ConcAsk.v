(** What the shared arena asks of the underlying allocator: when a request fails, and how
    often it asks. *)
From Verif Require Import Base BaseFacts Alloc AllocFacts Arena ArenaFacts ArenaInv ArenaOps
  BlinkAlloc BlinkFacts History HistoryFacts Setup SetupFacts SetupOps SetupProps Conc ConcFacts
  ConcSteps ConcProps ConcDemo.

(** The requests in a record of the underlying allocator. *)
Definition is_ask (e : uevent) : bool := match e with EvAlloc _ _ => true | _ => false end.
Definition asks (tr : list uevent) : nat := length (filter is_ask tr).
(** The calls in a record of events that may need a new block. *)
Definition needs_block (e : event) : bool :=
  match e with Call _ (OpAlloc _ _) | Call _ (OpResize _ _ _) => true | _ => false end.
Definition block_calls (es : list event) : nat := length (filter needs_block es).

(** The thread may still get to the slow path in its present call. *)
Definition job_takes (j : job) : bool := match j with JDealloc _ _ _ => false | _ => true end.
Definition may_ask (p : pc) : bool :=
  match p with
  | WantRead j | Load j _ | Cas j _ _ | TipLoad j _ | TipCas j _ _ | WantWrite j | Slow j
  | Unlock _ (Some j) _ => job_takes j
  | _ => false
  end.

Definition cupstream (g : gst) : list uevent := bw_trace (snd (g_aw g)).

(** [m] makes no request to the underlying allocator. *)
Definition modest {B} (m : M bworld B) : Prop :=
  forall w b w', m w = ORet b w' -> asks (bw_trace w') = asks (bw_trace w).

Lemma modest_ret {B} (b : B) : modest (ret b).
Proof. intros w b' w' E. inversion E; reflexivity. Qed.
Lemma modest_bind {B C} (m : M bworld B) (f : B -> M bworld C) :
  modest m -> (forall b, modest (f b)) -> modest (bind m f).
Proof.
  intros H1 H2 w c w' E. unfold bind in E. destruct (m w) as [b w1| | |] eqn:Em; try discriminate.
  rewrite (H2 b w1 c w' E). apply (H1 w b w1 Em).
Qed.
Lemma modest_pure {B} (m : M bworld B) : (forall w b w', m w = ORet b w' -> w' = w) -> modest m.
Proof. intros H w b w' E. rewrite (H w b w' E). reflexivity. Qed.

Section Ask.
  Variable su : setup.
  Hypothesis Hok : setup_ok su.
  Notation A := (bot su).
  Notation dbg := (su_dbg su).

  Lemma modest_load a n : modest (mload A a n).
  Proof. apply modest_pure. intros w b w' E. apply pure_load in E. apply E. Qed.
  Lemma modest_mem (f : bworld -> mem) : modest (fun w => ORet tt (al_set_mem A w (f w))).
  Proof. intros w b w' E. inversion E; subst. reflexivity. Qed.
  Lemma modest_store a n v : modest (mstore A a n v).
  Proof. apply (modest_mem (fun w => store (al_mem A w) a n v)). Qed.
  Lemma modest_attempt l c e : modest (alloc_attempt dbg l c e).
  Proof. apply modest_pure. intros w b w' E. apply pure_attempt in E. exact E. Qed.
  Lemma modest_add p n : modest (ptr_add p n).
  Proof. apply modest_pure. intros w b w' E. apply pure_ptr_add in E. apply E. Qed.

  Lemma modest_dealloc r p n : modest (chunk_dealloc A r p n).
  Proof.
    unfold chunk_dealloc, cell_cas. apply modest_bind; [apply modest_add|]. intros x.
    apply modest_bind; [|intros; apply modest_ret]. apply modest_bind; [apply modest_load|].
    intros y. destruct (p =? y); [|apply modest_ret].
    apply modest_bind; [apply modest_store|intros; apply modest_ret].
  Qed.

  Lemma modest_free c : modest (dealloc_chunk A c).
  Proof.
    unfold dealloc_chunk. apply modest_bind; [apply modest_load|]. intros x.
    apply modest_bind; [apply modest_load|]. intros y.
    apply modest_bind; [|intros; apply modest_ret].
    intros w b w' E. cbn in E. unfold base_deallocate in E.
    destruct (negb _); [discriminate|]. destruct (remove_fit _ _ _); [|discriminate].
    inversion E; subst. reflexivity.
  Qed.
  Lemma modest_chain n : forall c, modest (free_chain A n c).
  Proof.
    induction n as [|n IH]; intros [c|]; cbn [free_chain]; try apply modest_ret.
    - intros w b w' E. discriminate.
    - apply modest_bind; [apply modest_free|exact IH].
  Qed.
  Lemma modest_chunk_reset c : modest (chunk_reset A c).
  Proof.
    unfold chunk_reset, chunk_cap.
    repeat (first [apply modest_load|apply modest_store|apply modest_ret|
                   apply modest_bind; [|intros]]).
  Qed.

  Lemma reset_modest keep ar w b ar' w' :
    do_reset su keep (ar, w) = ORet b (ar', w') -> asks (bw_trace w') = asks (bw_trace w).
  Proof.
    assert (H : forall f : M bworld (unit * Arena), modest f ->
      match f w with ORet (b, a) w2 => ORet b (a, w2) | OPanic w2 => OPanic (ar, w2)
                   | OAbort => OAbort | OUB => OUB end = ORet b (ar', w') ->
      asks (bw_trace w') = asks (bw_trace w)).
    { intros f Hf E. destruct (f w) as [[b0 a0] w0| | |] eqn:Ef; try discriminate.
      inversion E; subst. apply (Hf _ _ _ Ef). }
    unfold do_reset, blink_reset, blink_reset_final, arena_reset, with_aw. cbn [fst snd].
    destruct keep; apply H; cbn [fst]; [destruct (ar_root ar)|].
    - apply modest_bind; [apply modest_chunk_reset|]. intros p.
      apply modest_bind; [apply modest_chain|intros; apply modest_ret].
    - apply modest_ret.
    - apply modest_bind; [apply modest_chain|intros; apply modest_ret].
  Qed.

  (** What a step other than the slow path does: nothing is asked, and no request fails. *)
  Definition calm (t : nat) (p : pc) (g : gst) (es : list event) (g' : gst) : Prop :=
    asks (cupstream g') = asks (cupstream g) /\
    (exists p', g_thr g' = set_nth t p' (g_thr g) /\ (may_ask p' = true -> may_ask p = true)) /\
    block_calls es = 0%nat /\
    (forall t' o, In (Lin t' o None) es -> exists h l, o = OpDealloc h l).

  Lemma wlp_modest {B C} (m : M bworld B) (f : B -> M gst C) g Q :
    modest m ->
    (forall b w', asks (bw_trace w') = asks (cupstream g) ->
       wlp (f b) (mkG (g_tab g) (g_thr g) (g_lock g) (fst (g_aw g), w')) Q) ->
    wlp (bind (on_w m) f) g Q.
  Proof. intros Hm H. apply wlp_on_w. intros b w' E. apply H. apply (Hm _ _ _ E). Qed.

  Lemma finish_calm t p j wr r g g0 : (r = None -> exists h u l, j = JDealloc h u l) ->
    g_thr g = g_thr g0 -> asks (cupstream g) = asks (cupstream g0) ->
    wlp (finish t j wr r) g (calm t p g0).
  Proof.
    intros Hr Et Ea es g' E. rewrite finish_eq in E. inversion E; subst.
    split; [exact Ea|]. split; [eexists; cbn; split; [rewrite Et; reflexivity|discriminate]|].
    split; [reflexivity|]. intros t' o [X|[]]. inversion X; subst.
    destruct (Hr eq_refl) as (h & u & l & ->). cbn. eauto.
  Qed.
  Lemma become_calm t p p' g g0 : (may_ask p' = true -> may_ask p = true) ->
    g_thr g = g_thr g0 -> asks (cupstream g) = asks (cupstream g0) ->
    wlp (become t p' ;;; ret []) g (calm t p g0).
  Proof.
    intros Hp Et Ea es g' E. inversion E; subst. split; [exact Ea|].
    split; [exists p'; cbn; rewrite Et; auto|]. split; [reflexivity|]. intros t' o [].
  Qed.
  Lemma stay_calm t p g : nth_error (g_thr g) t = Some p -> wlp (ret []) g (calm t p g).
  Proof.
    intros Hp. apply wlp_ret. split; [reflexivity|].
    split; [exists p; split; [symmetry; apply set_nth_same; exact Hp|auto]|].
    split; [reflexivity|]. intros t' o [].
  Qed.
  Lemma bump_calm t p g0 g m : wlp m g (calm t p g0) -> wlp (ev <- m ;; ret (Bump t :: ev)) g (calm t p g0).
  Proof.
    intros H. apply wlp_bind. intros es g' E. destruct (H _ _ E) as (E1 & E2 & E3 & E4).
    apply wlp_ret. split; [exact E1|]. split; [exact E2|]. split; [exact E3|].
    intros t' o [X|X]; [discriminate|]. apply (E4 t' o X).
  Qed.

  Ltac skip_w H := apply wlp_modest; [first [apply modest_load|apply modest_store|apply modest_attempt|
      apply modest_dealloc|apply modest_mem]|]; intros ? ? H; unfold cupstream in H; cbn [g_tab g_thr g_lock g_aw fst snd] in H |- *.
  Ltac fin := first [apply finish_calm|apply become_calm]; auto; try discriminate; unfold cupstream; cbn [g_aw fst snd]; try congruence; eauto.

  Lemma go_calm t p sp g : nth_error (g_thr g) t = Some p -> (forall j, p <> Slow j) ->
    wlp (go su t p sp) g (calm t p g).
  Proof.
    intros Hp Ns. destruct p; cbn [go].
    - apply stay_calm. exact Hp.
    - intros es g'. unfold bind, get_g. destruct (lk_writer (g_lock g)); [apply stay_calm; exact Hp|].
      unfold put_lock. intros E. revert E. unfold enter.
      destruct (ar_root (fst (g_aw g))) as [r|], j; try (fin; fail).
      destruct (l_align new <=? l_align old); [|fin].
      destruct (l_size new <=? l_size old); fin.
    - skip_w H1. fin.
    - skip_w H1. skip_w H2. destruct b0 as [[aligned next]|]; [|unfold retry; fin].
      skip_w H3.
      destruct (negb sp && (b0 =? cursor)); [|fin].
      skip_w H4.
      apply wlp_bind. intros len g1 E. apply pure_sub in E. subst g1.
      apply wlp_bind. intros ? g1 E. apply pure_assert in E. subst g1.
      apply wlp_bind. intros ? g1 E. apply pure_assert in E. subst g1.
      apply bump_calm. unfold allocated. destruct j; fin.
    - destruct j; try apply wlp_ub. apply wlp_bind. intros e g1 E. apply pure_ptr_add in E. destruct E as [-> _].
      skip_w H1. destruct (b =? e); [|fin].
      destruct (checked_add (u_ptr u) (l_size new)); [|unfold retry; fin].
      skip_w H2. destruct (b0 <? z); unfold retry; fin.
    - destruct j; try apply wlp_ub. apply wlp_bind. intros e g1 E. apply pure_ptr_add in E. destruct E as [-> _].
      skip_w H1. destruct (b =? cursor); [|fin]. skip_w H2.
      apply wlp_bind. intros len g1 E. apply pure_sub in E. subst g1.
      apply wlp_bind. intros ? g1 E. apply pure_assert in E. subst g1.
      apply bump_calm. fin.
    - destruct j; try apply wlp_ub. skip_w H1. fin.
    - destruct j; try apply wlp_ub. cbv zeta.
      destruct (negb _); [apply wlp_ub|]. destruct (i <? _); [|fin].
      apply wlp_modest; [apply (modest_mem (fun w => copy (al_mem A w) _ _ 1))|]. intros ? ? H1. fin.
    - intros es g' E. unfold bind, get_g, put_lock in E. cbn in E.
      destruct next as [j|]; inversion E; subst; (split; [reflexivity|]);
        (split; [eexists; split; [reflexivity|]; cbn; auto; try discriminate|]); (split; [reflexivity|]).
      + intros t' o [].
      + intros t' o [X|[]]; discriminate.
    - intros es g' E. unfold bind, get_g in E.
      destruct (lk_writer (g_lock g)); [|destruct (lk_readers (g_lock g))]; try (apply (stay_calm t _ g Hp es g' E)).
      revert E. fin.
    - destruct (Ns j eq_refl).
  Qed.

  Lemma stale_calm t p v g : nth_error (g_thr g) t = Some p -> wlp (stale su t p v) g (calm t p g).
  Proof.
    intros Hp.
    assert (Hstay : wlp (ret []) g (calm t p g)) by (apply stay_calm; exact Hp).
    assert (Hb : forall p', may_ask p' = may_ask p -> wlp (become t p' ;;; ret []) g (calm t p g)).
    { intros p' E. apply become_calm; auto. rewrite E. auto. }
    assert (Hload : forall C x (f : Z -> M gst C) Q,
      (forall z, wlp (f z) g Q) -> wlp (bind (on_w (mload A x 8)) f) g Q).
    { intros C x f Q H. apply wlp_on_w. intros z w' E. apply pure_load in E. destruct E as [-> E].
      destruct g as [tab thr k [ar w]]. cbn [g_tab g_thr g_lock g_aw fst snd]. apply H. }
    assert (Hold : forall C r x (f : bool -> M gst C) Q,
      (forall b, wlp (f b) g Q) -> wlp (bind (old_value su r x) f) g Q).
    { intros C r x f Q H. apply wlp_bind. unfold old_value. apply Hload. intros z. apply wlp_ret. apply H. }
    destruct p; cbn [stale]; try exact Hstay.
    - apply Hold. intros []; [|exact Hstay]. apply Hb. auto.
    - apply Hload. intros e. apply wlp_on_w. intros a w1 Ea. apply pure_attempt in Ea. subst w1.
      destruct g as [tab thr k [ar w]]. cbn [g_tab g_thr g_lock g_aw fst snd].
      destruct a as [[aligned next]|]; [|apply Hb; auto].
      apply Hold. intros []; [|exact Hstay]. apply Hb. auto.
    - destruct j; try apply wlp_ub. apply wlp_bind. intros e g1 E. apply pure_ptr_add in E. destruct E as [-> _].
      apply Hold. intros []; [|exact Hstay]. destruct (v =? e); [|apply Hb; auto].
      destruct (checked_add (u_ptr u) (l_size new)); [|apply Hb; auto].
      apply Hload. intros e2. destruct (e2 <? z); apply Hb; auto.
    - apply Hold. intros b. destruct (b && _); [|exact Hstay]. apply Hb. auto.
    - destruct j; try apply wlp_ub. apply Hold. intros b. destruct (b && _); [|exact Hstay].
      apply finish_calm; eauto.
  Qed.

  (** What a legal request that is not answered looks like. *)
  Definition denied (l : Layout) (g g' : gst) : Prop :=
    (exists lay, cupstream g' = EvAlloc lay None :: cupstream g /\ st_alloc (su_strat su) (cupstream g) lay = None /\
       l_align lay = 8 /\ rounded (wanted (su_min su) (outstanding (cupstream g)) l) (l_size lay)) \/
    (cupstream g' = cupstream g /\ USIZE_MAX < wanted (su_min su) (outstanding (cupstream g)) l + 7).
  Definition answered (l : Layout) (g g' : gst) : Prop :=
    exists lay b, cupstream g' = EvAlloc lay (Some b) :: cupstream g /\
       l_align lay = 8 /\ rounded (wanted (su_min su) (outstanding (cupstream g)) l) (l_size lay).

  Lemma slow_ask m0 cs tab thr k ar w s t j sp es g' :
    xinvx su true [] m0 cs (mkG tab thr k (ar, w)) s -> nth_error thr t = Some (Slow j) ->
    go su t (Slow j) sp (mkG tab thr k (ar, w)) = ORet es g' ->
    exists p', g_thr g' = set_nth t p' thr /\ may_ask p' = false /\ job_takes j = true /\ block_calls es = 0%nat /\
      ((es = [Lin t (job_op j) None] /\ denied (job_layout j) (mkG tab thr k (ar, w)) g') \/
       (answered (job_layout j) (mkG tab thr k (ar, w)) g' /\
        forall t' o, ~ In (Lin t' o None) es)).
  Proof.
    intros C Hp E. destruct (xinv_next su true [] m0 _ _ _ _ _ C Hp) as (rest & R & _).
    pose proof C as (_ & Hh & Hm & _ & _ & Hpc & _). cbn [g_tab g_thr g_lock g_aw fst snd] in *.
    pose proof (Hpc _ _ Hp) as Hj; cbn [ConcFacts.pc_ok] in Hj.
    destruct Hj as (Hj & Tj). cbn [hold app] in R.
    destruct Hh as [_ Hh].
    assert (Hl : req_ok (su_smax su) (job_layout j)).
    { destruct j; cbn in Hj |- *; [exact Hj|tauto|contradiction]. }
    assert (Hcaps : 0 <= sum_caps (tl cs)).
    { destruct cs as [|c cs']; cbn [tl]; [cbn; lia|].
      apply sum_caps_len. rewrite Forall_forall. intros c' Hc'.
      destruct (arep_chunk_ok _ _ _ _ (su_ct su Hok) _ _ _ _ _ c' R (or_intror Hc'))
        as (_ & _ & _ & _ & L1 & _). exact L1. }
    pose proof (slow_req_wanted cs (su_min su) (job_layout j) _ (proj1 (su_min_ok su Hok)) Hcaps Hl) as Hw.
    rewrite Hh in Hw.
    pose proof (su_cfg su Hok) as Hcfg. rewrite <- Hm in Hcfg.
    pose proof (alloc_slow_ok (su_amax su) (su_smax su) (su_bmax su) A _ (su_ct su Hok) (su_amax_ok su Hok) dbg
               [] cs ar w (live tab ++ rest) (job_layout j) R Hl (cfg_ok_for Hcfg)) as S.
    cbn [go] in E. unfold bind, on_aw, arena_alloc_slow, with_aw in E. cbn [g_tab g_thr g_lock g_aw fst snd] in E.
    unfold wp in S. unfold bind in E.
    destruct (alloc_slow A dbg (ar_root ar) (ar_min ar) (job_layout j) w) as [r w'| | |]; try contradiction.
    destruct S as (_ & Hr). destruct r as [[b q]|]; cbn [ret] in E.
    - destruct Hr as (_ & _ & c & Hi & _ & _ & _ & _). rewrite Hm in Hi.
      pose proof (slow_info_upstream su _ _ _ _ _ (Some b) Hi) as U. cbn beta in U.
      specialize (U ltac:(split; discriminate)). unfold upstream in U.
      destruct (slow_req cs (su_min su) (job_layout j)) as [lay|]; [|destruct U; discriminate].
      destruct U as (ans & T & Ea & _). destruct Hw as (W1 & W2 & _).
      destruct ans as [ab|]; [|exfalso; destruct Ea as [_ Ea]; discriminate (Ea eq_refl)].
      assert (An : forall g2, snd (g_aw g2) = w' -> answered (job_layout j) (mkG tab thr k (ar, w)) g2).
      { intros g2 E2. exists lay, ab. unfold cupstream. rewrite E2. cbn. auto. }
      unfold allocated in E. destruct j as [l|h u old new|h u l]; [| |contradiction].
      + unfold ret in E. rewrite finish_eq in E. inversion E; subst. eexists. cbn.
        split; [reflexivity|]. split; [reflexivity|]. split; [reflexivity|]. split; [reflexivity|].
        right. split; [apply An; reflexivity|]. intros t' o [X|[]]. discriminate.
      + unfold ret, bind, become in E. inversion E; subst. eexists. cbn.
        split; [reflexivity|]. split; [reflexivity|]. split; [reflexivity|]. split; [reflexivity|].
        right. split; [apply An; reflexivity|]. intros t' o [].
    - destruct Hr as (Hi & _). rewrite Hm in Hi.
      pose proof (slow_info_upstream su _ _ _ _ _ (@None block) Hi) as U. cbn beta in U.
      specialize (U ltac:(split; reflexivity)). unfold upstream in U.
      unfold ret in E. rewrite finish_eq in E. inversion E; subst. eexists. cbn [g_thr].
      split; [reflexivity|]. split; [reflexivity|].
      split; [destruct j; [reflexivity|reflexivity|contradiction]|]. split; [reflexivity|].
      left. split; [reflexivity|]. unfold denied, cupstream. cbn [g_aw fst snd].
      destruct (slow_req cs (su_min su) (job_layout j)) as [lay|].
      + left. destruct U as (ans & T & Ea & An). destruct Hw as (W1 & W2 & _).
        rewrite (proj1 Ea eq_refl) in *. exists lay. auto.
      + right. destruct U as (_ & T). auto.
  Qed.

  (** ** A request fails only when it must *)

  Definition request_layout (o : op) (l : Layout) : Prop :=
    match o with OpAlloc l' _ | OpResize _ _ l' => l' = l | _ => False end.

  Lemma begin_lin t o g es g' t' o' : begin su t o g = ORet es g' -> In (Lin t' o' None) es ->
    forall l, ~ request_layout o' l.
  Proof.
    intros E Hin l Hl. revert E. unfold begin, bind, get_g.
    destruct o as [l0 z|h off cl|h l0|h old new|h old new|keep];
      try (intros E; inversion E; subst; destruct Hin; fail).
    - destruct z; [intros E; inversion E; subst; destruct Hin|].
      destruct (req_okb _ _); intros E; inversion E; subst; [destruct Hin as [X|[]]; discriminate|destruct Hin].
    - destruct (get h (g_tab g)); [|intros E; inversion E; subst; destruct Hin].
      destruct (negb _ && _ && _); [|intros E; inversion E; subst; destruct Hin].
      unfold on_w, on_aw, with_aw, bind, ret. intros E; inversion E; subst.
      destruct Hin as [X|[X|[X|[]]]]; try discriminate. inversion X; subst. destruct Hl.
    - destruct (get h (g_tab g)); [|intros E; inversion E; subst; destruct Hin].
      destruct (negb _ && _); intros E; inversion E; subst; [destruct Hin as [X|[]]; discriminate|destruct Hin].
    - destruct (get h (g_tab g)); [|intros E; inversion E; subst; destruct Hin].
      destruct (negb _ && _ && _); intros E; inversion E; subst; [destruct Hin as [X|[]]; discriminate|destruct Hin].
    - destruct keep; [|intros E; inversion E; subst; destruct Hin].
      destruct (forallb away (g_thr g)); [|intros E; inversion E; subst; destruct Hin].
      unfold on_aw, put_tab, ret. destruct (do_reset su true (g_aw g)); try discriminate.
      intros E; inversion E; subst.
      destruct Hin as [X|[X|[X|[]]]]; try discriminate. inversion X; subst. destruct Hl.
  Qed.

  Lemma step_denied g s c es g' t o l : cinv su g s -> cstep su c g = ORet es g' ->
    In (Lin t o None) es -> request_layout o l -> denied l g g'.
  Proof.
    intros C E Hin Hl. apply (sole_inv su (bw_mem bworld0)) in C. destruct C as (cs & C).
    assert (Hcalm : forall t0 p0, calm t0 p0 g es g' -> denied l g g').
    { intros t0 p0 (_ & _ & _ & H). destruct (H _ _ Hin) as (h & l' & ->). destruct Hl. }
    unfold cstep, bind, get_g in E. destruct c as [t0 o0|t0 sp|t0 v|keep].
    - destruct (nth_error (g_thr g) t0) as [p|]; [|inversion E; subst; destruct Hin].
      destruct p; try (inversion E; subst; destruct Hin; fail).
      destruct (begin_lin _ _ _ _ _ _ _ E Hin l Hl).
    - destruct (nth_error (g_thr g) t0) as [p|] eqn:Hp; [|inversion E; subst; destruct Hin].
      assert (D : (exists j, p = Slow j) \/ forall j, p <> Slow j).
      { destruct p; try (right; discriminate). left; eauto. }
      destruct D as [(j & ->)|Ns]; [|apply (Hcalm t0 p); apply (go_calm t0 p sp g Hp Ns es g' E)].
      destruct g as [tab thr k [ar w]].
      destruct (slow_ask _ _ _ _ _ _ _ _ _ _ _ _ _ C Hp E) as (p' & _ & _ & _ & _ & [(-> & D)|(_ & N)]).
      + destruct Hin as [X|[]]. inversion X; subst.
        replace l with (job_layout j); [exact D|]. destruct j; cbn in *; auto. destruct Hl.
      + destruct (N _ _ Hin).
    - destruct (nth_error (g_thr g) t0) as [p|] eqn:Hp; [|inversion E; subst; destruct Hin].
      apply (Hcalm t0 p); apply (stale_calm t0 p v g Hp es g' E).
    - destruct (forallb is_idle (g_thr g)); [|inversion E; subst; destruct Hin].
      unfold on_aw, put_tab, ret in E. destruct (do_reset su keep (g_aw g)); try discriminate.
      inversion E; subst. destruct Hin as [X|[]]; discriminate.
  Qed.

  (** ** At most one request per call *)

  Definition askers (thr : list pc) : nat := length (filter may_ask thr).

  Lemma askers_set t p p' thr : nth_error thr t = Some p ->
    (askers (set_nth t p' thr) + (if may_ask p then 1 else 0) = askers thr + (if may_ask p' then 1 else 0))%nat.
  Proof.
    unfold askers. revert t. induction thr as [|q thr IH]; intros [|t] H; try discriminate.
    - inversion H; subst. cbn. destruct (may_ask p), (may_ask p'); cbn; lia.
    - cbn in H. specialize (IH t H). cbn. destruct (may_ask q); cbn in *; lia.
  Qed.

  Lemma block_calls_app es1 es2 : block_calls (es1 ++ es2) = (block_calls es1 + block_calls es2)%nat.
  Proof. unfold block_calls. rewrite filter_app, app_length. reflexivity. Qed.

  Lemma calm_count t p g es g' : nth_error (g_thr g) t = Some p -> calm t p g es g' ->
    (asks (cupstream g') + askers (g_thr g') <= asks (cupstream g) + askers (g_thr g) + block_calls es)%nat.
  Proof.
    intros Hp (E1 & (p' & E2 & E3) & E4 & _). rewrite E1, E2, E4.
    pose proof (askers_set t p p' _ Hp) as X. destruct (may_ask p') eqn:Y; [rewrite (E3 eq_refl) in X|]; lia.
  Qed.

  Lemma begin_count t o g es g' : nth_error (g_thr g) t = Some Idle -> begin su t o g = ORet es g' ->
    (asks (cupstream g') + askers (g_thr g') <= asks (cupstream g) + askers (g_thr g) + block_calls es)%nat.
  Proof.
    intros Hp. unfold begin, bind, get_g.
    assert (Hs : ORet (A := list event) [] g = ORet es g' ->
      (asks (cupstream g') + askers (g_thr g') <= asks (cupstream g) + askers (g_thr g) + block_calls es)%nat).
    { intros E; inversion E; subst. lia. }
    assert (Hb : forall j, (if job_takes j then 1 else 0)%nat = block_calls [Call t o] ->
      (become t (WantRead j) ;;; ret [Call t o]) g = ORet es g' ->
      (asks (cupstream g') + askers (g_thr g') <= asks (cupstream g) + askers (g_thr g) + block_calls es)%nat).
    { intros j Hj E. inversion E; subst. pose proof (askers_set t Idle (WantRead j) _ Hp) as X.
      cbn [may_ask] in X. unfold cupstream in *. cbn [g_thr g_aw]. lia. }
    destruct o as [l0 z|h off cl|h l0|h old new|h old new|keep]; try (exact Hs).
    - destruct z; [exact Hs|]. destruct (req_okb _ _); [|exact Hs]. apply (Hb (JAlloc l0)). reflexivity.
    - destruct (get h (g_tab g)); [|exact Hs]. destruct (negb _ && _ && _); [|exact Hs].
      unfold on_w, on_aw, with_aw, bind, ret. intros E; inversion E; subst.
      eapply Nat.le_trans; [|apply Nat.le_add_r]. apply le_n.
    - destruct (get h (g_tab g)) as [u|]; [|exact Hs]. destruct (negb _ && _); [|exact Hs].
      apply (Hb (JDealloc h u l0)). reflexivity.
    - destruct (get h (g_tab g)) as [u|]; [|exact Hs]. destruct (negb _ && _ && _); [|exact Hs].
      apply (Hb (JResize h u old new)). reflexivity.
    - destruct keep; [|exact Hs]. destruct (forallb away (g_thr g)); [|exact Hs].
      unfold on_aw, put_tab, ret. destruct (do_reset su true (g_aw g)) as [[] [ar' w']| | |] eqn:Er; try discriminate.
      intros E; inversion E; subst. unfold cupstream. cbn [g_aw g_thr fst snd].
      destruct (g_aw g) as [ar w]. rewrite (reset_modest _ _ _ _ _ _ Er). cbn. lia.
  Qed.

  Lemma step_count g s c es g' : cinv su g s -> cstep su c g = ORet es g' ->
    (asks (cupstream g') + askers (g_thr g') <= asks (cupstream g) + askers (g_thr g) + block_calls es)%nat.
  Proof.
    intros C E. apply (sole_inv su (bw_mem bworld0)) in C. destruct C as (cs & C).
    unfold cstep, bind, get_g in E. destruct c as [t0 o0|t0 sp|t0 v|keep].
    - destruct (nth_error (g_thr g) t0) as [p|] eqn:Hp; [|inversion E; subst; lia].
      destruct p; try (inversion E; subst; lia; fail). apply (begin_count _ _ _ _ _ Hp E).
    - destruct (nth_error (g_thr g) t0) as [p|] eqn:Hp; [|inversion E; subst; lia].
      assert (D : (exists j, p = Slow j) \/ forall j, p <> Slow j).
      { destruct p; try (right; discriminate). left; eauto. }
      destruct D as [(j & ->)|Ns]; [|apply (calm_count t0 p); [exact Hp|apply (go_calm t0 p sp g Hp Ns es g' E)]].
      destruct g as [tab thr k [ar w]]. cbn [g_thr] in Hp.
      destruct (slow_ask _ _ _ _ _ _ _ _ _ _ _ _ _ C Hp E) as (p' & E1 & E2 & E3 & E4 & D).
      pose proof (askers_set t0 _ p' _ Hp) as X. cbn [may_ask] in X. rewrite E2, E3 in X.
      rewrite E1. cbn [g_thr].
      assert (Y : (asks (cupstream g') <= S (asks (cupstream (mkG tab thr k (ar, w)))))%nat).
      { destruct D as [(_ & [(lay & T & _)|(T & _)])|((lay & b & T & _) & _)]; rewrite T; unfold asks; cbn [filter is_ask length]; lia. }
      lia.
    - destruct (nth_error (g_thr g) t0) as [p|] eqn:Hp; [|inversion E; subst; lia].
      apply (calm_count t0 p); [exact Hp|]. apply (stale_calm t0 p v g Hp es g' E).
    - destruct (forallb is_idle (g_thr g)); [|inversion E; subst; lia].
      unfold on_aw, put_tab, ret in E. destruct (do_reset su keep (g_aw g)) as [[] [ar' w']| | |] eqn:Er; try discriminate.
      inversion E; subst. unfold cupstream. cbn [g_aw g_thr fst snd].
      destruct (g_aw g) as [ar w]. rewrite (reset_modest _ _ _ _ _ _ Er). cbn. lia.
  Qed.

  Lemma run_count sched : forall g s es g', cinv su g s -> crun su sched g = ORet es g' ->
    (asks (cupstream g') + askers (g_thr g') <= asks (cupstream g) + askers (g_thr g) + block_calls es)%nat.
  Proof.
    induction sched as [|c sched IH]; intros g s es g' C E.
    - inversion E; subst. lia.
    - cbn in E. unfold bind in E. pose proof (cstep_ok su Hok g s c C) as W. unfold wp in W.
      destruct (cstep su c g) as [e g1| | |] eqn:E1; try contradiction.
      destruct (crun su sched g1) as [e2 g2| | |] eqn:E2; try discriminate. inversion E; subst.
      pose proof (step_count _ _ _ _ _ C E1). pose proof (IH _ _ _ _ W E2). rewrite block_calls_app. lia.
  Qed.

  Lemma askers_idle n : askers (repeat Idle n) = 0%nat.
  Proof. induction n; [reflexivity|exact IHn]. Qed.

  Lemma creached_asks n sched es g : crun su sched (cstart su n) = ORet es g ->
    (asks (cupstream g) <= block_calls es)%nat.
  Proof.
    intros E. pose proof (run_count _ _ _ _ _ (cstart_inv su Hok n) E) as X.
    cbn [cstart g_thr] in X. rewrite askers_idle in X. unfold cupstream at 2 in X. cbn in X. lia.
  Qed.

  Lemma creached_denied n sched es g c es2 g2 t o l :
    crun su sched (cstart su n) = ORet es g -> cstep su c g = ORet es2 g2 ->
    In (Lin t o None) es2 -> request_layout o l -> denied l g g2.
  Proof.
    intros E E2. apply (step_denied g _ c es2 g2 t o l (creached_inv su Hok n sched es g E) E2).
  Qed.
End Ask.
