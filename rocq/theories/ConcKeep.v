(** Blocks that nobody touches stay as they are, in every concurrent run. *)
From Coq Require Import Permutation.
From Verif Require Import Base BaseFacts Alloc AllocFacts Arena ArenaFacts ArenaInv ArenaOps
  BlinkAlloc BlinkFacts History HistoryFacts Setup SetupFacts SetupOps Conc ConcFacts ConcSteps ConcProps.

(** What the recorded events say about the blocks owned by clients. *)
Definition tev (tab : list (option ublock)) (e : event) : list (option ublock) :=
  match e with
  | Lin _ (OpAlloc l _) (Some b) => tab ++ [Some (mkU (b_ptr b) (b_len b) l)]
  | Lin _ (OpResize h _ new) (Some b) => set_nth h (Some (mkU (b_ptr b) (b_len b) new)) tab
  | Lin _ (OpDealloc h _) _ => set_nth h None tab
  | Lin _ (OpReset _) _ => map (fun _ => None) tab
  | ResetAll _ => map (fun _ => None) tab
  | _ => tab
  end.
Definition tevs (es : list event) (tab : list (option ublock)) := fold_left tev es tab.

(** The event changes the block of handle [h] (or all blocks). *)
Definition about (h : nat) (e : event) : bool :=
  match e with
  | Lin _ (OpWrite h' _ _) _ | Lin _ (OpDealloc h' _) _ | Lin _ (OpResize h' _ _) _
  | Lin _ (OpGrowZeroed h' _ _) _ => Nat.eqb h' h
  | Lin _ (OpReset _) _ | ResetAll _ => true
  | _ => false
  end.

Section Keep.
  Variable su : setup.
  Hypothesis Hok : setup_ok su.
  Notation A := (bot su).
  Notation dbg := (su_dbg su).

  Definition tab_step (g : gst) (es : list event) (g' : gst) : Prop := g_tab g' = tevs es (g_tab g).

  Lemma finish_tab t j wr r g g0 : g_tab g = g_tab g0 -> wlp (finish t j wr r) g (tab_step g0).
  Proof.
    intros Et es g' E. rewrite finish_eq in E. inversion E; subst. unfold tab_step. cbn. rewrite Et.
    destruct j, r; reflexivity.
  Qed.
  Lemma become_tab t p g g0 : g_tab g = g_tab g0 -> wlp (become t p ;;; ret []) g (tab_step g0).
  Proof. intros Et es g' E. inversion E; subst. exact Et. Qed.
  Lemma bump_tab t m g g0 : wlp m g (tab_step g0) -> wlp (ev <- m ;; ret (Bump t :: ev)) g (tab_step g0).
  Proof. intros H. apply wlp_bind. intros es g' E. apply wlp_ret. apply (H _ _ E). Qed.
  Lemma allocated_tab t j b wr g g0 : g_tab g = g_tab g0 -> wlp (allocated t j b wr) g (tab_step g0).
  Proof.
    intros Et. unfold allocated. destruct j; try (apply finish_tab; exact Et). apply become_tab; exact Et.
  Qed.

  Ltac skip_w := apply wlp_on_w; intros ? ? _; cbn [g_tab g_thr g_lock g_aw fst snd].

  Lemma go_tab t p sp g : wlp (go su t p sp) g (tab_step g).
  Proof.
    destruct p; cbn [go].
    - apply wlp_ret. reflexivity.
    - apply wlp_get. destruct (lk_writer (g_lock g)); [apply wlp_ret; reflexivity|]. apply wlp_put_lock.
      unfold enter.
      destruct (ar_root (fst (g_aw g))) as [r|], j; try apply finish_tab; try apply become_tab; auto.
      destruct (l_align new <=? l_align old); [|apply become_tab; auto].
      destruct (l_size new <=? l_size old); [apply finish_tab; auto|apply become_tab; auto].
    - skip_w. apply become_tab; auto.
    - skip_w. skip_w. destruct b0 as [[aligned next]|]; [|apply become_tab; auto].
      skip_w. destruct (negb sp && (b0 =? cursor)); [|apply become_tab; auto].
      skip_w. apply wlp_bind. intros len g1 E. apply pure_sub in E. subst g1.
      apply wlp_bind. intros ? g1 E. apply pure_assert in E. subst g1.
      apply wlp_bind. intros ? g1 E. apply pure_assert in E. subst g1.
      apply bump_tab, allocated_tab. reflexivity.
    - destruct j; try apply wlp_ub. apply wlp_bind. intros e g1 E. apply pure_ptr_add in E. destruct E as [-> _].
      skip_w. destruct (b =? e); [|apply become_tab; auto].
      destruct (checked_add (u_ptr u) (l_size new)); [|apply become_tab; auto].
      skip_w. destruct (b0 <? z); apply become_tab; auto.
    - destruct j; try apply wlp_ub. apply wlp_bind. intros e g1 E. apply pure_ptr_add in E. destruct E as [-> _].
      skip_w. destruct (b =? cursor); [|apply become_tab; auto]. skip_w.
      apply wlp_bind. intros len g1 E. apply pure_sub in E. subst g1.
      apply wlp_bind. intros ? g1 E. apply pure_assert in E. subst g1.
      apply bump_tab, finish_tab; auto.
    - destruct j; try apply wlp_ub. skip_w. apply finish_tab; auto.
    - destruct j; try apply wlp_ub. cbv zeta.
      destruct (negb _); [apply wlp_ub|]. destruct (i <? _); [|apply finish_tab; auto].
      skip_w. apply become_tab; auto.
    - apply wlp_get, wlp_put_lock. destruct next as [j|].
      + apply become_tab. reflexivity.
      + intros es g' E. inversion E; subst. reflexivity.
    - apply wlp_get.
      destruct (lk_writer (g_lock g)); [|destruct (lk_readers (g_lock g))]; try (apply wlp_ret; reflexivity).
    - apply wlp_bind. intros r g1 E. unfold on_aw in E.
      destruct (arena_alloc_slow A dbg (job_layout j) (g_aw g)); try discriminate. inversion E; subst; clear E.
      destruct r as [b|]; [|apply finish_tab; auto]. apply allocated_tab. reflexivity.
  Qed.

  Lemma stale_tab t p v g : wlp (stale su t p v) g (tab_step g).
  Proof.
    intros es g' E. destruct (stale_ok su t p v g es g' E) as [[-> ->]|[(-> & p' & Ep & ->)|(h & u & l & r & -> & F)]];
      try reflexivity.
    revert F. apply finish_tab. reflexivity.
  Qed.

  Lemma cstep_tab c g es g' : cstep su c g = ORet es g' -> tab_step g es g'.
  Proof.
    revert es g'. change (wlp (cstep su c) g (tab_step g)). unfold cstep. apply wlp_get.
    assert (Hs : wlp (ret []) g (tab_step g)) by (apply wlp_ret; reflexivity).
    destruct c as [t o|t sp|t v|keep].
    - destruct (nth_error (g_thr g) t) as [[]|]; try exact Hs.
      unfold begin. apply wlp_get.
      assert (Hb : forall j, wlp (become t (WantRead j) ;;; ret [Call t o]) g (tab_step g)).
      { intros j es' g1 E. inversion E; subst. reflexivity. }
      destruct o as [l z|h off cl|h l|h old new|h old new|keep]; try (apply Hs).
      + destruct z; [apply Hs|]. destruct (req_okb _ _); [|apply Hs]. apply Hb.
      + destruct (get h (g_tab g)) as [u|]; [|apply Hs]. destruct (negb _ && _ && _); [|apply Hs].
        apply wlp_on_w. intros ? ? _. apply wlp_ret. reflexivity.
      + destruct (get h (g_tab g)) as [u|]; [|apply Hs]. destruct (negb _ && _); [|apply Hs]. apply Hb.
      + destruct (get h (g_tab g)) as [u|]; [|apply Hs]. destruct (negb _ && _ && _); [|apply Hs]. apply Hb.
      + destruct keep; [|apply Hs]. destruct (forallb away (g_thr g)); [|apply Hs].
        intros es g'. unfold bind, on_aw, put_tab, ret. destruct (do_reset su true (g_aw g)); try discriminate.
        intros E; inversion E; subst. reflexivity.
    - destruct (nth_error (g_thr g) t); [apply go_tab|exact Hs].
    - destruct (nth_error (g_thr g) t); [apply stale_tab|exact Hs].
    - destruct (forallb is_idle (g_thr g)); [|exact Hs].
      intros es g'. unfold bind, on_aw, put_tab, ret. destruct (do_reset su keep (g_aw g)); try discriminate.
      intros E; inversion E; subst. reflexivity.
  Qed.

  Lemma crun_tab sched : forall g es g', crun su sched g = ORet es g' -> g_tab g' = tevs es (g_tab g).
  Proof.
    induction sched as [|c sched IH]; intros g es g'; cbn [crun].
    - intros E; inversion E; reflexivity.
    - unfold bind, ret. destruct (cstep su c g) as [es1 g1| | |] eqn:E1; try discriminate.
      destruct (crun su sched g1) as [es2 g2| | |] eqn:E2; try discriminate.
      intros E; inversion E; subst. unfold tevs. rewrite fold_left_app.
      rewrite (IH _ _ _ E2). unfold tevs. f_equal. apply (cstep_tab _ _ _ _ E1).
  Qed.
End Keep.

Lemma get_set_other {T} h h' (x : option T) t : h <> h' -> get h' (set_nth h x t) = get h' t.
Proof. intros N. unfold get. rewrite nth_set_other by exact N. reflexivity. Qed.
Lemma get_app_len {T} h (t t' : list (option T)) : (h < length t)%nat -> get h (t ++ t') = get h t.
Proof. intros L. unfold get. rewrite nth_error_app1 by exact L. reflexivity. Qed.

Lemma tev_other h e tab : about h e = false -> (h < length tab)%nat ->
  get h (tev tab e) = get h tab /\ (h < length (tev tab e))%nat.
Proof.
  intros H L. destruct e as [t o|t o r|t|t|keep]; cbn in *; auto; [|discriminate].
  destruct o as [l z|h' off cs|h' l|h' old new|h' old new|keep], r as [b|]; cbn in *; auto;
    try discriminate;
    try (apply Nat.eqb_neq in H; rewrite set_nth_length; split; [apply get_set_other; exact H|exact L]).
  rewrite app_length. split; [apply get_app_len; exact L|lia].
Qed.

Lemma sev_other h e s : about h e = false -> (h < length s)%nat ->
  get h (sev s e) = get h s /\ (h < length (sev s e))%nat.
Proof.
  intros H L. destruct e as [t o|t o r|t|t|keep]; cbn in *; auto; [|discriminate].
  destruct o as [l z|h' off cs|h' l|h' old new|h' old new|keep], r as [b|]; cbn in *; auto;
    try discriminate; try apply Nat.eqb_neq in H.
  1: { rewrite app_length. split; [apply get_app_len; exact L|lia]. }
  all: destruct (get h' s) as [sb|]; auto.
  1, 2: destruct (_ && _); auto.
  3, 4: destruct (s_fits l sb); auto.
  all: rewrite set_nth_length; split; [apply get_set_other; exact H|exact L].
Qed.

Lemma tevs_other h es : forall tab, filter (about h) es = [] -> (h < length tab)%nat ->
  get h (tevs es tab) = get h tab /\ (h < length (tevs es tab))%nat.
Proof.
  induction es as [|e es IH]; intros tab H L; cbn in *; [auto|].
  destruct (about h e) eqn:Ea; [discriminate|]. destruct (tev_other h e tab Ea L) as [E1 L1].
  destruct (IH (tev tab e) H L1) as [E2 L2]. split; [rewrite <- E1; exact E2|exact L2].
Qed.
Lemma sevs_other h es : forall s, filter (about h) es = [] -> (h < length s)%nat ->
  get h (sevs es s) = get h s /\ (h < length (sevs es s))%nat.
Proof.
  induction es as [|e es IH]; intros s H L; cbn in *; [auto|].
  destruct (about h e) eqn:Ea; [discriminate|]. destruct (sev_other h e s Ea L) as [E1 L1].
  destruct (IH (sev s e) H L1) as [E2 L2]. split; [rewrite <- E1; exact E2|exact L2].
Qed.

Lemma filter_split {T} (f : T -> bool) es e : filter f es = [e] ->
  exists es1 es2, es = es1 ++ e :: es2 /\ filter f es1 = [] /\ filter f es2 = [] /\ f e = true.
Proof.
  induction es as [|x es IH]; cbn; [discriminate|]. destruct (f x) eqn:Fx.
  - intros E; inversion E; subst. exists [], es. auto.
  - intros E. destruct (IH E) as (es1 & es2 & -> & F1 & F2 & Fe). exists (x :: es1), es2. cbn.
    rewrite Fx. auto.
Qed.

(** The buffers as they are in memory now. *)
Definition snap (m : mem) (u : ublock) : sbuf := mkS (u_layout u) (u_len u) (fun i => Some (m (u_ptr u + i))).
Definition snapshot (m : mem) (tab : list (option ublock)) : list (option sbuf) := map (option_map (snap m)) tab.

Lemma snapshot_agrees m tab : agrees m tab (snapshot m tab).
Proof.
  induction tab as [|[u|] tab IH]; constructor; auto; cbn; [|exact I].
  split; [reflexivity|]. split; [reflexivity|]. cbn. intros i c _ E. inversion E. reflexivity.
Qed.
Lemma snapshot_get m tab h : get h (snapshot m tab) = option_map (snap m) (get h tab).
Proof.
  unfold get, snapshot. rewrite nth_error_map. destruct (nth_error tab h) as [[u|]|]; reflexivity.
Qed.

Section Keep2.
  Variable su : setup.
  Hypothesis Hok : setup_ok su.

  Lemma cinv_snapshot g s : cinv su g s -> cinv su g (snapshot (cmem g) (g_tab g)).
  Proof.
    intros (cs & R & Hh & Hm & Ha & H). exists cs. split; [exact R|]. split; [exact Hh|]. split; [exact Hm|].
    split; [apply snapshot_agrees|]. exact H.
  Qed.

  Lemma later n sched es g sched2 : creached su n sched es g ->
    exists es2 g2, crun su sched2 g = ORet es2 g2 /\
      agrees (cmem g2) (g_tab g2) (sevs es2 (snapshot (cmem g) (g_tab g))) /\
      g_tab g2 = tevs es2 (g_tab g).
  Proof.
    intros E. pose proof (creached_inv su Hok _ _ _ _ E) as Hi. apply cinv_snapshot in Hi.
    pose proof (crun_ok su Hok sched2 g _ Hi) as H. apply wp_inv in H.
    destruct H as (es2 & g2 & E2 & (cs & _ & _ & _ & Ha & _)). exists es2, g2.
    split; [exact E2|]. split; [exact Ha|]. apply (crun_tab su sched2 _ _ _ E2).
  Qed.

  Lemma get_both m tab s h u sb : agrees m tab s -> get h tab = Some u -> get h s = Some sb -> buf_agrees m u sb.
  Proof.
    intros Ha G Gs. destruct (agrees_get _ _ _ _ _ Ha G) as (t1 & t2 & s1 & s2 & sb' & Et & Es & L1 & L2 & Hb & _ & _).
    assert (X : get h s = Some sb') by (rewrite Es, <- L2; apply get_mid). rewrite Gs in X.
    inversion X; subst. exact Hb.
  Qed.

  Lemma untouched n sched es g sched2 es2 g2 h u : creached su n sched es g ->
    crun su sched2 g = ORet es2 g2 -> get h (g_tab g) = Some u -> filter (about h) es2 = [] ->
    get h (g_tab g2) = Some u /\
    forall i, 0 <= i < u_len u -> cmem g2 (u_ptr u + i) = cmem g (u_ptr u + i).
  Proof.
    intros E E2 G F. destruct (later n sched es g sched2 E) as (es2' & g2' & E2' & Ha & Et).
    rewrite E2 in E2'. inversion E2'; subst es2' g2'. clear E2'.
    destruct (tevs_other h es2 (g_tab g) F (get_len _ _ _ G)) as [Gt _].
    assert (G2 : get h (g_tab g2) = Some u) by (rewrite Et, Gt; exact G).
    split; [exact G2|]. intros i Hi.
    assert (Gs : get h (snapshot (cmem g) (g_tab g)) = Some (snap (cmem g) u)) by (rewrite snapshot_get, G; reflexivity).
    destruct (sevs_other h es2 _ F (get_len _ _ _ Gs)) as [Gs2 _]. rewrite Gs in Gs2.
    destruct (get_both _ _ _ _ _ _ Ha G2 Gs2) as (_ & _ & Hb). apply Hb; [exact Hi|]. reflexivity.
  Qed.

  Lemma resized n sched es g sched2 es2 g2 h u t old new b : creached su n sched es g ->
    crun su sched2 g = ORet es2 g2 -> get h (g_tab g) = Some u ->
    filter (about h) es2 = [Lin t (OpResize h old new) (Some b)] ->
    get h (g_tab g2) = Some (mkU (b_ptr b) (b_len b) new) /\
    forall i, 0 <= i < Z.min (l_size old) (l_size new) -> i < u_len u -> i < b_len b ->
      cmem g2 (b_ptr b + i) = cmem g (u_ptr u + i).
  Proof.
    intros E E2 G F. destruct (later n sched es g sched2 E) as (es2' & g2' & E2' & Ha & Et).
    rewrite E2 in E2'. inversion E2'; subst es2' g2'. clear E2'.
    destruct (filter_split _ _ _ F) as (ea & eb & -> & Fa & Fb & _).
    assert (Gs : get h (snapshot (cmem g) (g_tab g)) = Some (snap (cmem g) u)) by (rewrite snapshot_get, G; reflexivity).
    unfold tevs in Et. unfold sevs in Ha. rewrite fold_left_app in Et, Ha. cbn [fold_left] in Et, Ha.
    fold (tevs ea (g_tab g)) in Et. fold (sevs ea (snapshot (cmem g) (g_tab g))) in Ha.
    destruct (tevs_other h ea (g_tab g) Fa (get_len _ _ _ G)) as [Ga La].
    destruct (sevs_other h ea _ Fa (get_len _ _ _ Gs)) as [Gsa Lsa].
    set (ta := tevs ea (g_tab g)) in *. set (sa := sevs ea (snapshot (cmem g) (g_tab g))) in *.
    cbn [tev sev sstep option_map] in Et, Ha. rewrite Gsa, Gs in Ha.
    fold (tevs eb (set_nth h (Some (mkU (b_ptr b) (b_len b) new)) ta)) in Et.
    match type of Ha with agrees _ _ (fold_left sev eb ?s) => fold (sevs eb s) in Ha; set (sb := s) in * end.
    assert (Gb : get h (set_nth h (Some (mkU (b_ptr b) (b_len b) new)) ta) = Some (mkU (b_ptr b) (b_len b) new)).
    { rewrite get_set_nth by exact La. rewrite Nat.eqb_refl. reflexivity. }
    destruct (tevs_other h eb _ Fb (get_len _ _ _ Gb)) as [G2 _]. rewrite Gb in G2. rewrite <- Et in G2.
    split; [exact G2|]. intros i Hi Hu Hb.
    assert (Gsb : exists x, get h sb = Some x /\ s_len x = b_len b /\
      forall i, i < Z.min (l_size old) (l_size new) -> s_at x i = Some (cmem g (u_ptr u + i))).
    { eexists. split; [unfold sb; rewrite get_set_nth by exact Lsa; rewrite Nat.eqb_refl; reflexivity|].
      split; [reflexivity|]. intros i0 Hi0. cbn. destruct (Z.ltb_spec i0 (Z.min (l_size old) (l_size new))); [reflexivity|lia]. }
    destruct Gsb as (x & Gx & Lx & Hx).
    destruct (sevs_other h eb _ Fb (get_len _ _ _ Gx)) as [Gx2 _]. rewrite Gx in Gx2.
    destruct (get_both _ _ _ _ _ _ Ha G2 Gx2) as (_ & _ & Hc). cbn [u_ptr] in Hc.
    apply Hc; [lia|]. apply Hx. lia.
  Qed.
End Keep2.
