(** Nothing is written outside of what is allocated: what a thread builds on a
    [SyncBlinkAlloc] that other threads use at the same time. *)
From Coq Require Import Permutation.
From Verif Require Import Base BaseFacts Alloc AllocFacts Arena ArenaFacts ArenaInv ArenaOps BlinkAlloc BlinkFacts
  History HistoryFacts Setup SetupFacts SetupOps Conc ConcFacts ConcSteps ConcProps Blink BlinkInv BlinkIter BlinkMain BlinkEnv
  Proxy ProxyFacts ProxyProps Threaded ThreadedFacts ThreadedOwn ThreadedCall ThreadedContract ThreadProxy ThreadProxyFacts
  Stray StrayFacts StrayUse StrayConc.

Section Thread.
  Variable su : setup.
  Hypothesis Hok : setup_ok su.
  Variable t : nat.
  Variable w0 : bworld.

  Definition sane (g : gst) : Prop := (exists s, cinv su g s) /\ lore w0 (snd (g_aw g)).
  Definition keeps_sane {B} (m : M gst B) : Prop := forall g b g', sane g -> m g = ORet b g' -> sane g'.

  Lemma ks_ret {B} (b : B) : keeps_sane (ret b).
  Proof. intros g b' g' H E. inversion E; subst. exact H. Qed.
  Lemma ks_ub {B} : keeps_sane (ub : M gst B).
  Proof. intros g b' g' H E. discriminate E. Qed.
  Lemma ks_get : keeps_sane get_g.
  Proof. intros g b' g' H E. inversion E; subst. exact H. Qed.
  Lemma ks_bind {B C} (m : M gst B) (f : B -> M gst C) : keeps_sane m -> (forall b, keeps_sane (f b)) -> keeps_sane (bind m f).
  Proof.
    intros H1 H2 g c g' H E. unfold bind in E. destruct (m g) as [b g1| | |] eqn:Em; try discriminate E.
    apply (H2 b g1 c g' (H1 g b g1 H Em) E).
  Qed.
  Lemma ks_step c : keeps_sane (cstep su c).
  Proof.
    intros g es g' ((s & cs & C) & L) E. pose proof (cstep_ok su Hok g s c (ex_intro _ cs C)) as X. unfold wp in X. rewrite E in X.
    split; [eexists; exact X|]. apply (cstep_lore su Hok w0 cs g s c es g' C L E).
  Qed.
  Lemma ks_run sched : keeps_sane (crun su sched).
  Proof.
    induction sched as [|c sched IH]; cbn [crun]; [apply ks_ret|]. apply ks_bind; [apply ks_step|]. intros es.
    apply ks_bind; [exact IH|]. intros es'. apply ks_ret.
  Qed.
  Lemma ks_drive mine turns : forall r, keeps_sane (drive su t mine turns r).
  Proof.
    induction turns as [|tn rest IH]; intros r; cbn [drive]; [apply ks_ret|].
    apply ks_bind; [apply ks_run|]. intros es1. apply ks_bind; [apply ks_get|]. intros g.
    apply ks_bind; [apply ks_step|]. intros es2.
    assert (H : keeps_sane (d <- drive su t mine rest (result t es2 r) ;;
      match d with (es3, todo, r', h) => ret (es1 ++ es2 ++ es3, todo, r', h) end)).
    { apply ks_bind; [apply IH|]. intros [[[es3 todo] r'] h]. apply ks_ret. }
    destruct (tn_step tn); [|exact H]. destruct (nth_error (g_thr g) t) as [[]|]; try exact H.
    destruct next; [exact H|apply ks_ret].
  Qed.
  Lemma ks_clear ts : keeps_sane (clear su ts).
  Proof.
    induction ts as [|t' ts IH]; cbn [clear]; [apply ks_ret|]. apply ks_bind; [apply ks_get|]. intros g.
    apply ks_bind; [apply ks_run|]. intros es. apply ks_bind; [exact IH|]. intros es'. apply ks_ret.
  Qed.
  Lemma ks_whole mine todo o : keeps_sane (whole su t mine todo o).
  Proof.
    unfold whole. apply ks_bind; [apply ks_step|]. intros es0. apply ks_bind; [apply ks_drive|].
    intros [[[es1 todo'] r] [h|]]; [apply ks_ret|]. apply ks_bind; [apply ks_get|]. intros g.
    apply ks_bind; [apply ks_clear|]. intros es2. apply ks_bind; [apply ks_get|]. intros g'.
    apply ks_bind; [apply ks_drive|]. intros [[[es3 ?] r'] [h|]]; [apply ks_ret|apply ks_ub].
  Qed.
  Lemma ks_call o f s r s' : sane (t_g s) -> call su t o f s = ORet r s' -> sane (t_g s').
  Proof.
    unfold call. intros H E. destruct (whole su t (t_mine s) (t_todo s) o (t_g s)) as [[[[es todo] h] r'] g| | |] eqn:Ew; try discriminate E.
    inversion E; subst. apply (ks_whole _ _ _ _ _ _ H Ew).
  Qed.

  Definition tk (s : tst) (us : list ublock) : Prop := town su t s us /\ lore w0 (snd (g_aw (t_g s))).

  Lemma tk_sane s us : tk s us -> sane (t_g s).
  Proof. intros [((Hf & _) & _) L]. destruct Hf as (sb & C & _). split; [eexists; exact C|exact L]. Qed.

  Lemma tk_write s us m : tk s us -> (forall x, (forall u, In u us -> ~ in_u x u) -> m x = bw_mem (snd (g_aw (t_g s))) x) ->
    lore w0 (mkB m (bw_trace (snd (g_aw (t_g s))))).
  Proof.
    intros [((Hf & _) & hs & _ & Hh) L] Hm. destruct Hf as (sb & (cs & R & _) & _).
    apply (lore_chunks su w0 cs _ _ _ _ R L); [reflexivity|]. intros x N. cbn [bw_mem]. apply Hm. intros u Hu Hx.
    assert (X : exists h r, get h (g_tab (t_g s)) = Some r /\ within u r).
    { clear - Hh Hu. induction Hh as [|h c hs us (r & G & Hw) H IH]; [destruct Hu|].
      destruct Hu as [<-|Hu]; [exists h, r; auto|apply IH; exact Hu]. }
    destruct X as (h & r & G & Hw).
    destruct (in_block su Hok cs _ _ _ r x R) as (c & Hc & Hi).
    - apply in_or_app. left. apply live_in. exists h. exact G.
    - apply (within_in _ _ _ Hw Hx).
    - apply (N c Hc Hi).
  Qed.

  Let Hct := threaded_contract su Hok t.

  Lemma tk_contract : contract (su_amax su) (su_smax su) (threaded su t) tk.
  Proof.
    constructor.
    - intros w us us' [H1 H2] P. split; [apply (ct_perm _ _ _ _ Hct w us us' H1 P)|exact H2].
    - intros w us [H _]. apply (ct_wf _ _ _ _ Hct w us H).
    - reflexivity.
    - intros w us m H Hm. split; [apply (ct_write _ _ _ _ Hct w us m (proj1 H) Hm)|].
      apply (tk_write w us m H Hm).
    - intros w us l H Hl. pose proof (ct_allocate _ _ _ _ Hct w us l (proj1 H) Hl) as X.
      destruct (wp_inv _ _ _ X) as (r & w' & E & Y1 & Y2). apply (wp_intro _ _ _ _ _ E).
      assert (L : sane (t_g w')).
      { cbn in E. unfold t_allocate in E. destruct (req_okb _ _); [|discriminate E]. apply (ks_call _ _ _ _ _ (tk_sane _ _ H) E). }
      destruct L as [_ L]. split; [exact Y1|].
      destruct r as [b|]; [destruct Y2 as [Y2 Y3]; split; [exact Y2|]|]; split; assumption.
    - intros w us u l H Hf. pose proof (ct_deallocate _ _ _ _ Hct w us u l (proj1 H) Hf) as X.
      destruct (wp_inv _ _ _ X) as (r & w' & E & Y1 & Y2). apply (wp_intro _ _ _ _ _ E).
      split; [exact Y1|]. split; [exact Y2|]. cbn in E. unfold t_deallocate in E.
      destruct (pick _ _ _ _) as [[h u']|]; [|discriminate E]. unfold bind in E.
      destruct (call su t (OpDealloc h l) _ w) as [r' w''| | |] eqn:Ec; try discriminate E. inversion E; subst.
      apply (ks_call _ _ _ _ _ (tk_sane _ _ H) Ec).
    - intros w us u old new H Hf Hn Hle. pose proof (ct_grow _ _ _ _ Hct w us u old new (proj1 H) Hf Hn Hle) as X.
      destruct (wp_inv _ _ _ X) as (r & w' & E & Y1 & Y2). apply (wp_intro _ _ _ _ _ E).
      assert (L : sane (t_g w')).
      { cbn in E. unfold t_resize in E. destruct (pick _ _ _ _) as [[h u']|]; [|discriminate E].
        destruct (req_okb _ _); [|discriminate E]. apply (ks_call _ _ _ _ _ (tk_sane _ _ H) E). }
      destruct L as [_ L]. split; [exact Y1|].
      destruct r as [b|]; [destruct Y2 as (Y2 & Y3 & Y4); split; [exact Y2|]; split; [split; assumption|exact Y4]|].
      destruct Y2 as [Y2 Y3]. split; [exact Y2|]. split; assumption.
    - intros w us u old new H Hf Hn Hle. pose proof (ct_shrink _ _ _ _ Hct w us u old new (proj1 H) Hf Hn Hle) as X.
      destruct (wp_inv _ _ _ X) as (r & w' & E & Y1 & Y2). apply (wp_intro _ _ _ _ _ E).
      assert (L : sane (t_g w')).
      { cbn in E. unfold t_resize in E. destruct (pick _ _ _ _) as [[h u']|]; [|discriminate E].
        destruct (req_okb _ _); [|discriminate E]. apply (ks_call _ _ _ _ _ (tk_sane _ _ H) E). }
      destruct L as [_ L]. split; [exact Y1|].
      destruct r as [b|]; [destruct Y2 as (Y2 & Y3 & Y4); split; [exact Y2|]; split; [split; assumption|exact Y4]|].
      destruct Y2 as [Y2 Y3]. split; [exact Y2|]. split; assumption.
  Qed.

  Lemma tk_exact : exact_alloc (su_smax su) (threaded su t) tk.
  Proof.
    destruct (threaded_exact su Hok t) as (X1 & X2 & X3). split; [|split; [|exact X3]].
    - intros w us l H Hl. apply (X1 w us l (proj1 H) Hl).
    - intros w us u old new H Hf Hl Hle. apply (X2 w us u old new (proj1 H) Hf Hl Hle).
  Qed.

  Lemma tk_give us : forall s, tk s us -> wp (give su t us) s (fun _ s' => tk s' []).
  Proof.
    induction us as [|u us IH]; intros s Ht; [apply wp_ret; exact Ht|].
    cbn [give]. apply wp_bind. eapply wp_mono; [apply (ct_deallocate _ _ _ _ tk_contract s us u (u_layout u) Ht)|].
    - destruct (ct_wf _ _ _ _ tk_contract _ _ Ht) as [O _]. apply Forall_inv in O.
      destruct O as ((_ & _ & L & _) & _). split; [reflexivity|]. cbn in L. lia.
    - intros _ s' [_ Ht']. apply IH. exact Ht'.
  Qed.
  Lemma tk_give_back s us : tk s us -> wp (give_back su t) s (fun _ s' => tk s' []).
  Proof.
    intros [(Hs & hs & Hp & Hh) L].
    match goal with |- wp _ _ ?Q => change (wp (give su t (live (map (fun h => get h (g_tab (t_g s))) (t_mine s)))) s Q) end.
    apply tk_give. split; [|exact L]. split; [exact Hs|]. exists (t_mine s). split; [reflexivity|].
    assert (X : forall k, In k (t_mine s) -> exists r, get k (g_tab (t_g s)) = Some r).
    { intros k Hk. apply (Permutation_in k (Permutation_sym Hp)) in Hk. clear - Hh Hk. induction Hh as [|h c hs us (r & G & _) H IH]; [destruct Hk|].
      destruct Hk as [<-|Hk]; [exists r; exact G|apply IH; exact Hk]. }
    clear - X. induction (t_mine s) as [|k ks IH]; [constructor|]. cbn [map live].
    destruct (X k (or_introl eq_refl)) as (r & G). rewrite G. cbn [live]. constructor; [exists r; split; [exact G|left; reflexivity]|].
    apply IH. intros k' Hk'. apply X. right. exact Hk'.
  Qed.
End Thread.

(** A [Blink] of a thread on the shared allocator. *)
Lemma threading_tidy su t bomb fr w os1 s1 os2 s2 : setup_ok su -> ISIZE_MAX <= su_smax su ->
  arrives (threading su t bomb) fr w os1 s1 ->
  forallb (sound true) os2 = true -> erun (threading su t bomb) os2 s1 = ORet tt s2 ->
  no_stray (snd (g_aw (t_g (bl_w s1)))) (snd (g_aw (t_g (bl_w s2)))).
Proof.
  intros Hok Hs Ha Hsnd Hr. set (w0 := snd (g_aw (t_g (bl_w s1)))).
  destruct (erun_with (threading su t bomb) (tk su t w0) fr w os1 s1 os2 s2) as (us & _ & L);
    [apply threading_ok; assumption| |intros us Ho; split; [exact Ho|apply lore_start]|assumption..|].
  - split; [apply tk_contract; exact Hok|]. split; [exact Hs|]. cbn [e_exact e_smax e_A e_own e_reset e_shared threading with_own e_W].
    split; [intros _; apply tk_exact; exact Hok|]. intros w' us fr' Ho _. apply wp_ret. exists us. split; [exact Ho|apply same_on_refl].
  - apply (lore_no_stray w0 _ L).
Qed.

(** Proxies of a thread. *)
Lemma tp_tidy su t psmax nmax w os1 rs1 s1 os2 rs2 s2 : proxies_ok su psmax nmax -> begins su t w ->
  forallb no_shared_reset os1 = true -> forallb no_shared_reset os2 = true ->
  tp_run su t psmax nmax os1 w = ORet rs1 s1 -> tp_run su t psmax nmax os2 s1 = ORet rs2 s2 ->
  no_stray (snd (g_aw (t_g (ps_w s1)))) (snd (g_aw (t_g (ps_w s2)))).
Proof.
  intros Hok Hb Hn1 Hn2 E1 E2. pose proof (psu su psmax nmax Hok) as Hsu. set (w0 := snd (g_aw (t_g (ps_w s1)))).
  destruct (tp_all su t psmax nmax Hok w os1 Hb Hn1) as (rs & s & E & _ & I1 & _). rewrite E1 in E. injection E as <- <-.
  destruct I1 as [J1 J2 (P & leak & Ho & He)].
  assert (Hi : pinv (su_amax su) nmax (threaded su t) (tk su t w0) s1 (pspecs os1 rs1 (mkSp [] []))).
  { constructor; [exact J1|exact J2|]. exists P, leak. split; [|exact He]. split; [exact Ho|apply lore_start]. }
  unfold tp_run in E2. rewrite (prun_any su t psmax nmax _ (fun _ => give_back su t) os2 Hn2) in E2.
  pose proof (prun_ok (su_amax su) (su_smax su) psmax nmax (threaded su t) (tk su t w0) (tk_contract su Hsu t w0) (pamax su psmax nmax Hok)
    (su_dbg su) (fun _ => give_back su t) (fun _ w us Ho => tk_give_back su Hsu t w0 w us Ho)
    (ptop su psmax nmax Hok) (pcfg su psmax nmax Hok) os2 s1 _ Hi) as X.
  pose proof (wp_elim _ _ _ _ _ X E2) as (_ & [_ _ (P' & leak' & (_ & L) & _)] & _). apply (lore_no_stray w0 _ L).
Qed.
