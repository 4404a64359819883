(** Proxies used while other threads use the shared allocator: every step keeps the
    invariant. *)
From Coq Require Import Permutation.
From Verif Require Import Base BaseFacts Alloc AllocFacts Arena ArenaFacts ArenaInv ArenaOps BlinkAlloc BlinkFacts
  History HistoryFacts Frame Setup SetupFacts SetupOps Proxy ProxyFacts ProxyProps
  Conc ConcFacts ConcSteps ConcProps ConcShape GConcFacts PConc PConcAsk.

(** ** Tables *)

Lemma agrees_nth m tab s : length tab = length s ->
  (forall h x y, nth_error tab h = Some x -> nth_error s h = Some y -> opt_agrees m x y) -> agrees m tab s.
Proof.
  unfold agrees. revert s. induction tab as [|x tab IH]; intros [|y s] L H; cbn in L; try discriminate; constructor.
  - apply (H 0%nat); reflexivity.
  - apply IH; [lia|]. intros h x' y' H1 H2. apply (H (S h)); assumption.
Qed.
Lemma agrees_at m tab s h x y : agrees m tab s -> nth_error tab h = Some x -> nth_error s h = Some y -> opt_agrees m x y.
Proof.
  intros H. revert h. induction H as [|a b tab s Hab H IH]; intros [|h] H1 H2; cbn in *; try discriminate; [congruence|eauto].
Qed.
Lemma get_nth {T} h (t : list (option T)) x : get h t = Some x <-> nth_error t h = Some (Some x).
Proof. unfold get. destruct (nth_error t h) as [[y|]|]; split; intros E; inversion E; reflexivity. Qed.

Definition blank (b : sbuf) : Prop := forall i, s_at b i = None.

Lemma flat_set {T B} (f : T -> list B) l t q : nth_error l t = Some q ->
  exists rest, forall q', Permutation (flat_map f (set_nth t q' l)) (f q' ++ rest).
Proof.
  revert t. induction l as [|x l IH]; intros [|t] H; cbn in H; try discriminate.
  - exists (flat_map f l). intros q'. reflexivity.
  - destruct (IH t H) as (rest & H1). exists (f x ++ rest). intros q'. cbn. rewrite (H1 q').
    rewrite !app_assoc. apply Permutation_app_tail, Permutation_app_comm.
Qed.

(** ** The shared allocator *)

Section Facts.
  Variable su : setup.
  Hypothesis Hsu : setup_ok su.
  Notation amax := (su_amax su).
  Notation dbg := (su_dbg su).
  Notation cinv := (cinv su).

  Lemma cinv_job g s t p j : cinv g s -> nth_error (g_thr g) t = Some p -> pc_job p = Some j ->
    job_ok su (g_tab g) j /\ pc_handle p = job_handle j.
  Proof.
    intros (cs & _ & _ & _ & _ & _ & Hpc & _) Hp Ej. specialize (Hpc t p Hp).
    destruct p; cbn in Ej; try discriminate; try (inversion Ej; subst; cbn in Hpc; split; [tauto|reflexivity]).
    destruct next as [j'|]; try discriminate. inversion Ej; subst. cbn in Hpc |- *. tauto.
  Qed.
  Lemma cinv_unlock g s t p : cinv g s -> nth_error (g_thr g) t = Some p -> unlock_ok p.
  Proof.
    intros (cs & _ & _ & _ & _ & _ & Hpc & _) Hp. specialize (Hpc t p Hp).
    destruct p; cbn; auto. destruct next; auto. cbn in Hpc. tauto.
  Qed.
  Lemma cinv_handle g s t p h : cinv g s -> nth_error (g_thr g) t = Some p -> pc_handle p = Some h -> (h < length (g_tab g))%nat.
  Proof.
    intros (cs & _ & _ & _ & _ & _ & Hpc & _) Hp E. apply (pc_handle_len su cs _ (bw_mem (snd (g_aw g))) p h (Hpc t p Hp) E).
  Qed.
  Lemma cinv_len g s : cinv g s -> length s = length (g_tab g).
  Proof. intros (cs & _ & _ & _ & Ha & _). symmetry. apply (agrees_length _ _ _ Ha). Qed.
  Lemma cinv_live g s : cinv g s -> Forall (u_ok amax) (live (g_tab g)) /\ pairwise disjoint_u (live (g_tab g)).
  Proof.
    intros (cs & R & _). pose proof (ar_ok _ _ _ _ _ _ _ _ R) as H1. pose proof (ar_disj _ _ _ _ _ _ _ _ R) as H2.
    apply Forall_app in H1. apply pairwise_app in H2. tauto.
  Qed.
  Lemma cinv_u_ok g s h u : cinv g s -> get h (g_tab g) = Some u -> u_ok amax u.
  Proof. intros Hc G. destruct (cinv_live _ _ Hc) as [H _]. rewrite Forall_forall in H. apply H, live_in. eauto. Qed.
  Lemma cinv_disj g s h1 h2 u1 u2 : cinv g s -> h1 <> h2 -> get h1 (g_tab g) = Some u1 -> get h2 (g_tab g) = Some u2 -> disjoint_u u1 u2.
  Proof. intros Hc. destruct (cinv_live _ _ Hc) as [_ H]. apply (get_pairwise _ disjoint_u_sym _ _ _ _ _ H). Qed.

  (** The same blocks with their contents of now. *)
  Definition shot (m : mem) (tab : list (option ublock)) : list (option sbuf) :=
    map (option_map (fun u => mkS (u_layout u) (u_len u) (fun i => Some (m (u_ptr u + i))))) tab.
  Lemma shot_inv g s : cinv g s -> cinv g (shot (gmem g) (g_tab g)).
  Proof.
    intros (cs & H1 & H2 & H3 & H4 & H5). exists cs. split; [exact H1|]. split; [exact H2|]. split; [exact H3|]. split; [|exact H5].
    unfold agrees, shot, gmem. clear. induction (g_tab g) as [|[u|] tab IH]; cbn; constructor; auto; [|exact I].
    split; [reflexivity|]. split; [reflexivity|]. cbn. intros i c _ E. congruence.
  Qed.

  Definition calm (h : nat) (es : list event) : Prop := forall s, (h < length s)%nat -> get h (sevs es s) = get h s.

  Lemma keep_block c g s es g' h u : cinv g s -> cstep su c g = ORet es g' -> calm h es ->
    get h (g_tab g) = Some u -> get h (g_tab g') = Some u -> same_on [u] (gmem g) (gmem g').
  Proof.
    intros Hc E Hq G G'. pose proof (shot_inv g s Hc) as Hs. pose proof (cstep_ok su Hsu g _ c Hs) as H.
    unfold wp in H. rewrite E in H. destruct H as (cs & _ & _ & _ & Ha & _).
    assert (L : (h < length (shot (gmem g) (g_tab g)))%nat) by (unfold shot; rewrite map_length; apply (get_len _ _ _ G)).
    assert (Gs : get h (sevs es (shot (gmem g) (g_tab g))) = Some (mkS (u_layout u) (u_len u) (fun i => Some (gmem g (u_ptr u + i))))).
    { rewrite Hq by exact L. unfold get, shot. apply get_nth in G. rewrite nth_error_map, G. reflexivity. }
    apply get_nth in Gs. apply get_nth in G'. pose proof (agrees_at _ _ _ _ _ _ Ha G' Gs) as (_ & _ & Hb). cbn [s_len s_at] in Hb.
    intros v x [<-|[]] Hx. unfold in_u in Hx. specialize (Hb (x - u_ptr u) _ ltac:(lia) eq_refl).
    replace (u_ptr u + (x - u_ptr u)) with x in Hb by lia. exact Hb.
  Qed.

  (** A step of a thread, and the start of an operation, do not touch blocks the thread
      does not work on. *)
  Lemma shape_keep t p g es g' s h : shape t p g es g' -> cinv g s -> pc_handle p <> Some h -> (h < length (g_tab g))%nat ->
    calm h es /\ forall u, get h (g_tab g) = Some u -> get h (g_tab g') = Some u.
  Proof.
    intros Sh Hc N L. destruct Sh as [p' E1 E2 Q Ej Eph Eh|j r pre wr E1 E2 Ej Q Ee Eh|wr h' Ep E1 E2 Ee].
    - split; [intros z _; rewrite (sevs_quiet _ _ _ Q); reflexivity|]. rewrite E2. auto.
    - subst es. split; [|intros u G; rewrite E2; apply fin_tab_other; [congruence|exact G]].
      intros z Lz. rewrite (sevs_lin _ _ _ _ _ Q). apply sstep_other; [|exact Lz]. destruct (job_handle j); [congruence|exact I].
    - subst es. split; [intros z _; reflexivity|]. rewrite E2. auto.
  Qed.
  Lemma begun_keep t o g es g' h : begun t o g es g' -> op_handle o <> Some h -> is_reset o = false ->
    calm h es /\ forall u, get h (g_tab g) = Some u -> get h (g_tab g') = Some u.
  Proof.
    intros B N Nr. destruct B as [-> ->|j Hi Ej -> E1 E2|h' off cs u Hi -> G _ _ -> E1 E2|Hi -> _ _ _]; [| | |discriminate].
    - split; [intros z _; reflexivity|auto].
    - split; [intros z _; reflexivity|]. rewrite E2. auto.
    - split; [|rewrite E2; auto]. intros z Lz. cbn [sevs fold_left sev option_map sstep]. cbn in N.
      destruct (get h' z); [|reflexivity]. destruct (_ && _); [|reflexivity]. apply get_set_other. congruence.
  Qed.

  (** Memory of blocks of which nobody knows the contents and on which no thread works may change. *)
  Definition set_gmem (g : gst) (m : mem) : gst :=
    mkG (g_tab g) (g_thr g) (g_lock g) (fst (g_aw g), al_set_mem (bot su) (snd (g_aw g)) m).
  Lemma cinv_write g s m (hk : list nat) : cinv g s ->
    (forall h, In h hk -> (forall x, get h s = Some x -> blank x) /\
       forall t p, nth_error (g_thr g) t = Some p -> pc_handle p <> Some h) ->
    (forall x, (forall h u, In h hk -> get h (g_tab g) = Some u -> ~ in_u x u) -> m x = gmem g x) ->
    cinv (set_gmem g m) s.
  Proof.
    intros Hc Hh Hm. pose proof Hc as (cs & R & Ho & Hn & Ha & Hl & Hpc & Hu). unfold gmem in *.
    pose proof (ar_disj _ _ _ _ _ _ _ _ R) as Dj. apply pairwise_app in Dj. destruct Dj as (D1 & _ & D2).
    assert (Hother : forall h u, get h (g_tab g) = Some u -> ~ In h hk -> same_on [u] (bw_mem (snd (g_aw g))) m).
    { intros h u G Nh v x [<-|[]] Hx. apply Hm. intros h' u' Hi G' Hx'.
      assert (h <> h') by congruence. apply (get_pairwise _ disjoint_u_sym _ _ _ _ _ D1 H G G' x Hx Hx'). }
    assert (Hhold : same_on (flat_map hold (g_thr g)) (bw_mem (snd (g_aw g))) m).
    { intros v x Hv Hx. apply Hm. intros h' u' Hi G' Hx'. refine (D2 u' v _ Hv x Hx' Hx). apply live_in. eauto. }
    destruct (arep_write_us amax (su_bmax su) (bot su) _ (su_ct su Hsu) _ _ _ _ _ m R) as [R' _].
    { intros x Hx. apply Hm. intros h u Hi G. apply Hx. apply in_or_app. left. apply live_in. eauto. }
    exists cs. unfold cinvx, set_gmem. cbn [g_tab g_thr g_lock g_aw fst snd]. change (bw_mem (al_set_mem (bot su) (snd (g_aw g)) m)) with m.
    split; [exact R'|]. split; [exact Ho|]. split; [exact Hn|]. split; [|split; [exact Hl|split; [|exact Hu]]].
    - pose proof (agrees_length _ _ _ Ha) as Lt. apply agrees_nth; [exact Lt|]. intros h x y Hx Hy.
      pose proof (agrees_at _ _ _ _ _ _ Ha Hx Hy) as Hxy. destruct x as [u|], y as [b|]; auto. destruct Hxy as (B1 & B2 & B3).
      split; [exact B1|]. split; [exact B2|]. intros i c Hi Hs. destruct (in_dec Nat.eq_dec h hk) as [Hin|Nin].
      + destruct (Hh h Hin) as [Hb _]. rewrite (Hb b) in Hs by (apply get_nth; exact Hy). discriminate.
      + rewrite (Hother h u) with (u := u); [apply B3; assumption|apply get_nth; exact Hx|exact Nin|left; reflexivity|].
        unfold in_u. lia.
    - intros t p Hp. apply (pc_ok_other su cs cs (g_tab g) (g_tab g) (bw_mem (snd (g_aw g))) m); auto.
      + intros h u E G. split; [exact G|]. apply (Hother h u G). intros Hin. destruct (Hh h Hin) as [_ X]. apply (X t p Hp E).
      + eapply same_on_incl; [|exact Hhold]. intros v Hv. apply in_flat_map. exists p. split; [apply (nth_error_In _ _ Hp)|exact Hv].
      + apply (Hpc t p Hp).
  Qed.
End Facts.

(** ** One operation of a proxy *)

Section Ops.
  Variable su : setup.
  Variable psmax nmax : Z.
  Hypothesis Hok : proxies_ok su psmax nmax.
  Notation amax := (su_amax su).
  Notation dbg := (su_dbg su).
  Notation top := (Z.max (su_amax su) nmax).
  Notation lrep := (lrep amax nmax).
  Notation Hsu := (psu su psmax nmax Hok).
  Notation Hamax := (pamax su psmax nmax Hok).

  Lemma lrep_fit cs ar m us : lrep cs ar m us -> Forall (u_ok amax) (map c_u cs) -> chunks_fit cs.
  Proof.
    intros L Ku. unfold chunks_fit. rewrite Forall_forall in Ku |- *. intros c Hc.
    destruct (Ku (c_u c) (in_map _ _ _ Hc)) as ((G1 & _ & _ & G4) & _). unfold ublk in *. cbn [b_ptr b_len] in *.
    unfold c_end, c_ptr. pose proof Hamax. lia.
  Qed.

  Lemma lrep_dep cs ar m us ans K : lrep cs ar m us -> Permutation (map c_u cs ++ avail (mkD m ans None)) K ->
    arep amax deputy (dep K m) [] cs ar (mkD m ans None) us.
  Proof.
    intros [L1 L2 L3 L4 L5 L6 L7 L8] Hp. pose proof (ptop su psmax nmax Hok). constructor; auto; [lia|].
    split; [|reflexivity]. exists []. rewrite app_nil_r. exact Hp.
  Qed.

  Definition res_of (out : outcome (cst (AW (W := dw))) (option block)) : pres :=
    match out with ORet r _ => PBlock r | OPanic _ => PPanicked | _ => Proxy.PDone end.
  Definition spec_of (o : op) (r : pres) (t : list (option sbuf)) : list (option sbuf) :=
    match r with PBlock r => sstep o (option_map b_len r) t | _ => t end.
  Definition mild (o : op) (r : pres) : Prop :=
    r = PPanicked -> dbg = true /\ exists l z, o = OpAlloc l z /\ l_size l = 0 /\ l_align l <= 8.

  Definition over (out : outcome (cst (AW (W := dw))) (option block)) (c : cst (AW (W := dw))) : Prop :=
    (exists r, out = ORet r c) \/ out = OPanic c.

  Lemma run_op_ok o p ans m cs t K : is_reset o = false ->
    lrep cs (px_arena p) m (live (px_tab p)) -> agrees m (px_tab p) t ->
    Forall (u_ok amax) K -> pairwise disjoint_u K -> Permutation (map c_u cs ++ avail (mkD m ans None)) K ->
    let out := run_op su psmax o p ans m in
    asked_of out = want dbg psmax o (px_tab p) cs (ar_min (px_arena p)) /\
    exists c' cs' lost, over out c' /\
      (forall x, (forall u, In u K -> ~ in_u x u) -> d_mem (snd (c_w c')) x = m x) /\
      Permutation (map c_u cs' ++ lost) K /\
      lrep cs' (fst (c_w c')) (d_mem (snd (c_w c'))) (live (c_tab c')) /\
      agrees (d_mem (snd (c_w c'))) (c_tab c') (spec_of o (res_of out) t) /\ mild o (res_of out).
  Proof.
    intros Hr L At Ku Kd Kp out. pose proof (deputy_ok amax (su_smax su) K m Ku Kd) as Hct.
    assert (Kc : Forall (u_ok amax) (map c_u cs)).
    { apply (Permutation_Forall (Permutation_sym Kp)) in Ku. apply Forall_app in Ku. tauto. }
    pose proof (step_asks dbg psmax (proj1 (proj2 Hok)) o (px_tab p) cs (px_arena p) (mkD m ans None) Hr eq_refl
      (lr_chain _ _ _ _ _ _ L) (lrep_fit _ _ _ _ L Kc) (lr_head _ _ _ _ _ _ L)) as Ha.
    assert (Hf : fine amax deputy (dep K m) (ar_min (px_arena p)) (mkCst (px_tab p) (px_arena p, mkD m ans None)) t).
    { exists cs. cbn [c_w c_tab fst snd]. split; [apply lrep_dep; assumption|]. split; [reflexivity|]. split; [|exact At].
      pose proof (lr_caps _ _ _ _ _ _ L) as Hc. rewrite Forall_forall in Hc |- *. intros u Hu. apply in_map_iff in Hu.
      destruct Hu as (c & <- & Hi). apply (Hc c Hi). }
    pose proof (use_ok amax (su_smax su) psmax nmax deputy Hamax dbg (pcfg su psmax nmax Hok) (dep K m) (ar_min (px_arena p)) o _ t
      Hct (lr_min _ _ _ _ _ _ L) Hf) as H.
    fold out in Ha. change (step psmax (blink deputy dbg) (fun _ => blink_reset deputy) o _) with out in H.
    change (step psmax (blink deputy dbg) (fun _ => blink_reset deputy) o _) with out in Ha.
    destruct out as [r c|c| |] eqn:Eo; try contradiction.
    - split; [exact Ha|]. destruct H as (cs' & R & Hm & Hc & Ag).
      destruct (ar_own _ _ _ _ _ _ _ _ R) as [(lost & Pl) Hs]. rewrite app_nil_r in Pl.
      exists c, cs', (lost ++ avail (snd (c_w c))). split; [left; eauto|]. split; [exact Hs|]. split; [exact Pl|].
      split; [|split; [exact Ag|intros X; discriminate]].
      apply (arep_lrep amax nmax deputy (dep K m) cs' _ _ _ R); rewrite Hm; [apply (lr_min _ _ _ _ _ _ L)|exact Hc].
    - split; [exact Ha|]. destruct H as (Hd & Ho & E1 & E2 & Hn & Hv & bb & _ & Hs). cbn [c_w c_tab fst snd] in *.
      assert (cs = []) as ->.
      { rewrite (lr_head _ _ _ _ _ _ L) in Hn. destruct cs; [reflexivity|discriminate]. }
      exists c, [], K. split; [right; reflexivity|]. split; [exact Hs|]. split; [reflexivity|].
      rewrite E1, E2, Hv. split; [|split].
      + rewrite Hv in L. destruct L. constructor; auto.
      + cbn [res_of spec_of]. apply (agrees_same m _ _ _ []); [rewrite Hv; apply incl_refl| |exact At]. intros u x [].
      + intros _. split; [exact Hd|]. exact Ho.
  Qed.

  (** What is asked for is something the shared allocator may be asked for. *)
  Lemma want_ok o p m cs K l : lrep cs (px_arena p) m (live (px_tab p)) ->
    Forall (u_ok amax) K -> pairwise disjoint_u K -> map c_u cs = K ->
    want dbg psmax o (px_tab p) cs (ar_min (px_arena p)) = Some l -> req_ok (su_smax su) l.
  Proof.
    intros L Ku Kd Ek Hw. destruct (want_req _ _ _ _ _ _ _ Hw) as (l0 & Hl & Hs).
    pose proof (deputy_ok amax (su_smax su) K m Ku Kd) as Hct.
    assert (R : arep amax deputy (dep K m) [] cs (px_arena p) (mkD m None None) (live (px_tab p))).
    { apply lrep_dep; [exact L|]. cbn. rewrite app_nil_r, Ek. reflexivity. }
    assert (Kt : Forall (u_ok amax) (map c_u (tl cs)) /\ pairwise disjoint_u (map c_u (tl cs))).
    { rewrite <- Ek in Ku, Kd. destruct cs as [|c cs]; cbn [tl map]; [split; constructor|]. inversion Ku; subst.
      split; [assumption|]. apply (pairwise_app _ [c_u c]) in Kd. tauto. }
    pose proof (arep_sum_caps amax (su_smax su) deputy _ Hct Hamax _ _ _ _ _ R) as H1.
    assert (H2 : 0 <= sum_caps (tl cs) <= amax).
    { destruct cs as [|c cs]; cbn [tl]; [exact H1|].
      pose proof (deputy_ok amax (su_smax su) (map c_u cs) m (proj1 Kt) (proj2 Kt)) as Hct2.
      refine (arep_sum_caps amax (su_smax su) deputy _ Hct2 Hamax [] cs (mkArena (head_ptr cs) 0 (length cs)) (mkD m None None) [] _).
      constructor; cbn; auto; try constructor; try lia; try discriminate.
      - pose proof (lr_chain _ _ _ _ _ _ L) as Hc. cbn [chain] in Hc. tauto.
      - exists []. rewrite app_nil_r. cbn. rewrite app_nil_r. reflexivity.
      - reflexivity. }
    pose proof (lr_min _ _ _ _ _ _ L) as Hmin.
    assert (Hcfg : cfg_lax dbg amax psmax (ar_min (px_arena p)) (su_smax su)) by (apply (cfg_of amax (su_smax su) psmax nmax dbg (pcfg su psmax nmax Hok)); lia).
    apply (slow_req_spec cs (ar_min (px_arena p)) l0 psmax (su_smax su) l dbg amax); auto. lia.
  Qed.

  (** [reset] and the drop of a proxy. *)
  Definition kept_one (keep : bool) (cs : list chunk) : list chunk :=
    if keep then match cs with [] => [] | c :: _ => [set_cur c (c_base c)] end else [].
  Lemma leave_ok keep p m cs t K : lrep cs (px_arena p) m (live (px_tab p)) -> agrees m (px_tab p) t ->
    Forall (u_ok amax) K -> pairwise disjoint_u K -> map c_u cs = K ->
    exists n aw cs' lost, leave su keep p m = ORet n aw /\ (n = last_cap cs /\ cs' = kept_one keep cs /\ (keep = true -> ar_min (fst aw) = ar_min (px_arena p))) /\ 0 <= n <= amax /\
      (forall x, (forall u, In u K -> ~ in_u x u) -> d_mem (snd aw) x = m x) /\
      Permutation (map c_u cs' ++ lost) K /\
      (if keep then lrep cs' (fst aw) (d_mem (snd aw)) [] else cs' = []).
  Proof.
    intros L At Ku Kd Ek. pose proof (deputy_ok amax (su_smax su) K m Ku Kd) as Hct.
    assert (R : arep amax deputy (dep K m) [] cs (px_arena p) (mkD m None None) (live (px_tab p))).
    { apply lrep_dep; [exact L|]. cbn. rewrite app_nil_r, Ek. reflexivity. }
    assert (Hn : 0 <= last_cap cs <= amax).
    { apply (last_cap_ok amax (su_smax su) nmax deputy _ Hct Hamax cs (px_arena p) m (live (px_tab p)) (mkD m None None) [] L).
      apply (ar_own _ _ _ _ _ _ _ _ R). }
    pose proof (arena_reset_leak_ok amax (su_smax su) deputy _ Hct keep [] cs (px_arena p) _ _ R) as H.
    apply wp_inv in H. destruct H as ([] & [ar' d'] & E & _ & Hm & H). cbn [fst snd] in *.
    assert (E0 : leave su keep p m = (debug_assert (dbg && negb keep) (is_none (ar_root ar')) ;;; ret (last_cap cs)) (ar', d')).
    { unfold leave. unfold bind at 1. rewrite (last_size_ok amax nmax deputy cs (px_arena p) (mkD m None None) _ L).
      unfold bind at 1. rewrite E. reflexivity. }
    destruct keep.
    - rewrite andb_false_r in E0. cbn in E0. destruct cs as [|c cs].
      + injection H as -> ->. exists (last_cap []), (px_arena p, mkD m None None), [], []. split; [exact E0|]. split; [auto|]. split; [exact Hn|].
        split; [reflexivity|]. split; [rewrite <- Ek; reflexivity|]. destruct L. constructor; auto; constructor.
      + destruct H as [_ R']. exists (last_cap (c :: cs)), (ar', d'), [set_cur c (c_base c)], (map c_u cs). split; [exact E0|]. split; [auto|]. split; [exact Hn|].
        destruct (ar_own _ _ _ _ _ _ _ _ R') as [_ Hs]. split; [exact Hs|]. split; [rewrite <- Ek; reflexivity|].
        constructor; try (apply R').
        * cbn [fst]. rewrite Hm. apply L.
        * constructor; [|constructor]. cbn [fst]. rewrite Hm. apply (Forall_inv (lr_caps _ _ _ _ _ _ L)).
    - destruct H as [-> R']. cbn [snd] in *. pose proof (ar_head _ _ _ _ _ _ _ _ R') as Er. cbn [head_ptr fst] in Er.
      rewrite Er in E0. unfold debug_assert in E0. cbn [is_none negb] in E0. rewrite !andb_false_r in E0.
      exists (last_cap cs), (ar', mkD m None None), [], K. split; [exact E0|]. split; [auto|]. split; [exact Hn|]. split; [reflexivity|]. split; reflexivity.
  Qed.
End Ops.

(** ** The invariant *)

Ltac count_perm := apply (Permutation_count_occ Nat.eq_dec); intros ?; rewrite !count_occ_app; lia.

Lemma nodup_left {T} (a b : list T) : NoDup (a ++ b) -> NoDup a.
Proof.
  induction a as [|x a IH]; cbn; intros H; [constructor|]. inversion H; subst. constructor; [|auto]. intros Hi. apply H2, in_or_app. auto.
Qed.

Definition pendh (q : rjob) : list nat := match q with RAns _ _ _ (Some h) => [h] | _ => [] end.

Definition pev (b : list (option (list (option sbuf)))) (e : revent) : list (option (list (option sbuf))) :=
  match e with RO _ => b | RP o r => sp_prox (pspec_step o r (mkSp b [])) end.
Definition pevs (es : list revent) b := fold_left pev es b.

Lemma pspec_prox o r s : sp_prox (pspec_step o r s) = sp_prox (pspec_step o r (mkSp (sp_prox s) [])).
Proof.
  destruct s as [b t]. cbn [sp_prox]. destruct o as [|k|k|n|[k|] o], r; cbn; try reflexivity; destruct (get k b); reflexivity.
Qed.
Lemma pevs_spec es : forall s, pevs es (sp_prox s) = sp_prox (pspecs (proxy_ops es) (proxy_results es) s).
Proof.
  unfold pevs. induction es as [|[e|o r] es IH]; intros s; cbn [fold_left pev proxy_ops proxy_results pspecs]; auto.
  rewrite <- pspec_prox. apply IH.
Qed.
Lemma pevs_app es1 es2 b : pevs (es1 ++ es2) b = pevs es2 (pevs es1 b).
Proof. apply fold_left_app. Qed.
Lemma shared_app es1 es2 : shared_events (es1 ++ es2) = shared_events es1 ++ shared_events es2.
Proof. induction es1 as [|[e|o r] es1 IH]; cbn; congruence. Qed.
Lemma shared_map es : shared_events (map RO es) = es.
Proof. induction es; cbn; congruence. Qed.
Lemma pevs_map es b : pevs (map RO es) b = b.
Proof. unfold pevs. induction es; cbn; auto. Qed.

Lemma rafter_quiet n t es x : quietly t es -> rafter n es x = x.
Proof. intros [->| ->]; [reflexivity|]. destruct x as [[] ?]; reflexivity. Qed.
Lemma rafter_lin n t pre o r x : quietly t pre -> rafter n (pre ++ [Lin t o r]) x = rafter1 n x (Lin t o r).
Proof. intros [->| ->]; [reflexivity|]. destruct x as [[] ?]; reflexivity. Qed.

Section Inv.
  Variable su : setup.
  Variable psmax nmax : Z.
  Hypothesis Hok : proxies_ok su psmax nmax.
  Notation amax := (su_amax su).
  Notation dbg := (su_dbg su).
  Notation top := (Z.max (su_amax su) nmax).
  Notation lrep := (lrep amax nmax).
  Notation each := (each amax nmax).
  Notation Hsu := (psu su psmax nmax Hok).
  Notation Hamax := (pamax su psmax nmax Hok).
  Notation cinv := (cinv su).

  (** Operation [o] of proxy [k] needs [l]. *)
  Definition needs (prox : list (option proxy)) (P : list (list chunk)) (k : nat) (o : op) (l : Layout) : Prop :=
    is_reset o = false /\ exists p, get k prox = Some p /\
      want dbg psmax o (px_tab p) (nth k P []) (ar_min (px_arena p)) = Some l.
  Definition rfit (tab : list (option ublock)) (ch : list nat) (prox : list (option proxy)) (P : list (list chunk)) (p : pc) (q : rjob) : Prop :=
    match q with
    | RNone => forall h, pc_handle p = Some h -> ~ In h ch
    | RWait k o l => pc_job p = Some (JAlloc l) /\ needs prox P k o l
    | RAns k o l h => pc_job p = None /\ (pc_handle p = None \/ pc_handle p = h) /\ needs prox P k o l /\
        match h with Some h => exists u, get h tab = Some u /\ u_layout u = l | None => True end
    end.

  Record rinvx (P : list (list chunk)) (hs : list nat) (s : rst) (sd : list (option sbuf)) (b : list (option (list (option sbuf)))) : Prop := {
    ri_c : cinv (r_g s) sd;
    ri_len : length (r_job s) = length (g_thr (r_g s));
    ri_max : 0 <= r_max s <= top;
    ri_blank : forall h, In h (r_chunk s) -> (h < length (g_tab (r_g s)))%nat /\ forall x, get h sd = Some x -> blank x;
    ri_each : each (gmem (r_g s)) P (r_prox s) b;
    ri_hs : map (fun h => get h (g_tab (r_g s))) hs = map Some (allc P);
    ri_nodup : NoDup (hs ++ flat_map pendh (r_job s));
    ri_incl : incl (hs ++ flat_map pendh (r_job s)) (r_chunk s);
    ri_fit : forall t p q, nth_error (g_thr (r_g s)) t = Some p -> nth_error (r_job s) t = Some q ->
      rfit (g_tab (r_g s)) (r_chunk s) (r_prox s) P p q;
    ri_one : forall t1 t2 q1 q2 k, nth_error (r_job s) t1 = Some q1 -> nth_error (r_job s) t2 = Some q2 ->
      job_proxy q1 = Some k -> job_proxy q2 = Some k -> t1 = t2
  }.
  Definition rinvP P s sd b : Prop := exists hs, rinvx P hs s sd b.
  Definition rinv s sd b : Prop := exists P, rinvP P s sd b.

  Lemma rthread P hs s sd b t q : rinvx P hs s sd b -> nth_error (r_job s) t = Some q -> exists p, nth_error (g_thr (r_g s)) t = Some p.
  Proof.
    intros I H. destruct (nth_error (g_thr (r_g s)) t) as [p|] eqn:E; [eauto|]. apply nth_error_None in E. rewrite <- (ri_len _ _ _ _ _ I) in E.
    apply nth_error_None in E. congruence.
  Qed.

  (** A step inside the shared allocator. *)
  Lemma redo P hs mx prox ch jobs g sd b t p p' q q' ch' g' sd' :
    rinvx P hs (mkR mx prox ch jobs g) sd b -> nth_error (g_thr g) t = Some p -> nth_error jobs t = Some q ->
    cinv g' sd' -> g_thr g' = set_nth t p' (g_thr g) -> (length (g_tab g) <= length (g_tab g'))%nat ->
    (forall h, In h ch -> get h sd' = get h sd) ->
    (forall h u, In h ch -> get h (g_tab g) = Some u -> get h (g_tab g') = Some u /\ same_on [u] (gmem g) (gmem g')) ->
    (ch' = ch /\ pendh q' = pendh q \/
     exists n, n = length (g_tab g) /\ ch' = n :: ch /\ pendh q = [] /\ pendh q' = [n] /\
       (n < length (g_tab g'))%nat /\ forall x, get n sd' = Some x -> blank x) ->
    rfit (g_tab g') ch' prox P p' q' ->
    (job_proxy q' = job_proxy q \/ exists k, job_proxy q' = Some k /\ existsb (works_on k) jobs = false) ->
    rinvx P hs (mkR mx prox ch' (set_nth t q' jobs) g') sd' b.
  Proof.
    intros [I1 I2 I3 I4 I5 I6 I7 I8 I9 I10] Hp Hq Hc' Et Lt Hsd Htab Hch Hf Hj. cbn [r_g r_max r_prox r_chunk r_job] in *.
    assert (Hinc : forall h, In h ch -> In h ch').
    { destruct Hch as [[-> _]|(n & _ & -> & _)]; [auto|]. intros h Hh. right. exact Hh. }
    assert (Hhs : forall h, In h hs -> In h ch) by (intros h Hh; apply I8, in_or_app; auto).
    assert (Hblock : forall u, In u (allc P) -> exists h, In h hs /\ get h (g_tab g) = Some u).
    { intros u Hu. assert (X : In (Some u) (map (fun h => get h (g_tab g)) hs)) by (rewrite I6; apply in_map; exact Hu).
      apply in_map_iff in X. destruct X as (h & E & Hh). eauto. }
    destruct (flat_set pendh jobs t q Hq) as (rest & Pr).
    pose proof (Pr q) as Pq. rewrite (set_nth_same _ _ _ Hq) in Pq.
    split; cbn [r_g r_max r_prox r_chunk r_job].
    - exact Hc'.
    - rewrite Et, !set_nth_length. exact I2.
    - exact I3.
    - intros h Hh. assert (Ho : In h ch -> (h < length (g_tab g'))%nat /\ forall x, get h sd' = Some x -> blank x).
      { intros Hi. destruct (I4 h Hi) as [L B]. split; [lia|]. rewrite (Hsd h Hi). exact B. }
      destruct Hch as [[-> _]|(n & -> & -> & _ & _ & L & B)]; [auto|]. destruct Hh as [<-|Hh]; auto.
    - apply (each_same amax nmax (gmem g)); [|exact I5]. intros u x Hu Hx. destruct (Hblock u Hu) as (h & Hh & G).
      destruct (Htab h u (Hhs h Hh) G) as [_ S]. apply (S u x); [left; reflexivity|exact Hx].
    - rewrite <- I6. apply map_ext_in. intros h Hh.
      assert (X : In (get h (g_tab g)) (map Some (allc P))) by (rewrite <- I6; apply (in_map (fun h => get h (g_tab g))); exact Hh).
      apply in_map_iff in X. destruct X as (u & E & _). rewrite <- E. destruct (Htab h u (Hhs h Hh) (eq_sym E)) as [-> _]. reflexivity.
    - destruct Hch as [[_ E]|(n & En & _ & E1 & E2 & _)].
      + eapply Permutation_NoDup; [|exact I7]. apply Permutation_app_head. rewrite Pq, (Pr q'), E. reflexivity.
      + eapply Permutation_NoDup with (l := n :: hs ++ flat_map pendh jobs).
        * rewrite (Pr q'), E2, Pq, E1. cbn [app]. apply Permutation_middle.
        * constructor; [|exact I7]. intros Hi. apply I8 in Hi. destruct (I4 n Hi) as [L _]. lia.
    - intros h Hh. apply in_app_or in Hh. destruct Hh as [Hh|Hh]; [apply Hinc, Hhs, Hh|].
      apply (Permutation_in _ (Pr q')) in Hh. apply in_app_or in Hh. destruct Hh as [Hh|Hh].
      + destruct Hch as [[-> E]|(n & En & -> & E1 & E2 & _)].
        * apply I8. apply in_or_app. right. apply (Permutation_in _ (Permutation_sym Pq)). apply in_or_app. left. congruence.
        * rewrite E2 in Hh. destruct Hh as [<-|[]]. left. reflexivity.
      + apply Hinc, I8. apply in_or_app. right. apply (Permutation_in _ (Permutation_sym Pq)). apply in_or_app. auto.
    - intros t1 p1 q1 H1 H2. rewrite Et in H1. destruct (Nat.eq_dec t t1) as [<-|N].
      + rewrite (nth_set_same _ _ _ _ Hp) in H1. rewrite (nth_set_same _ _ _ _ Hq) in H2. inversion H1; inversion H2; subst. exact Hf.
      + rewrite nth_set_other in H1 by exact N. rewrite nth_set_other in H2 by exact N. pose proof (I9 t1 p1 q1 H1 H2) as F.
        destruct q1 as [|k o l|k o l h]; cbn [rfit] in *.
        * intros h E Hi. destruct Hch as [[-> _]|(n & En & -> & _)]; [apply (F h E Hi)|]. destruct Hi as [<-|Hi]; [|apply (F h E Hi)].
          pose proof (cinv_handle su g sd t1 p1 n I1 H1 E). lia.
        * exact F.
        * destruct F as (F1 & F2 & F3 & F4). repeat (split; [assumption|]). destruct h as [h|]; [|exact I].
          destruct F4 as (u & G & El). exists u. split; [|exact El]. apply Htab; [|exact G]. apply I8. apply in_or_app. right.
          apply in_flat_map. exists (RAns k o l (Some h)). split; [apply (nth_error_In _ _ H2)|left; reflexivity].
    - assert (Hself : forall t2 q2 k, t <> t2 -> nth_error jobs t2 = Some q2 -> job_proxy q' = Some k -> job_proxy q2 = Some k -> False).
      { intros t2 q2 k N H2 K1 K2. destruct Hj as [Ej|(k' & Ej & Ex)].
        - apply N. apply (I10 t t2 q q2 k); congruence.
        - assert (existsb (works_on k') jobs = true); [|congruence]. apply existsb_exists. exists q2.
          split; [apply (nth_error_In _ _ H2)|]. unfold works_on. rewrite K2. replace k with k' by congruence. apply Nat.eqb_refl. }
      intros t1 t2 q1 q2 k H1 H2 K1 K2. destruct (Nat.eq_dec t t1) as [<-|N1], (Nat.eq_dec t t2) as [<-|N2]; auto.
      + rewrite (nth_set_same _ _ _ _ Hq) in H1. inversion H1; subst q1. rewrite nth_set_other in H2 by exact N2.
        destruct (Hself t2 q2 k N2 H2 K1 K2).
      + rewrite (nth_set_same _ _ _ _ Hq) in H2. inversion H2; subst q2. rewrite nth_set_other in H1 by exact N1.
        destruct (Hself t1 q1 k N1 H1 K2 K1).
      + rewrite nth_set_other in H1 by exact N1. rewrite nth_set_other in H2 by exact N2. apply (I10 t1 t2 q1 q2 k); auto.
  Qed.

  (** With no proxy left nobody is in a call of one. *)
  Lemma nobody P hs s sd b : rinvx P hs s sd b -> forallb is_none (r_prox s) = true ->
    allc P = [] /\ hs = [] /\ forall q, In q (r_job s) -> q = RNone.
  Proof.
    intros [I1 I2 I3 I4 I5 I6 I7 I8 I9 I10] Hn. destruct (each_none _ _ _ _ _ _ I5 Hn) as (E & _ & _).
    split; [exact E|]. split; [rewrite E in I6; destruct hs; [reflexivity|discriminate]|].
    intros q Hq. apply In_nth_error in Hq. destruct Hq as (t & Hq).
    destruct (nth_error (g_thr (r_g s)) t) as [p|] eqn:Hp;
      [|apply nth_error_None in Hp; rewrite <- I2 in Hp; apply nth_error_None in Hp; congruence].
    pose proof (I9 t p q Hp Hq) as F.
    assert (X : forall k o l, needs (r_prox s) P k o l -> False).
    { intros k o l (_ & pr & G & _). apply get_nth in G. rewrite forallb_forall in Hn.
      specialize (Hn _ (nth_error_In _ _ G)). discriminate. }
    destruct q; cbn [rfit] in F; [reflexivity|exfalso|exfalso]; destruct F as (_ & F); [eapply X; exact F|eapply X; apply F].
  Qed.

  Lemma wipe P hs mx prox ch jobs g sd b g' sd' :
    rinvx P hs (mkR mx prox ch jobs g) sd b -> forallb is_none prox = true ->
    cinv g' sd' -> g_thr g' = g_thr g -> g_tab g' = map (fun _ => None) (g_tab g) -> sd' = map (fun _ => None) sd ->
    rinvx P hs (mkR mx prox ch jobs g') sd' b.
  Proof.
    intros I Hn Hc' Et Eb Es. destruct (nobody _ _ _ _ _ I Hn) as (E & -> & Hq).
    destruct I as [I1 I2 I3 I4 I5 I6 I7 I8 I9 I10]. cbn [r_g r_max r_prox r_chunk r_job] in *.
    split; cbn [r_g r_max r_prox r_chunk r_job]; auto.
    - rewrite Et. exact I2.
    - intros h Hh. rewrite Eb, map_length. split; [apply I4; exact Hh|]. intros x G. subst sd'. apply get_nth in G. rewrite nth_error_map in G.
      destruct (nth_error sd h); discriminate.
    - apply (each_same amax nmax (gmem g)); [|exact I5]. rewrite E. intros u x [].
    - rewrite Et. intros t p q H1 H2. pose proof (I9 t p q H1 H2) as F. pose proof (Hq q (nth_error_In _ _ H2)). subst q. exact F.
  Qed.

  Lemma alloc_handle p l : pc_job p = Some (JAlloc l) -> unlock_ok p -> pc_handle p = None.
  Proof. destruct p; cbn; try discriminate; try (intros E; inversion E; reflexivity). destruct next; [|discriminate]. intros E ->. inversion E. reflexivity. Qed.

  Lemma blocks_ok g sd hl us : cinv g sd -> NoDup hl -> map (fun h => get h (g_tab g)) hl = map Some us ->
    Forall (u_ok amax) us /\ pairwise disjoint_u us.
  Proof.
    intros Hc. revert us. induction hl as [|h hl IH]; intros [|u us] Hn E; try discriminate; [split; constructor|].
    cbn [map] in E. injection E as E1 E2. inversion Hn; subst. destruct (IH us H2 E2) as [J1 J2].
    split; [constructor; [apply (cinv_u_ok su g sd h u Hc E1)|exact J1]|]. constructor; [|exact J2].
    rewrite Forall_forall. intros v Hv.
    assert (X : In (Some v) (map (fun h => get h (g_tab g)) hl)) by (rewrite E2; apply in_map; exact Hv).
    apply in_map_iff in X. destruct X as (h' & E' & Hh). apply (cinv_disj su g sd h h' u v Hc); auto. intros <-. auto.
  Qed.

  (** A step of a proxy on its own memory. *)
  Lemma own_step P hs mx prox ch jobs g sd b k p : rinvx P hs (mkR mx prox ch jobs g) sd b -> get k prox = Some p ->
    exists P1 cs P2 l1 l2 S1 t S2 h1 hc h2, NoDup (hc ++ flat_map pendh jobs) /\ P = P1 ++ cs :: P2 /\ prox = l1 ++ Some p :: l2 /\ b = S1 ++ Some t :: S2 /\
      length P1 = k /\ length l1 = k /\ length S1 = k /\ nth k P [] = cs /\ lrep cs (px_arena p) (gmem g) (live (px_tab p)) /\ agrees (gmem g) (px_tab p) t /\
      hs = h1 ++ hc ++ h2 /\ map (fun h => get h (g_tab g)) hc = map Some (map c_u cs) /\
      forall hx ux m' cs' lost q' t' mx' jobs',
        map (fun h => get h (g_tab g)) hx = map Some ux ->
        Permutation (flat_map pendh jobs) (hx ++ flat_map pendh jobs') ->
        (forall x, (forall u, In u (map c_u cs ++ ux) -> ~ in_u x u) -> m' x = gmem g x) ->
        Permutation (map c_u cs' ++ lost) (map c_u cs ++ ux) ->
        one amax nmax m' cs' q' t' -> 0 <= mx' <= top -> length jobs' = length jobs ->
        (forall t q, nth_error jobs' t = Some q -> works_on k q = false /\ (q = RNone /\ (forall p, nth_error (g_thr g) t = Some p -> p = Idle) \/ nth_error jobs t = Some q)) ->
        rinvP (P1 ++ cs' :: P2) (mkR mx' (l1 ++ q' :: l2) ch jobs' (set_gmem su g m')) sd (S1 ++ t' :: S2).
  Proof.
    intros I G. pose proof I as [I1 I2 I3 I4 I5 I6 I7 I8 I9 I10]. cbn [r_g r_max r_prox r_chunk r_job] in *.
    destruct (each_at _ _ _ _ _ _ _ _ I5 G) as (P1 & cs & P2 & l1 & l2 & S1 & t & S2 & -> & -> & -> & L1 & L2 & X1 & X2 & X3 & X4).
    destruct (each_len _ _ _ _ _ _ X1) as [LP _].
    rewrite allc_app, allc_cons, !map_app in I6.
    destruct (map_eq_app _ _ _ _ I6) as (h1 & hr & -> & E1 & E'). destruct (map_eq_app _ _ _ _ E') as (hc & h2 & -> & E2 & E3).
    exists P1, cs, P2, l1, l2, S1, t, S2, h1, hc, h2.
    split.
    { apply (nodup_left _ (h1 ++ h2)). eapply Permutation_NoDup; [|exact I7]. count_perm. }
    repeat (split; [reflexivity|]). split; [lia|]. split; [exact L1|]. split; [exact L2|].
    split; [rewrite app_nth2 by lia; replace (k - length P1)%nat with 0%nat by lia; reflexivity|].
    split; [exact X3|]. split; [exact X4|]. split; [reflexivity|]. split; [exact E2|].
    intros hx ux m' cs' lost q' t' mx' jobs' Ex Pj Hm Pc Hone Hmx Lj Hj.
    (* the handles of the new chunks *)
    assert (Ph : exists hc' hl, map (fun h => get h (g_tab g)) hc' = map Some (map c_u cs') /\ Permutation (hc ++ hx) (hc' ++ hl)).
    { assert (Pm : Permutation (map Some (map c_u cs') ++ map Some lost) (map (fun h => get h (g_tab g)) (hc ++ hx))).
      { rewrite map_app, E2, Ex, <- !map_app. apply Permutation_map. exact Pc. }
      apply Permutation_map_inv in Pm. destruct Pm as (l3 & E4 & P4). symmetry in E4. apply map_eq_app in E4.
      destruct E4 as (hc' & hl & -> & E5 & _). exists hc', hl. auto. }
    destruct Ph as (hc' & hl & E4 & Ph).
    assert (Hin : incl (hc ++ hx) ch).
    { intros h Hh. apply I8. apply in_app_or in Hh. destruct Hh as [Hh|Hh].
      - rewrite <- app_assoc. apply in_or_app. right. apply in_or_app. left. apply in_or_app. auto.
      - apply in_or_app. right. apply (Permutation_in _ (Permutation_sym Pj)). apply in_or_app. auto. }
    assert (Hblk : forall h u, In h (hc ++ hx) -> get h (g_tab g) = Some u -> In u (map c_u cs ++ ux)).
    { intros h u Hh Gh. assert (X : In (get h (g_tab g)) (map (fun h => get h (g_tab g)) (hc ++ hx))) by (apply (in_map (fun h => get h (g_tab g))); exact Hh).
      rewrite map_app, E2, Ex, <- map_app, Gh in X. apply in_map_iff in X. destruct X as (v & Ev & Hv). congruence. }
    assert (Hnd : NoDup ((h1 ++ h2 ++ flat_map pendh jobs') ++ (hc ++ hx))).
    { eapply Permutation_NoDup; [|exact I7]. rewrite Pj. count_perm. }
    assert (Hnd2 : NoDup ((h1 ++ hc' ++ h2) ++ flat_map pendh jobs')).
    { eapply Permutation_NoDup in Hnd; [|apply Permutation_app_head; exact Ph]. rewrite app_assoc in Hnd. apply nodup_left in Hnd.
      eapply Permutation_NoDup; [|exact Hnd]. count_perm. }
    assert (Hbusy : forall t p h, nth_error (g_thr g) t = Some p -> pc_handle p = Some h -> ~ In h (hc ++ hx)).
    { intros t0 p0 h Hp E Hi. destruct (nth_error jobs' t0) as [q0|] eqn:Hq0.
      2:{ apply nth_error_None in Hq0. rewrite Lj, I2 in Hq0. apply nth_error_None in Hq0. congruence. }
      destruct (Hj t0 q0 Hq0) as [_ [[_ Hid]|Ho]]; [rewrite (Hid p0 Hp) in E; discriminate|].
      pose proof (I9 t0 p0 q0 Hp Ho) as F. destruct q0 as [|k' o l|k' o l h']; cbn [rfit] in F.
      - apply (F h E). apply Hin. exact Hi.
      - destruct F as [F _]. rewrite (alloc_handle p0 l F (cinv_unlock su g sd t0 p0 I1 Hp)) in E. discriminate.
      - destruct F as (_ & [F|F] & _); [congruence|]. rewrite E in F. subst h'.
        apply in_split in Hi. destruct Hi as (a1 & a2 & Ea). rewrite Ea, app_assoc in Hnd. apply NoDup_remove_2 in Hnd. apply Hnd.
        apply in_or_app. left. apply in_or_app. left. apply in_or_app. right. apply in_or_app. right.
        apply in_flat_map. exists (RAns k' o l (Some h)). split; [apply (nth_error_In _ _ Hq0)|left; reflexivity]. }
    assert (Hc' : cinv (set_gmem su g m') sd).
    { apply (cinv_write su Hsu g sd m' (hc ++ hx) I1).
      - intros h Hh. split; [apply (I4 h (Hin h Hh))|]. intros t0 p0 Hp E. apply (Hbusy t0 p0 h Hp E Hh).
      - intros x Hx. apply Hm. intros u Hu.
        assert (X : In (Some u) (map (fun h => get h (g_tab g)) (hc ++ hx))).
        { rewrite map_app, E2, Ex, <- map_app. apply in_map. exact Hu. }
        apply in_map_iff in X. destruct X as (h & E & Hh). apply (Hx h u Hh E). }
    (* the other proxies' memory *)
    assert (Hother : forall Q hq, map (fun h => get h (g_tab g)) hq = map Some (allc Q) -> (forall h, In h hq -> In h (h1 ++ h2)) ->
              same_on (allc Q) (gmem g) m').
    { intros Q hq Eq Hq u x Hu Hx. apply Hm. intros v Hv Hx'.
      assert (Y : In (Some u) (map (fun h => get h (g_tab g)) hq)) by (rewrite Eq; apply in_map; exact Hu).
      apply in_map_iff in Y. destruct Y as (h & Eh & Hh).
      assert (X : In (Some v) (map (fun h => get h (g_tab g)) (hc ++ hx))) by (rewrite map_app, E2, Ex, <- map_app; apply in_map; exact Hv).
      apply in_map_iff in X. destruct X as (h' & Eh' & Hh').
      refine (cinv_disj su g sd h h' u v I1 _ Eh Eh' x Hx Hx').
      intros <-. rewrite app_assoc in Hnd. rewrite <- app_assoc in Hnd. specialize (Hq h Hh).
      revert Hnd Hq Hh'. generalize (hc ++ hx). intros l Hnd Hq Hh'. clear -Hnd Hq Hh'.
      rewrite app_assoc in Hnd. apply in_split in Hh'. destruct Hh' as (a1 & a2 & ->). rewrite app_assoc in Hnd. apply NoDup_remove_2 in Hnd.
      apply Hnd. apply in_or_app; left. apply in_or_app; left. apply in_or_app; left. exact Hq. }
    exists (h1 ++ hc' ++ h2).
    split; cbn [r_g r_max r_prox r_chunk r_job]; auto.
    - unfold set_gmem. cbn [g_thr]. rewrite Lj. exact I2.
    - unfold set_gmem, gmem. cbn [g_aw snd]. change (bw_mem (al_set_mem (bot su) (snd (g_aw g)) m')) with m'.
      apply each_app; [|constructor; [exact Hone|]].
      + apply (each_same amax nmax (gmem g)); [|exact X1]. apply (Hother P1 h1); [exact E1|]. intros h Hh. apply in_or_app; auto.
      + apply (each_same amax nmax (gmem g)); [|exact X2]. apply (Hother P2 h2); [exact E3|]. intros h Hh. apply in_or_app; auto.
    - unfold set_gmem. cbn [g_tab]. rewrite allc_app, allc_cons, !map_app, E1, E4, E3. reflexivity.
    - intros h Hh. apply in_app_or in Hh. destruct Hh as [Hh|Hh].
      + apply in_app_or in Hh. destruct Hh as [Hh|Hh]; [apply I8, in_or_app; left; apply in_or_app; auto|].
        apply in_app_or in Hh. destruct Hh as [Hh|Hh].
        * apply Hin. apply (Permutation_in _ (Permutation_sym Ph)). apply in_or_app; auto.
        * apply I8, in_or_app. left. apply in_or_app. right. apply in_or_app; auto.
      + apply I8, in_or_app. right. apply (Permutation_in _ (Permutation_sym Pj)). apply in_or_app; auto.
    - unfold set_gmem. cbn [g_tab g_thr]. intros t0 p0 q0 H1 H2. destruct (Hj t0 q0 H2) as [Hw [[-> Hi]|Ho]].
      + rewrite (Hi p0 H1). cbn. discriminate.
      + pose proof (I9 t0 p0 q0 H1 Ho) as F.
        assert (X : forall k' o l, k' <> k -> needs (l1 ++ Some p :: l2) (P1 ++ cs :: P2) k' o l -> needs (l1 ++ q' :: l2) (P1 ++ cs' :: P2) k' o l).
        { intros k' o l N (N1 & pr & G' & N2). split; [exact N1|]. exists pr.
          assert (Eg : get k' (l1 ++ q' :: l2) = get k' (l1 ++ Some p :: l2) /\ nth k' (P1 ++ cs' :: P2) [] = nth k' (P1 ++ cs :: P2) []).
          { unfold get. destruct (Nat.lt_ge_cases k' (length l1)) as [L|L].
            - rewrite !nth_error_app1, !app_nth1 by lia. auto.
            - rewrite !nth_error_app2, !app_nth2 by lia. rewrite LP. destruct (k' - length l1)%nat eqn:Ek; [lia|]. auto. }
          destruct Eg as [-> ->]. auto. }
        unfold works_on in Hw. destruct q0 as [|k' o l|k' o l h]; cbn [rfit job_proxy] in *; auto.
        * destruct F as [F1 F2]. split; [exact F1|]. apply X; [|exact F2]. intros ->. rewrite Nat.eqb_refl in Hw. discriminate.
        * destruct F as (F1 & F2 & F3 & F4). repeat (split; [assumption|]). split; [|exact F4]. apply X; [|exact F3]. intros ->. rewrite Nat.eqb_refl in Hw. discriminate.
    - intros t1 t2 q1 q2 k' H1 H2 K1 K2. destruct (Hj t1 q1 H1) as [_ [[-> _]|O1]]; [discriminate|]. destruct (Hj t2 q2 H2) as [_ [[-> _]|O2]]; [discriminate|].
      apply (I10 t1 t2 q1 q2 k'); auto.
  Qed.

  (** ** Steps *)

  Definition mild_ev (e : revent) : Prop :=
    match e with RO _ => True | RP (PUse (Some _) o) r => mild su o r | RP _ r => r <> PPanicked end.
  Definition rpost sd b (es : list revent) (s' : rst) : Prop :=
    rinv s' (sevs (shared_events es) sd) (pevs es b) /\ Forall mild_ev es.
  Definition rpostP P sd b (es : list revent) (s' : rst) : Prop :=
    rinvP P s' (sevs (shared_events es) sd) (pevs es b) /\ Forall mild_ev es.
  Lemma mild_map es : Forall mild_ev (map RO es).
  Proof. induction es; constructor; cbn; auto. Qed.
  Lemma rpost_map s' es sd b : rinv s' (sevs es sd) b -> rpost sd b (map RO es) s'.
  Proof. intros H. split; [rewrite shared_map, pevs_map; exact H|apply mild_map]. Qed.
  Lemma rpostP_map P s' es sd b : rinvP P s' (sevs es sd) b -> rpostP P sd b (map RO es) s'.
  Proof. intros H. split; [rewrite shared_map, pevs_map; exact H|apply mild_map]. Qed.
  Lemma rpost_skip s sd b : rinv s sd b -> wp (ret []) s (rpost sd b).
  Proof. intros H. apply wp_ret. split; [exact H|constructor]. Qed.

  Lemma wp_on_g c mx prox ch jobs g sd (f : list event -> M rst (list revent)) Q :
    cinv g sd ->
    (forall es g', cstep su c g = ORet es g' -> cinv g' (sevs es sd) -> wp (f es) (mkR mx prox ch jobs g') Q) ->
    wp (bind (on_g (cstep su c)) f) (mkR mx prox ch jobs g) Q.
  Proof.
    intros Hc H. pose proof (cstep_ok su Hsu g sd c Hc) as W. apply wp_inv in W. destruct W as (es & g' & E & Hc').
    specialize (H es g' E Hc'). unfold wp, bind, on_g in *. cbn [r_g]. rewrite E. exact H.
  Qed.

  Lemma thread_okP t c P hs s sd b : rinvx P hs s sd b -> (exists sp, c = Go t sp) \/ (exists v, c = Stale t v) ->
    wp (thread_step su t c s) s (rpostP P sd b).
  Proof.
    intros I0 Hch. unfold thread_step. destruct (nth_error (r_job s) t) as [q|] eqn:Hq; [|apply wp_ret; split; [exists hs; exact I0|constructor]].
    destruct (rthread _ _ _ _ _ _ _ I0 Hq) as (p & Hp). destruct s as [mx prox ch jobs g]. cbn [r_g r_job r_chunk] in *.
    pose proof I0 as [I1 I2 I3 I4 I5 I6 I7 I8 I9 I10]. cbn [r_g r_max r_prox r_chunk r_job] in *.
    apply (wp_on_g c mx prox ch jobs g sd _ _ I1). intros es g' E Hc'.
    pose proof (cinv_unlock su g sd t p I1 Hp) as Hun.
    assert (Sh : shape t p g es g').
    { destruct Hch as [[sp ->]|[v ->]]; unfold cstep, bind, get_g in E; rewrite Hp in E;
        [apply (go_shape su t p sp g Hp Hun _ _ E)|apply (stale_shape_ok su t p v g Hp _ _ E)]. }
    pose proof (I9 t p q Hp Hq) as F.
    assert (K : forall h, In h ch -> calm h es /\ forall u, get h (g_tab g) = Some u -> get h (g_tab g') = Some u).
    { intros h Hh. destruct (I4 h Hh) as [L _].
      assert (D : pc_handle p <> Some h \/ pc_job p = None).
      { destruct q as [|k o l|k o l h']; cbn [rfit] in F; [left; intros X; apply (F h X Hh)| |right; apply F].
        left. rewrite (alloc_handle p l (proj1 F) Hun). discriminate. }
      destruct D as [D|D]; [apply (shape_keep su t p g es g' sd h Sh I1 D L)|].
      destruct Sh as [p' E1 E2 Q _ _ _|j r pre wr _ _ Ej _ _ _|wr h' _ _ E2 ->]; [|congruence|].
      - split; [intros z _; rewrite (sevs_quiet _ _ _ Q); reflexivity|rewrite E2; auto].
      - split; [intros z _; reflexivity|rewrite E2; auto]. }
    assert (Ksd : forall h, In h ch -> get h (sevs es sd) = get h sd).
    { intros h Hh. apply (proj1 (K h Hh)). rewrite (cinv_len su g sd I1). apply (I4 h Hh). }
    assert (Ktab : forall h u, In h ch -> get h (g_tab g) = Some u -> get h (g_tab g') = Some u /\ same_on [u] (gmem g) (gmem g')).
    { intros h u Hh G. pose proof (proj2 (K h Hh) u G) as G'. split; [exact G'|].
      apply (keep_block su Hsu c g sd es g' h u I1 E (proj1 (K h Hh)) G G'). }
    assert (Hend : forall p' q' ch', g_thr g' = set_nth t p' (g_thr g) -> (length (g_tab g) <= length (g_tab g'))%nat ->
      (ch' = ch /\ pendh q' = pendh q \/
       exists n, n = length (g_tab g) /\ ch' = n :: ch /\ pendh q = [] /\ pendh q' = [n] /\
         (n < length (g_tab g'))%nat /\ forall x, get n (sevs es sd) = Some x -> blank x) ->
      rfit (g_tab g') ch' prox P p' q' -> job_proxy q' = job_proxy q ->
      rafter (length (g_tab g)) es (q, ch) = (q', ch') ->
      wp (put_job t (fst (rafter (length (g_tab g)) es (q, ch))) ;;; put_chunk (snd (rafter (length (g_tab g)) es (q, ch))) ;;; ret (map RO es))
        (mkR mx prox ch jobs g') (rpostP P sd b)).
    { intros p' q' ch' X1 X2 X3 X4 X5 ->. unfold wp, bind, put_job, put_chunk, ret. cbn [fst snd r_max r_prox r_chunk r_job r_g].
      apply rpostP_map. exists hs. apply (redo P hs mx prox ch jobs g sd b t p p' q q' ch' g' _ I0); auto. }
    destruct Sh as [p' E1 E2 Q Ej _ Eh|j r pre wr E1 E2 Ej Q -> Eh|wr h' -> E1 E2 ->].
    - apply (Hend p' q ch E1); auto; [rewrite E2; lia| |apply (rafter_quiet _ t); exact Q].
      rewrite E2. destruct q as [|k o l|k o l h]; cbn [rfit] in F |- *; rewrite ?Ej, ?Eh; exact F.
    - rewrite (rafter_lin _ _ _ _ _ _ Q) in *. destruct q as [|k o l|k o l h]; cbn [rfit] in F.
      + apply (Hend (Unlock wr None (fin_handle j r (g_tab g))) RNone ch E1); auto;
          [rewrite E2; apply fin_tab_len| |destruct r; reflexivity].
        cbn [rfit pc_handle]. intros h Efh Hi. destruct j as [l|h0 u l l2|h0 u l]; cbn [fin_handle job_handle] in *.
        * destruct r; [|discriminate]. injection Efh as <-. destruct (I4 _ Hi). lia.
        * apply (F h); [|exact Hi]. destruct r; congruence.
        * apply (F h); [|exact Hi]. destruct r; congruence.
      + destruct F as [F1 F2]. assert (j = JAlloc l) as -> by congruence. destruct r as [b0|]; cbn [fin_tab fin_handle] in *.
        * apply (Hend (Unlock wr None (Some (length (g_tab g)))) (RAns k o l (Some (length (g_tab g)))) (length (g_tab g) :: ch) E1).
          -- rewrite E2, app_length. lia.
          -- right. exists (length (g_tab g)). repeat (split; [reflexivity|]). split; [rewrite E2, app_length; cbn; lia|].
             intros x. rewrite (sevs_lin _ _ _ _ _ Q). cbn [job_op option_map sstep]. rewrite <- (cinv_len su g sd I1).
             unfold get. rewrite nth_error_app2, Nat.sub_diag by lia. cbn. intros X; inversion X; subst. intros i. reflexivity.
          -- cbn [rfit pc_job pc_handle]. split; [reflexivity|]. split; [right; reflexivity|]. split; [exact F2|].
             exists (mkU (b_ptr b0) (b_len b0) l). split; [|reflexivity]. rewrite E2. apply get_mid.
          -- reflexivity.
          -- reflexivity.
        * apply (Hend (Unlock wr None None) (RAns k o l None) ch E1); auto; try (rewrite E2; lia).
          cbn [rfit pc_job pc_handle]. auto.
      + destruct F as [F _]. congruence.
    - apply (Hend Idle q ch E1); auto; [rewrite E2; lia|].
      rewrite E2. destruct q as [|k o l|k o l h]; cbn [rfit pc_job pc_handle] in F |- *.
      + discriminate.
      + destruct F; discriminate.
      + destruct F as (_ & _ & F). split; [reflexivity|]. split; [left; reflexivity|exact F].
  Qed.

  Lemma thread_ok t c P hs s sd b : rinvx P hs s sd b -> (exists sp, c = Go t sp) \/ (exists v, c = Stale t v) ->
    wp (thread_step su t c s) s (rpost sd b).
  Proof.
    intros I0 Hch. eapply wp_mono; [apply (thread_okP t c P hs s sd b I0 Hch)|]. intros es s' [H M]. split; [exists P; exact H|exact M].
  Qed.

  Lemma ready_inv t s : rready t s = true -> nth_error (g_thr (r_g s)) t = Some Idle /\ nth_error (r_job s) t = Some RNone.
  Proof.
    unfold rready. destruct (nth_error (g_thr (r_g s)) t) as [[]|]; try discriminate. destruct (nth_error (r_job s) t) as [[]|]; try discriminate. auto.
  Qed.

  (** The start of an operation on the shared allocator, directly or for a proxy. *)
  Lemma start_ok t o P hs mx prox ch jobs g sd b es g' q' :
    rinvx P hs (mkR mx prox ch jobs g) sd b -> nth_error (g_thr g) t = Some Idle -> nth_error jobs t = Some RNone ->
    (forall h, op_handle o = Some h -> ~ In h ch) -> is_reset o = false ->
    cstep su (Start t o) g = ORet es g' -> cinv g' (sevs es sd) ->
    (q' = RNone \/ exists k o' l, q' = RWait k o' l /\ o = OpAlloc l false /\ es <> [] /\ needs prox P k o' l /\ existsb (works_on k) jobs = false) ->
    rinvP P (mkR mx prox ch (set_nth t q' jobs) g') (sevs es sd) b.
  Proof.
    intros I0 Hp Hq Ho Hr E Hc' Hq'. pose proof (start_begun su t o g es g' E) as B.
    pose proof I0 as [I1 I2 I3 I4 I5 I6 I7 I8 I9 I10]. cbn [r_g r_max r_prox r_chunk r_job] in *.
    assert (K : forall h, In h ch -> calm h es /\ forall u, get h (g_tab g) = Some u -> get h (g_tab g') = Some u).
    { intros h Hh. apply (begun_keep t o g es g' h B); [|exact Hr]. intros X. apply (Ho h X Hh). }
    assert (Ksd : forall h, In h ch -> get h (sevs es sd) = get h sd).
    { intros h Hh. apply (proj1 (K h Hh)). rewrite (cinv_len su g sd I1). apply (I4 h Hh). }
    assert (Ktab : forall h u, In h ch -> get h (g_tab g) = Some u -> get h (g_tab g') = Some u /\ same_on [u] (gmem g) (gmem g')).
    { intros h u Hh G. pose proof (proj2 (K h Hh) u G) as G'. split; [exact G'|].
      apply (keep_block su Hsu _ g sd es g' h u I1 E (proj1 (K h Hh)) G G'). }
    assert (Hend : forall p', g_thr g' = set_nth t p' (g_thr g) -> (length (g_tab g) <= length (g_tab g'))%nat ->
      rfit (g_tab g') ch prox P p' q' -> rinvP P (mkR mx prox ch (set_nth t q' jobs) g') (sevs es sd) b).
    { intros p' X1 X2 X3. exists hs. apply (redo P hs mx prox ch jobs g sd b t Idle p' RNone q' ch g' _ I0); auto.
      - left. split; [reflexivity|]. destruct Hq' as [->|(k & o' & l & -> & _)]; reflexivity.
      - destruct Hq' as [->|(k & o' & l & -> & _ & _ & _ & X)]; [left; reflexivity|right; exists k; auto]. }
    destruct B as [-> ->|j Hi Ej -> E1 E2|h off cs u Hi -> G _ _ -> E1 E2|Hi -> _ _ _]; [| | |discriminate].
    - destruct Hq' as [->|(k & o' & l & _ & _ & X & _)]; [|destruct (X eq_refl)].
      apply (Hend Idle); [symmetry; apply set_nth_same; exact Hp|lia|]. cbn. discriminate.
    - apply (Hend (WantRead j) E1); [rewrite E2; lia|]. destruct Hq' as [->|(k & o' & l & -> & X1 & _ & X2 & _)]; cbn [rfit pc_job pc_handle].
      + intros h Ejh. apply Ho. rewrite <- Ej. destruct j; cbn in *; congruence.
      + split; [|exact X2]. rewrite X1 in Ej. destruct j; cbn in *; congruence.
    - destruct Hq' as [->|(k & o' & l & _ & X & _)]; [|discriminate].
      apply (Hend Idle); [rewrite E1; symmetry; apply set_nth_same; exact Hp|rewrite E2; lia|]. cbn. discriminate.
  Qed.

  Lemma exclusive_begun keep g es g' : cstep su (Exclusive keep) g = ORet es g' ->
    es = [] /\ g' = g \/ es = [ResetAll keep] /\ g_thr g' = g_thr g /\ g_tab g' = map (fun _ => None) (g_tab g).
  Proof.
    unfold cstep, bind at 1, get_g. destruct (forallb is_idle (g_thr g)); [|intros E; inversion E; auto].
    unfold bind, on_aw, put_tab, ret. destruct (do_reset su keep (g_aw g)); try discriminate.
    intros E; inversion E; subst. right. auto.
  Qed.

  Lemma own_mem g m m' : set_gmem su (set_gmem su g m) m' = set_gmem su g m'.
  Proof. reflexivity. Qed.


  (** The operation of a proxy is over. *)
  Lemma settle_ok k o out c' mx l1 l2 ch jobs g p sd S1 t S2 : over out c' -> length l1 = k -> length S1 = k -> mild su o (res_of out) ->
    rinv (mkR mx (l1 ++ Some (mkProxy (fst (c_w c')) (c_tab c')) :: l2) ch jobs (set_gmem su g (d_mem (snd (c_w c'))))) sd
      (S1 ++ Some (spec_of o (res_of out) t) :: S2) ->
    wp (settle su k o out) (mkR mx (l1 ++ Some p :: l2) ch jobs g) (rpost sd (S1 ++ Some t :: S2)).
  Proof.
    intros Ho L1 L2 Hm H. destruct Ho as [[r ->]| ->]; unfold settle, wp, bind, put_mem, put_prox, ret; cbn [r_max r_prox r_chunk r_job r_g].
    - rewrite <- L1, set_nth_split, ?L1. split; [|constructor; [exact Hm|constructor]]. cbn [shared_events sevs fold_left pevs pev pspec_step sp_prox].
      rewrite <- L2, get_mid. cbn [sp_prox]. rewrite set_nth_split. exact H.
    - rewrite <- L1, set_nth_split, ?L1. split; [|constructor; [exact Hm|constructor]]. exact H.
  Qed.

  Lemma leave_step_ok keep k P hs s sd b : rinvx P hs s sd b -> wp (leave_step su keep k s) s (rpost sd b).
  Proof.
    intros I0. unfold leave_step. destruct (get k (r_prox s)) as [p|] eqn:G; [|apply rpost_skip; exists P, hs; exact I0].
    destruct (in_call k s) eqn:Ec; [apply rpost_skip; exists P, hs; exact I0|].
    destruct s as [mx prox ch jobs g]. cbn [r_prox r_g r_max r_job] in *.
    destruct (own_step _ _ _ _ _ _ _ _ _ _ _ I0 G) as (P1 & cs & P2 & l1 & l2 & S1 & t & S2 & h1 & hc & h2 & Hnd & -> & -> & -> & _ & L1 & L2 & Ecs & L & Ag & -> & Ehc & Hown).
    destruct (blocks_ok g sd hc (map c_u cs) (ri_c _ _ _ _ _ I0) (nodup_left _ _ Hnd) Ehc) as [Ku Kd].
    destruct (leave_ok su psmax nmax Hok keep p (gmem g) cs t _ L Ag Ku Kd eq_refl) as (n & aw & cs' & lost & E & _ & Hn & Hm & Hp & Hl).
    rewrite E. unfold wp, bind, put_mem, put_prox, put_max, ret. cbn [r_max r_prox r_chunk r_job r_g].
    rewrite <- L1, set_nth_split, ?L1.
    pose proof (ri_max _ _ _ _ _ I0) as Hmx. cbn [r_max] in Hmx.
    assert (Hj : forall t0 q, nth_error jobs t0 = Some q -> works_on k q = false /\
      (q = RNone /\ (forall p0, nth_error (g_thr g) t0 = Some p0 -> p0 = Idle) \/ nth_error jobs t0 = Some q)).
    { intros t0 q Hq. split; [|right; exact Hq]. destruct (works_on k q) eqn:Ew; [|reflexivity].
      unfold in_call in Ec. cbn [r_job] in Ec. assert (existsb (works_on k) jobs = true); [|congruence].
      apply existsb_exists. exists q. split; [apply (nth_error_In _ _ Hq)|exact Ew]. }
    assert (H : forall q' t', one amax nmax (d_mem (snd aw)) cs' q' t' ->
      rinv (mkR (Z.max mx n) (l1 ++ q' :: l2) ch jobs (set_gmem su g (d_mem (snd aw)))) sd (S1 ++ t' :: S2)).
    { intros q' t' Ho. exists (P1 ++ cs' :: P2). apply (Hown [] [] (d_mem (snd aw)) cs' lost q' t' (Z.max mx n) jobs); auto; try lia.
      - intros x Hx. apply Hm. rewrite app_nil_r in Hx. exact Hx.
      - rewrite app_nil_r. exact Hp. }
    destruct keep.
    - split; [|constructor; [discriminate|constructor]]. cbn [shared_events sevs fold_left pevs pev pspec_step sp_prox].
      rewrite <- L2, get_mid. cbn [sp_prox]. rewrite set_nth_split. apply H. cbn [one px_arena px_tab].
      assert (El : live (map (fun _ : option ublock => @None ublock) (px_tab p)) = []) by (clear; induction (px_tab p); auto).
      rewrite El. split; [exact Hl|]. apply (agrees_none (gmem g)). exact Ag.
    - split; [|constructor; [discriminate|constructor]]. cbn [shared_events sevs fold_left pevs pev pspec_step sp_prox].
      rewrite <- L2, set_nth_split. apply H. exact Hl.
  Qed.

  (** A new proxy. *)
  Lemma local_ok v P hs s sd b : rinvx P hs s sd b -> (0 <=? v) && (v <=? r_max s) = true ->
    rinvP (P ++ [[]]) (mkR (r_max s) (r_prox s ++ [Some (mkProxy (arena_with_chunk_size v) [])]) (r_chunk s) (r_job s) (r_g s)) sd (b ++ [Some []]).
  Proof.
    intros I0 Ev. apply andb_true_iff in Ev. destruct Ev as [V1 V2]. destruct s as [mx prox ch jobs g]. cbn [r_max r_prox r_chunk r_job r_g] in *.
      destruct I0 as [I1 I2 I3 I4 I5 I6 I7 I8 I9 I10]. cbn [r_g r_max r_prox r_chunk r_job] in *.
      assert (Ea : allc (P ++ [[]]) = allc P) by (rewrite allc_app; apply app_nil_r).
      exists hs. split; cbn [r_g r_max r_prox r_chunk r_job]; auto.
      + apply each_app; [exact I5|]. constructor; [|constructor]. split; [|constructor]. cbn [px_arena px_tab live].
        constructor; cbn; auto; try constructor; lia.
      + rewrite Ea. exact I6.
      + destruct (each_len _ _ _ _ _ _ I5) as [LP _].
        assert (X : forall k' o l, needs prox P k' o l -> needs (prox ++ [Some (mkProxy (arena_with_chunk_size v) [])]) (P ++ [[]]) k' o l).
        { intros k' o l (N1 & pr & G' & N2). split; [exact N1|]. exists pr. pose proof (get_len _ _ _ G') as Lk.
          rewrite app_nth1 by lia. split; [|exact N2]. unfold get in *. rewrite nth_error_app1 by lia. exact G'. }
        intros t p q H1 H2. pose proof (I9 t p q H1 H2) as F. destruct q as [|k o l|k o l h]; cbn [rfit] in *; auto.
        * destruct F as [F1 F2]. auto.
        * destruct F as (F1 & F2 & F3 & F4). auto.
  Qed.

  Lemma rstep_ok c s sd b : rinv s sd b -> wp (rstep su psmax nmax c) s (rpost sd b).
  Proof.
    intros (P & hs & I0). unfold rstep.
    assert (Hskip : wp (ret []) s (rpost sd b)) by (apply rpost_skip; exists P, hs; exact I0).
    match goal with |- wp _ _ ?Q => change (wp (rstep_at su psmax nmax c s) s Q) end. unfold rstep_at.
    destruct c as [t o|t sp|t v|keep|v|t k o|t|k|k|n].
    - (* an operation on the shared allocator *)
      destruct (rready t s && _ && _) eqn:Er; [|exact Hskip].
      apply andb_true_iff in Er. destruct Er as [Er E3]. apply andb_true_iff in Er. destruct Er as [E1 E2]. apply ready_inv in E1. destruct E1 as [Hp Hq].
      destruct s as [mx prox ch jobs g]. cbn [r_g r_job r_chunk r_prox] in *.
      apply (wp_on_g _ mx prox ch jobs g sd _ _ (ri_c _ _ _ _ _ I0)). intros es g' E Hc'. apply wp_ret. apply rpost_map.
      destruct (is_reset o) eqn:Eo.
      + cbn [negb orb] in E3. destruct (start_begun su t o g es g' E) as [-> ->|j Hi Ej -> X1 X2|h off cl u Hi -> G _ _ _ _ _|Hi -> -> X1 X2].
        * exists P, hs. exact I0.
        * destruct j; cbn in Ej; subst o; discriminate.
        * discriminate.
        * exists P, hs. apply (wipe P hs mx prox ch jobs g sd b g' _ I0 E3 Hc' X1 X2). reflexivity.
      + rewrite <- (set_nth_same _ _ _ Hq). exists P. apply (start_ok t o P hs mx prox ch jobs g sd b es g' RNone I0); auto.
        intros h Eh Hi. rewrite Eh in E2. apply negb_true_iff in E2. assert (existsb (Nat.eqb h) ch = true); [|congruence].
        apply existsb_exists. exists h. split; [exact Hi|apply Nat.eqb_refl].
    - apply (thread_ok t _ P hs); eauto.
    - apply (thread_ok t _ P hs); eauto.
    - (* a reset of the shared allocator *)
      destruct (forallb is_none (r_prox s)) eqn:En; [|exact Hskip].
      destruct s as [mx prox ch jobs g]. cbn [r_g r_job r_chunk r_prox] in *.
      apply (wp_on_g _ mx prox ch jobs g sd _ _ (ri_c _ _ _ _ _ I0)). intros es g' E Hc'. apply wp_ret. apply rpost_map.
      destruct (exclusive_begun keep g es g' E) as [[-> ->]|(-> & X1 & X2)]; exists P, hs; [exact I0|].
      apply (wipe P hs mx prox ch jobs g sd b g' _ I0 En Hc' X1 X2). reflexivity.
    - (* a new proxy *)
      destruct ((0 <=? v) && (v <=? r_max s)) eqn:Ev; [|exact Hskip]. apply andb_true_iff in Ev. destruct Ev as [V1 V2].
      destruct s as [mx prox ch jobs g]. cbn [r_max] in *. unfold wp, bind, put_prox, ret. cbn [r_max r_prox r_chunk r_job r_g].
      split; [|constructor; [discriminate|constructor]]. cbn [shared_events sevs fold_left pevs pev pspec_step sp_prox].
      eexists. apply (local_ok v P hs _ sd b I0). cbn [r_max]. rewrite V1, V2. reflexivity.
    - (* an operation on a proxy begins *)
      destruct (get k (r_prox s)) as [p|] eqn:G; [|exact Hskip]. destruct (rready t s && _ && _) eqn:Er; [|exact Hskip].
      apply andb_true_iff in Er. destruct Er as [Er E3]. apply andb_true_iff in Er. destruct Er as [E1 E2]. apply ready_inv in E1. destruct E1 as [Hp Hq].
      apply negb_true_iff in E2, E3. clear Hskip.
      destruct s as [mx prox ch jobs g]. unfold in_call in E2. cbn [r_prox r_g r_max r_job] in *.
      destruct (own_step _ _ _ _ _ _ _ _ _ _ _ I0 G) as (P1 & cs & P2 & l1 & l2 & S1 & ts & S2 & h1 & hc & h2 & Hnd & -> & -> & -> & _ & L1 & L2 & Ecs & L & Ag & -> & Ehc & Hown).
      destruct (blocks_ok g sd hc (map c_u cs) (ri_c _ _ _ _ _ I0) (nodup_left _ _ Hnd) Ehc) as [Ku Kd].
      destruct (run_op_ok su psmax nmax Hok o p None (gmem g) cs ts (map c_u cs) E3 L Ag Ku Kd) as (Ha & c' & cs' & lost & Hov & Hm & Hpm & L' & Ag' & Hmi).
      { cbn. rewrite app_nil_r. reflexivity. }
      rewrite Ha. destruct (want dbg psmax o (px_tab p) cs (ar_min (px_arena p))) as [l|] eqn:Hw.
      + apply (wp_on_g _ _ _ _ _ g sd _ _ (ri_c _ _ _ _ _ I0)). intros es g' E Hc'.
        assert (Hne : es <> []).
        { pose proof (want_ok su psmax nmax Hok o p (gmem g) cs _ l L Ku Kd eq_refl Hw) as Hreq.
          unfold cstep, bind at 1, get_g in E. rewrite Hp in E. unfold begin, bind at 1, get_g in E.
          unfold req_ok in Hreq. rewrite Hreq in E. inversion E. discriminate. }
        destruct es as [|e es]; [congruence|]. unfold wp, bind, put_job, ret. cbn [r_max r_prox r_chunk r_job r_g].
        apply (rpost_map _ (e :: es)).
        eexists. apply (start_ok t (OpAlloc l false) _ _ mx _ ch jobs g sd _ (e :: es) g' (RWait k o l) I0 Hp Hq); auto; [discriminate|].
        right. exists k, o, l. split; [reflexivity|]. split; [reflexivity|]. split; [exact Hne|]. split; [|exact E2].
        split; [exact E3|]. exists p. rewrite Ecs. auto.
      + apply (settle_ok k o _ c'); auto. eexists. apply (Hown [] [] (d_mem (snd (c_w c'))) cs' lost _ _ mx jobs); auto.
        * intros x Hx. apply Hm. rewrite app_nil_r in Hx. exact Hx.
        * rewrite app_nil_r. exact Hpm.
        * split; assumption.
        * apply (ri_max _ _ _ _ _ I0).
        * intros t0 q0 Hq0. split; [|right; exact Hq0]. destruct (works_on k q0) eqn:Ew; [|reflexivity].
          assert (existsb (works_on k) jobs = true); [|congruence]. apply existsb_exists. exists q0. split; [apply (nth_error_In _ _ Hq0)|exact Ew].
    - (* ... and goes on *)
      destruct (nth_error (g_thr (r_g s)) t) as [[]|] eqn:Hp; try exact Hskip.
      destruct (nth_error (r_job s) t) as [[|k o l|k o l h]|] eqn:Hq; try exact Hskip. clear Hskip.
      pose proof (ri_fit _ _ _ _ _ I0 t _ _ Hp Hq) as F. cbn [rfit] in F. destruct F as (_ & _ & (E3 & p & G & Hw) & Hh).
      rewrite G. destruct s as [mx prox ch jobs g]. cbn [r_prox r_g r_max r_job] in *.
      destruct (own_step _ _ _ _ _ _ _ _ _ _ _ I0 G) as (P1 & cs & P2 & l1 & l2 & S1 & ts & S2 & h1 & hc & h2 & Hnd & -> & -> & -> & _ & L1 & L2 & Ecs & L & Ag & -> & Ehc & Hown).
      rewrite Ecs in Hw. set (bk := match h with Some h => option_map ublk (get h (g_tab g)) | None => None end).
      set (hx := pendh (RAns k o l h)).
      assert (Hx : exists ux, map (fun h => get h (g_tab g)) hx = map Some ux /\ avail (mkD (gmem g) (Some (l, bk)) None) = ux).
      { subst bk hx. destruct h as [h|]; [|exists []; auto]. destruct Hh as (u & Gu & El). exists [u]. cbn [pendh map]. rewrite Gu. split; [reflexivity|].
        cbn. subst l. destruct u; reflexivity. }
      destruct Hx as (ux & Ex & Eav).
      destruct (flat_set pendh jobs t _ Hq) as (rest & Pr).
      pose proof (Pr (RAns k o l h)) as Pq. rewrite (set_nth_same _ _ _ Hq) in Pq. fold hx in Pq.
      pose proof (Pr RNone) as Pn. cbn [pendh app] in Pn.
      assert (Hnd2 : NoDup (hc ++ hx)).
      { apply (nodup_left _ rest). rewrite <- app_assoc. eapply Permutation_NoDup; [|exact Hnd]. apply Permutation_app_head. exact Pq. }
      assert (Ehx : map (fun h => get h (g_tab g)) (hc ++ hx) = map Some (map c_u cs ++ ux)) by (rewrite !map_app, Ehc, Ex; reflexivity).
      destruct (blocks_ok g sd _ _ (ri_c _ _ _ _ _ I0) Hnd2 Ehx) as [Ku Kd].
      destruct (run_op_ok su psmax nmax Hok o p (Some (l, bk)) (gmem g) cs ts (map c_u cs ++ ux) E3 L Ag Ku Kd) as (Ha & c' & cs' & lost & Hov & Hm & Hpm & L' & Ag' & Hmi).
      { rewrite Eav. reflexivity. }
      rewrite Ha, Hw. rewrite (proj2 (layout_eqb_eq l l) eq_refl).
      change (wp (settle su k o (run_op su psmax o p (Some (l, bk)) (gmem g))) (mkR mx (l1 ++ Some p :: l2) ch (set_nth t RNone jobs) g) (rpost sd (S1 ++ Some ts :: S2))).
      apply (settle_ok k o _ c'); auto. eexists. apply (Hown hx ux (d_mem (snd (c_w c'))) cs' lost _ _ mx (set_nth t RNone jobs)); auto.
      + rewrite Pn. exact Pq.
      + split; assumption.
      + apply (ri_max _ _ _ _ _ I0).
      + apply set_nth_length.
      + intros t0 q0 Hq0. destruct (Nat.eq_dec t t0) as [<-|N].
        * rewrite (nth_set_same _ _ _ _ Hq) in Hq0. inversion Hq0; subst q0. split; [reflexivity|]. left. split; [reflexivity|]. intros p0 X. congruence.
        * rewrite nth_set_other in Hq0 by exact N. split; [|right; exact Hq0]. unfold works_on. destruct (job_proxy q0) as [k'|] eqn:Ek; [|reflexivity].
          destruct (Nat.eqb_spec k' k) as [->|]; [|reflexivity]. destruct N. apply (ri_one _ _ _ _ _ I0 t t0 (RAns k o l h) q0 k Hq Hq0 eq_refl Ek).
    - apply (leave_step_ok true k P hs). exact I0.
    - apply (leave_step_ok false k P hs). exact I0.
    - destruct ((0 <=? n) && (n <=? nmax)) eqn:En; [|exact Hskip]. apply andb_true_iff in En.
      destruct s as [mx prox ch jobs g]. unfold wp, bind, put_max, ret. cbn [r_max r_prox r_chunk r_job r_g].
      split; [|constructor; [discriminate|constructor]]. exists P, hs. destruct I0 as [I1 I2 I3 I4 I5 I6 I7 I8 I9 I10].
      cbn [r_g r_max r_prox r_chunk r_job] in *. split; cbn [r_g r_max r_prox r_chunk r_job]; auto. lia.
  Qed.

  Lemma rrun_ok cs : forall s sd b, rinv s sd b -> wp (rrun su psmax nmax cs) s (rpost sd b).
  Proof.
    induction cs as [|c cs IH]; intros s sd b H; cbn [rrun].
    - apply rpost_skip. exact H.
    - apply wp_bind. eapply wp_mono; [apply (rstep_ok c s sd b H)|]. intros es s1 [H1 M1].
      apply wp_bind. eapply wp_mono; [apply (IH s1 _ _ H1)|]. intros es2 s2 [H2 M2]. apply wp_ret. split.
      + rewrite shared_app, pevs_app, sevs_app. exact H2.
      + apply Forall_app. auto.
  Qed.

  Lemma rstart_inv n : rinv (rstart su n) [] [].
  Proof.
    exists [], []. split; cbn [rstart r_g r_max r_prox r_chunk r_job].
    - apply (cstart_inv su Hsu).
    - cbn. rewrite !repeat_length. reflexivity.
    - pose proof Hamax. lia.
    - intros h [].
    - constructor.
    - reflexivity.
    - cbn. replace (flat_map pendh (repeat RNone n)) with (@nil nat); [constructor|]. induction n; cbn; auto.
    - cbn. replace (flat_map pendh (repeat RNone n)) with (@nil nat); [apply incl_refl|]. induction n; cbn; auto.
    - intros t p q H1 H2. apply nth_error_In, repeat_spec in H1. apply nth_error_In, repeat_spec in H2. subst. cbn. discriminate.
    - intros t1 t2 q1 q2 k H1 _ K. apply nth_error_In, repeat_spec in H1. subst. discriminate.
  Qed.
End Inv.
