(** What users of the global allocator can rely on, from any number of threads. *)
From Coq Require Import Permutation.
From Verif Require Import Base BaseFacts Alloc AllocFacts Arena ArenaFacts ArenaInv ArenaOps
  BlinkAlloc BlinkFacts History HistoryFacts Frame ProxyFacts Setup SetupFacts SetupOps Concrete
  Conc ConcFacts ConcSteps ConcProps ConcDemo ConcShape Shared SharedFacts SharedProps GConc GConcFacts.

Section Props.
  Variable su : setup.
  Hypothesis Hok : setup_ok su.
  Notation dbg := (su_dbg su).

  Definition mmem (m : mst) : mem := omem (m_o m).

  Lemma mreached_o n sched es m : mreached su n sched es m ->
    oinv su (m_o m) (sevs (our_events (inner_events es)) []) (tevs (inner_events es) []).
  Proof. intros E. apply (mi_o _ _ _ _ (mreached_inv su Hok _ _ _ _ E)). Qed.

  Lemma mreached_blink n sched es m : mreached su n sched es m ->
    agrees (mmem m) (g_tab (m_g m))
      (srun (lin_ops (our_events (inner_events es))) (map (option_map b_len) (lin_results (our_events (inner_events es)))) []).
  Proof. intros E. rewrite <- sevs_run. apply (oinv_ours su _ _ _ (mreached_o _ _ _ _ E)). Qed.
  Lemma mreached_direct n sched es m : mreached su n sched es m ->
    agrees (mmem m) (o_tab (m_o m))
      (srun (their_ops (inner_events es)) (map (option_map b_len) (their_results (inner_events es))) []).
  Proof. intros E. rewrite <- tevs_run. apply (oinv_theirs su _ _ _ (mreached_o _ _ _ _ E)). Qed.

  (** What a call of alloc or alloc_zeroed in blink mode returns. *)
  Lemma ours_no_got es t h z : ~ In (Got t h z) (ours es).
  Proof. unfold ours. rewrite in_map_iff. intros (e & X & _). discriminate. Qed.
  Lemma enter_no_got t0 o q m es m' t h z : enter_call su t0 o q m = ORet es m' -> ~ In (Got t h z) es.
  Proof.
    unfold enter_call, bind. destruct (inside_step su (Start t0 o) m) as [[|e es1] m1| | |]; try discriminate.
    - intros E; inversion E; subst. intros [].
    - unfold put_post, ret. intros E; inversion E; subst. apply (ours_no_got (e :: es1)).
  Qed.
  Lemma direct_no_got o m es m' t h z : direct su o m = ORet es m' -> ~ In (Got t h z) es.
  Proof.
    unfold direct, bind. destruct (on_o (theirs su o) m) as [es1 m1| | |]; try discriminate.
    intros E; inversion E; subst. rewrite in_map_iff. intros (e & X & _). discriminate.
  Qed.
  Lemma thread_no_got t0 c n q m es m' t h z : thread_step su t0 c n q m = ORet es m' -> ~ In (Got t h z) es.
  Proof.
    unfold thread_step, bind. destruct (inside_step su c m) as [es1 m1| | |]; try discriminate.
    intros E; inversion E; subst. apply ours_no_got.
  Qed.

  Lemma got_step c m es m' t h z : mstep su c m = ORet es m' -> In (Got t h z) es ->
    nth_error (m_post m) t = Some (PUp h z) /\ m_o m' = m_o m.
  Proof.
    unfold mstep. assert (Hno : ret [] m = ORet es m' -> In (Got t h z) es -> False).
    { intros E; inversion E; subst. intros []. }
    assert (Hen : forall t0 o q, enter_call su t0 o q m = ORet es m' -> In (Got t h z) es ->
      nth_error (m_post m) t = Some (PUp h z) /\ m_o m' = m_o m).
    { intros t0 o q E X. destruct (enter_no_got _ _ _ _ _ _ _ _ _ E X). }
    assert (Hdi : forall o, direct su o m = ORet es m' -> In (Got t h z) es ->
      nth_error (m_post m) t = Some (PUp h z) /\ m_o m' = m_o m).
    { intros o E X. destruct (direct_no_got _ _ _ _ _ _ _ E X). }
    destruct c as [t0 l z0|t0 h0|t0 h0 n|t0 h0 off cl|t0|t0 sp|t0 v|t0|a| |]; cbn [mstep_at].
    - destruct (ready t0 m && _ && _); [|intros E X; destruct (Hno E X)]. destruct (m_on m); [apply Hen|apply Hdi].
    - destruct (ready t0 m); [|intros E X; destruct (Hno E X)]. destruct (m_on m).
      + destruct (get h0 _); [|intros E X; destruct (Hno E X)]. destruct (hidden h0 m); [intros E X; destruct (Hno E X)|apply Hen].
      + destruct (get h0 _); [|intros E X; destruct (Hno E X)]. apply Hdi.
    - destruct (ready t0 m && _); [|intros E X; destruct (Hno E X)]. destruct (m_on m).
      + destruct (get h0 _); [|intros E X; destruct (Hno E X)]. cbv zeta.
        destruct (hidden h0 m || _); [intros E X; destruct (Hno E X)|apply Hen].
      + destruct (get h0 _); [|intros E X; destruct (Hno E X)]. destruct (n =? _); [apply Hdi|intros E X; destruct (Hno E X)].
    - destruct (ready t0 m && _); [apply Hen|intros E X; destruct (Hno E X)].
    - destruct (ready t0 m); [|intros E X; destruct (Hno E X)]. destruct (leak_check su m).
      + intros E; inversion E; subst. intros [X|[]]; discriminate.
      + unfold bind, put_post, ret. intros E; inversion E; subst. intros [].
    - destruct (nth_error (m_post m) t0); [|intros E X; destruct (Hno E X)]. intros E X. destruct (thread_no_got _ _ _ _ _ _ _ _ _ _ E X).
    - destruct (nth_error (m_post m) t0); [|intros E X; destruct (Hno E X)]. intros E X. destruct (thread_no_got _ _ _ _ _ _ _ _ _ _ E X).
    - destruct (nth_error (g_thr (m_g m)) t0) as [p|]; [|intros E X; destruct (Hno E X)].
      destruct p; try (intros E X; destruct (Hno E X)).
      destruct (nth_error (m_post m) t0) as [q|] eqn:Hq; [|intros E X; destruct (Hno E X)].
      destruct q; try (intros E X; destruct (Hno E X)).
      + destruct (get _ _); [apply Hen|intros E X; destruct (Hno E X)].
      + unfold bind, add_count, put_post, ret. intros E; inversion E; subst. intros [X|[]]. inversion X; subst. auto.
      + unfold bind, add_count, put_post, ret. intros E; inversion E; subst. intros [].
      + destruct (existsb is_pending (m_post m)); [intros E X; destruct (Hno E X)|]. unfold bind.
        destruct (inside_step su (Start t0 (OpReset true)) m) as [[|e es1] m1| | |]; try discriminate.
        * intros E; inversion E; subst. intros [].
        * unfold put_lost, put_post, ret. intros E; inversion E; subst. intros X. destruct (ours_no_got (e :: es1) _ _ _ X).
    - apply Hdi.
    - destruct (all_ready m); [|intros E X; destruct (Hno E X)]. intros E; inversion E; subst. intros [].
    - destruct (all_ready m); [|intros E X; destruct (Hno E X)]. destruct (leak_check su m).
      + intros E; inversion E; subst. intros [X|[]]; discriminate.
      + unfold bind. destruct (inside_step su (Exclusive true) m) as [es1 m1| | |]; try discriminate.
        unfold put_lost, put_on, ret. intros E; inversion E; subst. intros X. destruct (ours_no_got _ _ _ _ X).
  Qed.

  (** It is a live block, nobody else is working on it, and it is filled with zeros if
      they were asked for. *)
  Lemma got_block n sched es m c es' m' t h z : mreached su n sched es m -> mstep su c m = ORet es' m' ->
    In (Got t h z) es' ->
    exists u, get h (g_tab (m_g m')) = Some u /\
      (forall t' p, t' <> t -> nth_error (g_thr (m_g m')) t' = Some p -> pc_handle p <> Some h) /\
      (z = true -> forall i, 0 <= i < u_len u -> mmem m' (u_ptr u + i) = Byte 0).
  Proof.
    intros E Es X. pose proof (mreached_inv su Hok _ _ _ _ E) as Hi.
    destruct (got_step _ _ _ _ _ _ _ Es X) as (Hq & Eo).
    destruct (mi_pend _ _ _ _ Hi t (PUp h z) h Hq eq_refl) as ((b & G & Z) & K & _).
    destruct (oinv_live su _ _ _ _ _ (mi_o _ _ _ _ Hi) G) as (u & Gu & Hb & Lb & Ab).
    unfold mmem, m_g in *. rewrite Eo. exists u. split; [exact Gu|]. split; [exact K|].
    intros -> i Hx. apply Ab; [lia|]. apply Z; [reflexivity|lia].
  Qed.

  (** ** The counter *)
  Lemma few_live m s s2 : minv su m s s2 -> nlive (g_tab (m_g m)) <= USIZE_MAX.
  Proof.
    intros Hi. destruct (oinv_wf su Hok _ _ _ (mi_o _ _ _ _ Hi)) as [O D]. apply Forall_app in O. destruct O as [O _].
    apply pairwise_app in D. destruct D as [D _]. fold (m_g m) in *. rewrite nlive_live.
    assert (Hf : Forall (fun u => 0 < u_len u /\ 0 <= u_ptr u /\ u_ptr u + u_len u <= su_amax su) (live (g_tab (m_g m)))).
    { rewrite Forall_forall in *. intros u Hu. destruct (O u Hu) as ((G1 & _ & G3 & G4) & _). cbn in *.
      apply live_in in Hu. destruct Hu as [h Hu]. pose proof (mi_size _ _ _ _ Hi h u Hu). lia. }
    pose proof (su_amax_ok su Hok) as Ha.
    pose proof (disjoint_sum (length (live (g_tab (m_g m)))) _ 0 (su_amax su) (Nat.le_refl _) D (proj1 Ha) Hf) as B.
    assert (Z.of_nat (length (live (g_tab (m_g m)))) <= sum_len (live (g_tab (m_g m)))); [|lia].
    clear -Hf. induction Hf as [|u us Hu Hf IH]; cbn [length sum_len]; lia.
  Qed.

  Lemma ready_cnt m : all_ready m = true -> cnt is_down (m_post m) = 0 /\ cnt is_pending (m_post m) = 0.
  Proof.
    intros H. split; [|apply cnt_none, all_ready_none; exact H]. unfold all_ready in H. apply andb_true_iff in H. destruct H as [_ H].
    unfold cnt. induction (m_post m) as [|q l IH]; [reflexivity|]. cbn in *. apply andb_true_iff in H. destruct H as [H1 H2].
    destruct q; try discriminate. cbn. auto.
  Qed.

  Lemma counter n sched es m : mreached su n sched es m -> dbg = true -> all_ready m = true ->
    m_count m = (nlive (g_tab (m_g m)) + m_lost m) mod 2 ^ 64.
  Proof.
    intros E Hd Hr. pose proof (mi_count _ _ _ _ (mreached_inv su Hok _ _ _ _ E)) as Hc. rewrite Hd in Hc.
    destruct (ready_cnt m Hr) as [E1 E2]. rewrite Hc, E1, E2. unfold wrap. f_equal. lia.
  Qed.
  Lemma counter_release n sched es m : mreached su n sched es m -> dbg = false -> m_count m = 0.
  Proof.
    intros E Hd. pose proof (mi_count _ _ _ _ (mreached_inv su Hok _ _ _ _ E)) as Hc. rewrite Hd in Hc. exact Hc.
  Qed.

  Lemma nlive_pos {T} (t : list (option T)) : 0 < nlive t <-> exists h u, get h t = Some u.
  Proof.
    rewrite nlive_live. split.
    - destruct (live t) as [|u l] eqn:E; cbn; [lia|]. intros _.
      assert (X : In u (live t)) by (rewrite E; left; reflexivity). apply live_in in X. destruct X as [h X]. eauto.
    - intros (h & u & G). assert (X : In u (live t)) by (apply live_in; eauto). destruct (live t); [destruct X|cbn; lia].
  Qed.
  Lemma nlive_nonneg {T} (t : list (option T)) : 0 <= nlive t.
  Proof. unfold nlive. lia. Qed.

  Lemma check_exact n sched es m : mreached su n sched es m -> dbg = true -> all_ready m = true -> m_lost m = 0 ->
    (leak_check su m = true <-> exists h u, get h (g_tab (m_g m)) = Some u).
  Proof.
    intros E Hd Hr Hl. pose proof (counter _ _ _ _ E Hd Hr) as Hc. rewrite Hl, Z.add_0_r in Hc.
    pose proof (few_live _ _ _ (mreached_inv su Hok _ _ _ _ E)) as Hf. pose proof (nlive_nonneg (g_tab (m_g m))).
    unfold USIZE_MAX in Hf. rewrite Z.mod_small in Hc by lia.
    unfold leak_check. rewrite Hd, Hc, <- nlive_pos. cbn [andb]. rewrite negb_true_iff, Z.eqb_neq. lia.
  Qed.

  Lemma ready_one m t p : all_ready m = true -> nth_error (g_thr (m_g m)) t = Some p ->
    length (m_post m) = length (g_thr (m_g m)) -> ready t m = true.
  Proof.
    unfold all_ready, ready. intros H Hp L. apply andb_true_iff in H. destruct H as [H1 H2].
    rewrite forallb_forall in H1, H2. rewrite Hp. pose proof (H1 p (nth_error_In _ _ Hp)) as X1. destruct p; try discriminate.
    destruct (nth_error (m_post m) t) as [q|] eqn:Hq.
    - pose proof (H2 q (nth_error_In _ _ Hq)). destruct q; try discriminate. reflexivity.
    - exfalso. apply nth_error_None in Hq. assert (X : (t < length (g_thr (m_g m)))%nat) by (apply nth_error_Some; congruence). lia.
  Qed.

  Lemma reset_exact n sched es m t p : mreached su n sched es m -> dbg = true -> all_ready m = true -> m_lost m = 0 ->
    nth_error (g_thr (m_g m)) t = Some p ->
    (mstep su (MReset t) m = ORet [Panicked] m <-> exists h u, get h (g_tab (m_g m)) = Some u) /\
    (mstep su MDirect m = ORet [Panicked] m <-> exists h u, get h (g_tab (m_g m)) = Some u).
  Proof.
    intros E Hd Hr Hl Hp. pose proof (check_exact _ _ _ _ E Hd Hr Hl) as Hc.
    pose proof (ready_one m t p Hr Hp (mi_len _ _ _ _ (mreached_inv su Hok _ _ _ _ E))) as Ht.
    unfold mstep. cbn [mstep_at]. rewrite Ht, Hr, <- Hc. destruct (leak_check su m).
    - split; split; reflexivity.
    - split; (split; [|discriminate]).
      + unfold bind, put_post, ret. intros X; inversion X.
      + unfold bind. destruct (inside_step su (Exclusive true) m) as [es1 m1| | |] eqn:Ei; try discriminate.
        unfold put_lost, put_on, ret. intros X; inversion X as [[X1 X2]]. destruct es1; discriminate.
  Qed.

  (** A reset that is not overlapped by other calls invalidates nothing, in debug builds. *)
  Lemma calm_reset n sched es m t es' m' : mreached su n sched es m -> dbg = true -> all_ready m = true -> m_lost m = 0 ->
    mrun su [MReset t; MNext t] m = ORet es' m' \/ mrun su [MDirect] m = ORet es' m' -> m_lost m' = 0.
  Proof.
    intros E Hd Hr Hl Hrun. pose proof (check_exact _ _ _ _ E Hd Hr Hl) as Hc.
    assert (Hn : leak_check su m = false -> nlive (g_tab (m_g m)) = 0).
    { intros X. pose proof (nlive_nonneg (g_tab (m_g m))). destruct (Z.eq_dec (nlive (g_tab (m_g m))) 0) as [|N]; [assumption|].
      exfalso. assert (Y : leak_check su m = true) by (apply Hc, nlive_pos; lia). congruence. }
    assert (Hlost : forall (B : Type) (x : M ost B) b m1, on_o x m = ORet b m1 -> m_lost m1 = m_lost m).
    { intros B x b m1. unfold on_o. destruct (x (m_o m)); try discriminate. intros X; inversion X; subst. reflexivity. }
    destruct Hrun as [Hrun|Hrun].
    - cbn [mrun] in Hrun. unfold bind at 1 in Hrun. unfold mstep at 1 in Hrun. cbn [mstep_at] in Hrun.
      assert (Hstay : forall q, pending q = None -> forall m1, m1 = mkMst (m_on m) (m_count m) (m_post m) (m_o m) (m_lost m) -> True) by auto.
      destruct (ready t m) eqn:Ht.
      2:{ (* the thread does not exist *)
        unfold ready in Ht. unfold mstep, bind, ret in Hrun. cbn [mstep_at] in Hrun.
        destruct (nth_error (g_thr (m_g m)) t) as [p|] eqn:Hp.
        - exfalso. pose proof (ready_one m t p Hr Hp (mi_len _ _ _ _ (mreached_inv su Hok _ _ _ _ E))) as X.
          unfold ready in X. rewrite Hp in X. congruence.
        - inversion Hrun; subst. exact Hl. }
      destruct (ready_at _ _ Ht) as [Hp Hq].
      destruct (leak_check su m) eqn:Hk.
      + unfold mstep, bind, ret in Hrun. cbn [mstep_at] in Hrun. rewrite Hp, Hq in Hrun. inversion Hrun; subst. exact Hl.
      + specialize (Hn eq_refl). unfold bind at 1, put_post at 1, ret at 1 in Hrun. unfold bind at 1 in Hrun. unfold bind at 1 in Hrun.
        unfold mstep, m_g in Hrun. cbn [mstep_at m_o m_post m_g m_lost] in Hrun. unfold m_g in *. cbn [m_o] in Hrun.
        rewrite Hp in Hrun. rewrite (nth_set_same _ _ _ _ Hq) in Hrun.
        destruct (existsb is_pending (set_nth t PReset (m_post m))).
        * inversion Hrun; subst. exact Hl.
        * unfold inside_step, on_o, lift_g, bind in Hrun. cbn [m_o m_on m_count m_post m_lost] in Hrun.
          destruct (cstep su (Start t (OpReset true)) (o_g (m_o m))) as [es1 g1| | |]; try discriminate.
          destruct es1; inversion Hrun; subst; cbn [m_lost]; lia.
    - cbn [mrun] in Hrun. unfold bind at 1 in Hrun. unfold mstep at 1 in Hrun. cbn [mstep_at] in Hrun. rewrite Hr in Hrun.
      destruct (leak_check su m).
      + inversion Hrun; subst. exact Hl.
      + unfold bind in Hrun. destruct (inside_step su (Exclusive true) m) as [es1 m1| | |] eqn:Ei; try discriminate.
        unfold inside_step in Ei. pose proof (Hlost _ _ _ _ Ei) as X. unfold put_lost, put_on, ret in Hrun. inversion Hrun; subst.
        cbn [m_lost]. rewrite X, Hn by reflexivity. lia.
  Qed.
End Props.

(** ** Concrete runs *)
Definition mevents (su : setup) (n : nat) (sched : list mchoice) : list mevent :=
  match mrun su sched (mstart su n) with ORet es _ => es | _ => [] end.
Definition mfinal (su : setup) (n : nat) (sched : list mchoice) : mst :=
  match mrun su sched (mstart su n) with ORet _ m => m | _ => mstart su n end.
Lemma mfinal_reached su n sched : setup_ok su ->
  mrun su sched (mstart su n) = ORet (mevents su n sched) (mfinal su n sched).
Proof.
  intros Hok. destruct (mrun_returns su Hok n sched) as (es & m & E). unfold mevents, mfinal. rewrite E. reflexivity.
Qed.
Definition mtimes (n t : nat) : list mchoice := repeat (MGo t false) n.
(** A call of thread [t] to its end, when nobody is in its way. *)
Definition whole (t : nat) (c : mchoice) : list mchoice := c :: mtimes 8 t ++ [MNext t; MNext t].

(** One block obtained in direct mode; then, in blink mode, threads 0 and 1 allocate at the
    same time, one of them zeroed memory, and a block is moved while another is freed. *)
Definition gmixed : list mchoice :=
  [MAlloc 0 (La 40 8) true; MElse (OpWrite 0 2 [Byte 9]); MBlink; MAlloc 0 (La 16 8) false; MAlloc 1 (La 24 8) true] ++
  flat_map (fun _ => [MGo 0 false; MGo 1 false]) (repeat tt 10) ++
  [MNext 0; MNext 1; MNext 1; MWrite 0 0 0 [Byte 5; Byte 6]; MRealloc 1 0 64; MDealloc 0 1] ++
  flat_map (fun _ => [MGo 0 false; MGo 1 false]) (repeat tt 80) ++ [MNext 0; MNext 1].

(** Thread 1 allocates between the check of thread 0 and its reset. *)
Definition gmissed : list mchoice :=
  [MBlink; MReset 0] ++ whole 1 (MAlloc 1 (La 16 8) false) ++ [MNext 0].
(** Thread 1 has given its block back, but not counted that yet. *)
Definition gspurious : list mchoice :=
  [MBlink] ++ whole 1 (MAlloc 1 (La 16 8) false) ++ MDealloc 1 0 :: mtimes 8 1.

Definition live_blocks (m : mst) : list ublock := live (g_tab (m_g m)).

Lemma panics_at su t m : ready t m = true -> leak_check su m = true -> mstep su (MReset t) m = ORet [Panicked] m.
Proof. intros H1 H2. unfold mstep. cbn [mstep_at]. rewrite H1, H2. reflexivity. Qed.

Lemma check_misses : exists su sched es m,
  setup_ok su /\ su_dbg su = true /\ mrun su sched (mstart su 2) = ORet es m /\
  ~ In Panicked es /\ In (Got 1 0 false) es /\ lin_ops (our_events (inner_events es)) = [OpAlloc (La 16 8) false; OpReset true] /\
  all_ready m = true /\ live_blocks m = [] /\ mstep su (MReset 0) m = ORet [Panicked] m.
Proof.
  exists cs0, gmissed, (mevents cs0 2 gmissed), (mfinal cs0 2 gmissed).
  split; [apply demo_ok|]. split; [reflexivity|]. split; [apply mfinal_reached, demo_ok|].
  split; [vm_compute; intuition discriminate|]. split; [vm_compute; auto 10|]. split; [vm_compute; reflexivity|].
  split; [vm_compute; reflexivity|]. split; [vm_compute; reflexivity|]. apply panics_at; vm_compute; reflexivity.
Qed.

Lemma check_panics : exists su sched es m,
  setup_ok su /\ su_dbg su = true /\ mrun su sched (mstart su 2) = ORet es m /\ m_lost m = 0 /\
  live_blocks m = [] /\ g_thr (m_g m) = [Idle; Idle] /\ mstep su (MReset 0) m = ORet [Panicked] m.
Proof.
  exists cs0, gspurious, (mevents cs0 2 gspurious), (mfinal cs0 2 gspurious).
  split; [apply demo_ok|]. split; [reflexivity|]. split; [apply mfinal_reached, demo_ok|].
  split; [vm_compute; reflexivity|]. split; [vm_compute; reflexivity|]. split; [vm_compute; reflexivity|].
  apply panics_at; vm_compute; reflexivity.
Qed.
