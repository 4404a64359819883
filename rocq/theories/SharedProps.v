(** What the users of a shared underlying allocator can rely on. *)
From Coq Require Import Permutation.
From Verif Require Import Base BaseFacts Alloc AllocFacts Arena ArenaFacts ArenaInv ArenaOps
  BlinkAlloc BlinkFacts History HistoryFacts Frame ProxyFacts Setup SetupFacts SetupOps Concrete
  Conc ConcFacts ConcSteps ConcProps ConcDrain ConcDemo Shared SharedFacts.

Section Props.
  Variable su : setup.
  Hypothesis Hok : setup_ok su.
  Notation amax := (su_amax su).
  Notation A := (bot su).
  Notation ctx := (su_ct su Hok).

  (** What is outstanding at the underlying allocator. *)
  Definition oheld (o : ost) : list ublock := outstanding (bw_trace (snd (g_aw (o_g o)))).

  Section At.
  Variable o : ost.
  Variable s s2 : list (option sbuf).
  Hypothesis Hi : oinv su o s s2.

  Lemma oinv_wf : Forall (u_ok amax) (live (g_tab (o_g o)) ++ live (o_tab o)) /\
    pairwise disjoint_u (live (g_tab (o_g o)) ++ live (o_tab o)).
  Proof. apply (serves_wf amax (su_bmax su) A _ ctx _ _ _ _ (oinv_serves su o _ _ Hi)). Qed.

  Lemma oinv_block h u : get h (g_tab (o_g o)) = Some u ->
    0 < u_ptr u /\ u_ptr u mod l_align (u_layout u) = 0 /\ l_size (u_layout u) <= u_len u /\
    u_ptr u + u_len u <= amax /\
    exists k, In k (oheld o) /\ inside u k /\ forall h' v, get h' (o_tab o) = Some v -> disjoint_u k v.
  Proof.
    intros G. destruct Hi as ((cs & R & _) & _).
    assert (Hin : In u (live (g_tab (o_g o)) ++ flat_map hold (g_thr (o_g o)))).
    { apply in_or_app. left. apply live_in. eauto. }
    pose proof (ar_ok _ _ _ _ _ _ _ _ R) as Ho. rewrite Forall_forall in Ho.
    destruct (Ho u Hin) as ((G1 & G2 & G3 & G4) & _). unfold ublk in *. cbn in G1, G2, G3, G4.
    split; [exact G1|]. split; [exact G2|]. split; [exact G3|]. split; [exact G4|].
    pose proof (ar_placed _ _ _ _ _ _ _ _ R) as P. unfold placed in P. rewrite Forall_forall in P.
    destruct (P u Hin) as (c & Hc & P1 & P2).
    destruct (arep_chunk_ok _ _ _ _ ctx _ _ _ _ _ c R Hc) as ((_ & _ & W1) & _).
    destruct (ar_own _ _ _ _ _ _ _ _ R) as ((_ & Hp) & _).
    destruct (ct_wf _ _ _ _ ctx _ _ (ar_own _ _ _ _ _ _ _ _ R)) as [_ D].
    apply pairwise_app in D. destruct D as (_ & _ & D).
    exists (c_u c). split; [|split].
    - apply (Permutation_in _ Hp). apply in_or_app. left. apply in_map. exact Hc.
    - unfold inside, HEADER, c_base, c_end, c_ptr, HDR in *. lia.
    - intros h' v G'. apply D; [apply in_map; exact Hc|]. apply live_in. eauto.
  Qed.

  Lemma oinv_their_block h u : get h (o_tab o) = Some u ->
    0 < u_ptr u /\ u_ptr u mod l_align (u_layout u) = 0 /\ l_size (u_layout u) <= u_len u /\
    u_ptr u + u_len u <= amax /\ In u (oheld o).
  Proof.
    intros G. destruct oinv_wf as [O _]. rewrite Forall_forall in O.
    assert (Hl : In u (live (o_tab o))) by (apply live_in; eauto).
    destruct (O u (in_or_app _ _ _ (or_intror Hl))) as ((G1 & G2 & G3 & G4) & _). unfold ublk in *. cbn in G1, G2, G3, G4.
    split; [exact G1|]. split; [exact G2|]. split; [exact G3|]. split; [exact G4|].
    destruct Hi as ((cs & R & _) & _).
    destruct (ar_own _ _ _ _ _ _ _ _ R) as ((_ & Hp) & _). apply (Permutation_in _ Hp). apply in_or_app. auto.
  Qed.

  Lemma oinv_disjoint :
    (forall h1 h2 u1 u2, h1 <> h2 -> get h1 (g_tab (o_g o)) = Some u1 -> get h2 (g_tab (o_g o)) = Some u2 -> disjoint_u u1 u2) /\
    (forall h1 h2 u1 u2, h1 <> h2 -> get h1 (o_tab o) = Some u1 -> get h2 (o_tab o) = Some u2 -> disjoint_u u1 u2) /\
    (forall h1 h2 u1 u2, get h1 (g_tab (o_g o)) = Some u1 -> get h2 (o_tab o) = Some u2 -> disjoint_u u1 u2).
  Proof.
    destruct oinv_wf as [_ D]. apply pairwise_app in D. destruct D as (D1 & D2 & D3).
    split; [|split].
    - intros h1 h2 u1 u2 N G1 G2. apply (get_pairwise disjoint_u disjoint_u_sym (g_tab (o_g o)) h1 h2); auto.
    - intros h1 h2 u1 u2 N G1 G2. apply (get_pairwise disjoint_u disjoint_u_sym (o_tab o) h1 h2); auto.
    - intros h1 h2 u1 u2 G1 G2. apply D3; apply live_in; eauto.
  Qed.

  Lemma oinv_legal : legal (su_bmax su) (bw_trace (snd (g_aw (o_g o)))).
  Proof. destruct Hi as ((cs & R & _) & _). apply (ar_own _ _ _ _ _ _ _ _ R). Qed.
  Lemma oinv_ours : agrees (omem o) (g_tab (o_g o)) s.
  Proof. destruct Hi as ((cs & _ & _ & _ & Ha & _) & _). exact Ha. Qed.
  Lemma oinv_theirs : agrees (omem o) (o_tab o) s2.
  Proof. apply Hi. Qed.
  End At.

  Lemma oreached_ours n sched es o : oreached su n sched es o ->
    agrees (omem o) (g_tab (o_g o))
      (srun (lin_ops (our_events es)) (map (option_map b_len) (lin_results (our_events es))) []).
  Proof. intros E. rewrite <- sevs_run. apply (oinv_ours o _ _ (oreached_inv su Hok _ _ _ _ E)). Qed.
  Lemma oreached_theirs n sched es o : oreached su n sched es o ->
    agrees (omem o) (o_tab o) (srun (their_ops es) (map (option_map b_len) (their_results es)) []).
  Proof. intros E. rewrite <- tevs_run. apply (oinv_theirs o _ _ (oreached_inv su Hok _ _ _ _ E)). Qed.

  (** However long only the threads of the allocator run, the others' bytes stay. *)
  Lemma ours_keep cs : forall o s s2, oinv su o s s2 ->
    wp (orun su (map Ours cs)) o (fun _ o' => o_tab o' = o_tab o /\ same_on (live (o_tab o)) (omem o) (omem o')).
  Proof.
    induction cs as [|c cs IH]; intros o s s2 Hi; cbn [map orun].
    - apply wp_ret. split; [reflexivity|apply same_on_refl].
    - apply wp_bind. cbn [ostep]. apply wp_bind. pose proof (ours_ok su Hok o s s2 c Hi) as H. unfold wp, lift_g in *.
      destruct (cstep su c (o_g o)) as [es g'| | |]; try contradiction. destruct H as [H1 H2]. cbn [ret].
      apply wp_bind. eapply wp_mono; [apply (IH _ _ _ H1)|]. intros es2 o' [E S]. apply wp_ret.
      cbn [o_tab] in *. split; [exact E|].
      intros u x Hu Hx. unfold omem in S. cbn [o_g] in S. rewrite <- (H2 u x Hu Hx). apply (S u x Hu Hx).
  Qed.
  Lemma theirs_keep ops : forall o s s2, oinv su o s s2 ->
    wp (orun su (map Theirs ops)) o (fun _ o' => g_tab (o_g o') = g_tab (o_g o) /\ g_thr (o_g o') = g_thr (o_g o) /\
      same_on (live (g_tab (o_g o))) (omem o) (omem o')).
  Proof.
    induction ops as [|a ops IH]; intros o s s2 Hi; cbn [map orun].
    - apply wp_ret. repeat split; try reflexivity. 
    - apply wp_bind. cbn [ostep]. eapply wp_mono; [apply (theirs_ok su Hok o s s2 a Hi)|].
      intros es o1 (H1 & _ & E1 & E2 & _ & S1). apply wp_bind. eapply wp_mono; [apply (IH _ _ _ H1)|].
      intros es2 o' (E3 & E4 & S). apply wp_ret. rewrite E3, E4. split; [exact E1|]. split; [exact E2|].
      intros u x Hu Hx. rewrite E1 in S. rewrite (S u x Hu Hx). apply (S1 u Hu u x (or_introl eq_refl) Hx).
  Qed.

  Lemma oreached_ours_keep n sched es o cs es' o' h u i : oreached su n sched es o ->
    orun su (map Ours cs) o = ORet es' o' -> get h (o_tab o) = Some u -> 0 <= i < u_len u ->
    get h (o_tab o') = Some u /\ omem o' (u_ptr u + i) = omem o (u_ptr u + i).
  Proof.
    intros E E' G Hx. pose proof (ours_keep cs o _ _ (oreached_inv su Hok _ _ _ _ E)) as H.
    unfold wp in H. rewrite E' in H. destruct H as [-> S]. split; [exact G|]. apply (S u); [apply live_in; eauto|].
    unfold in_u. lia.
  Qed.
  Lemma oreached_theirs_keep n sched es o ops es' o' h u i : oreached su n sched es o ->
    orun su (map Theirs ops) o = ORet es' o' -> get h (g_tab (o_g o)) = Some u -> 0 <= i < u_len u ->
    get h (g_tab (o_g o')) = Some u /\ omem o' (u_ptr u + i) = omem o (u_ptr u + i).
  Proof.
    intros E E' G Hx. pose proof (theirs_keep ops o _ _ (oreached_inv su Hok _ _ _ _ E)) as H.
    unfold wp in H. rewrite E' in H. destruct H as (-> & _ & S). split; [exact G|]. apply (S u); [apply live_in; eauto|].
    unfold in_u. lia.
  Qed.

  Lemma ours_run sched : forall o es g', crun su sched (o_g o) = ORet es g' ->
    orun su (map Ours sched) o = ORet (map OurEv es) (mkO (o_tab o) g').
  Proof.
    induction sched as [|c sched IH]; intros o es g' E; cbn [crun map orun] in *.
    - inversion E; subst. destruct o. reflexivity.
    - unfold bind in *. cbn [ostep]. unfold lift_g, bind. destruct (cstep su c (o_g o)) as [e1 g1| | |] eqn:E1; try discriminate.
      destruct (crun su sched g1) as [e2 g2| | |] eqn:E2; try discriminate. inversion E; subst.
      unfold ret. rewrite (IH (mkO (o_tab o) g1) e2 g' E2). rewrite map_app. reflexivity.
  Qed.
  Lemma oreached_finish n sched es o : oreached su n sched es o ->
    exists sched2 es2 o2, Forall is_go sched2 /\ orun su (map Ours sched2) o = ORet es2 o2 /\
      forall t p, nth_error (g_thr (o_g o2)) t = Some p -> p = Idle.
  Proof.
    intros E. destruct (oreached_inv su Hok _ _ _ _ E) as (X & _).
    destruct (drain su Hok _ _ _ _ _ X) as (d & e & g' & s' & F & Ed & _ & Q).
    exists d, (map OurEv e), (mkO (o_tab o) g'). split; [exact F|]. split; [apply (ours_run d o e g' Ed)|exact Q].
  Qed.
End Props.

(** ** A concrete run *)
Definition oevents (su : setup) (n : nat) (sched : list ochoice) : list oevent :=
  match orun su sched (ostart su n) with ORet es _ => es | _ => [] end.
Definition ofinal (su : setup) (n : nat) (sched : list ochoice) : ost :=
  match orun su sched (ostart su n) with ORet _ o => o | _ => ostart su n end.
Lemma ofinal_reached su n sched : setup_ok su ->
  orun su sched (ostart su n) = ORet (oevents su n sched) (ofinal su n sched).
Proof.
  intros Hok. destruct (orun_returns su Hok n sched) as (es & o & E).
  unfold oevents, ofinal. rewrite E. reflexivity.
Qed.

(** The others allocate before the first chunk is created and write while thread 1 is in
    the middle of a resize that moves the block; then they free their first block. *)
Definition oshared : list ochoice :=
  [Theirs (OpAlloc (La 32 16) false); Ours (Start 0 (OpAlloc (La 16 8) false))] ++
  map Ours (times 3 0) ++ [Theirs (OpAlloc (La 64 8) true)] ++ map Ours (times 2 0) ++
  [Ours (Start 0 (OpWrite 0 0 [Byte 5; Byte 6])); Ours (Start 1 (OpResize 0 (La 16 8) (La 16 64)))] ++
  map Ours (times 4 1) ++
  [Theirs (OpWrite 0 0 [Byte 7]); Theirs (OpWrite 1 1 [Byte 8])] ++ map Ours (times 20 1) ++
  [Theirs (OpDealloc 0 (La 32 16))].

(** Thread 0 has the exclusive lock, thread 1 waits, somebody else has allocated. *)
Definition obusy : list ochoice :=
  [Theirs (OpAlloc (La 32 16) false); Ours (Start 0 (OpAlloc (La 16 8) false))] ++ map Ours (times 3 0) ++
  [Ours (Start 1 (OpAlloc (La 24 8) false)); Ours (Go 1 false); Theirs (OpAlloc (La 32 16) false)].
