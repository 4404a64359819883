(** The concurrent allocator among other users of its underlying allocator. *)
From Coq Require Import Permutation.
From Verif Require Import Base BaseFacts Alloc AllocFacts Arena ArenaFacts ArenaInv ArenaOps
  BlinkAlloc BlinkFacts History HistoryFacts Frame ProxyFacts Setup SetupFacts SetupOps Conc ConcFacts ConcSteps ConcProps Shared.

Lemma our_events_app es1 es2 : our_events (es1 ++ es2) = our_events es1 ++ our_events es2.
Proof. induction es1 as [|[e|o r] es1 IH]; cbn; [reflexivity| |]; rewrite ?IH; reflexivity. Qed.
Lemma our_events_map es : our_events (map OurEv es) = es.
Proof. induction es; cbn; congruence. Qed.

(** The effects of the others' operations on their buffers. *)
Definition tev (s : list (option sbuf)) (e : oevent) : list (option sbuf) :=
  match e with OurEv _ => s | TheirEv o r => sstep o (option_map b_len r) s end.
Definition tevs (es : list oevent) (s : list (option sbuf)) : list (option sbuf) := fold_left tev es s.

Lemma tevs_run es : forall s, tevs es s = srun (their_ops es) (map (option_map b_len) (their_results es)) s.
Proof. induction es as [|[e|o r] es IH]; intros s; cbn; auto; apply IH. Qed.
Lemma tevs_ours es s : tevs (map OurEv es) s = s.
Proof. induction es; cbn; auto. Qed.

Section Facts.
  Variable su : setup.
  Hypothesis Hok : setup_ok su.
  Notation amax := (su_amax su).
  Notation bown := (base_own (su_amax su) (su_bmax su)).
  Notation A := (bot su).
  Notation ctx := (su_ct su Hok).
  Definition omem (o : ost) : mem := bw_mem (snd (g_aw (o_g o))).

  (** [s]: the buffers of the allocator's clients; [s2]: those of the others. *)
  Definition oinv (o : ost) (s s2 : list (option sbuf)) : Prop :=
    xinv su false (live (o_tab o)) (omem o) (o_g o) s /\ agrees (omem o) (o_tab o) s2.

  Lemma xinv_refl ext m0 g s : xinv su false ext m0 g s -> xinv su false ext (bw_mem (snd (g_aw g))) g s.
  Proof.
    intros (cs & R & Hh & H). exists cs. split; [exact R|]. split; [|exact H]. cbn. apply same_on_refl.
  Qed.

  Lemma ours_ok o s s2 c : oinv o s s2 ->
    wp (cstep su c) (o_g o) (fun es g' =>
      oinv (mkO (o_tab o) g') (sevs es s) s2 /\ same_on (live (o_tab o)) (omem o) (bw_mem (snd (g_aw g')))).
  Proof.
    intros (X & Ha). eapply wp_mono; [apply (xcstep_ok su Hok false _ _ _ _ c X)|].
    intros es g' X'. pose proof X' as (cs & _ & S & _). cbn in S. split; [|exact S]. split.
    - unfold omem. cbn [o_tab o_g]. apply (xinv_refl _ _ _ _ X').
    - unfold omem. cbn [o_tab o_g]. apply (agrees_same (omem o) _ _ _ (live (o_tab o))); auto. apply incl_refl.
  Qed.

  Lemma theirs_ok o s s2 a : oinv o s s2 -> wp (theirs su a) o (fun es o' => oinv o' s (tevs es s2) /\ our_events es = [] /\
    g_tab (o_g o') = g_tab (o_g o) /\ g_thr (o_g o') = g_thr (o_g o) /\ g_lock (o_g o') = g_lock (o_g o) /\
    (forall u, In u (live (g_tab (o_g o))) -> same_on [u] (omem o) (omem o'))).
  Proof.
    intros Hi. pose proof Hi as ((cs & R & _ & Hm & Ha & Hlk & Hpc & Hd) & Ha2). unfold omem in *.
    destruct o as [tab2 [tab thr k [ar w]]]. cbn [o_tab o_g g_tab g_thr g_lock g_aw fst snd] in *.
    assert (Hstep : (forall kp, a <> OpReset kp) ->
      wp (step (su_bmax su) A (fun _ => ret tt) a) (mkCst tab2 w) (fun r st =>
        oinv (mkO (c_tab st) (mkG tab thr k (ar, c_w st))) s (tevs [TheirEv a r] s2) /\
        (forall u, In u (live tab) -> same_on [u] (bw_mem w) (bw_mem (c_w st))))).
    { intros Hn.
      pose proof (contract_framed amax (su_bmax su) A bown (map c_u cs) (bw_mem w) ctx) as Hct.
      assert (Hs : hinv A (framed A bown (map c_u cs) (bw_mem w)) (mkCst tab2 w) s2).
      { split; [|exact Ha2]. split; [|apply same_on_refl]. cbn [c_w c_tab].
        apply (ct_perm _ _ _ _ ctx _ _ _ (ar_own _ _ _ _ _ _ _ _ R)). apply Permutation_app_comm. }
      eapply wp_mono; [apply (step_any amax (su_bmax su) A _ (fun _ => ret tt) Hct a _ s2)|].
      - intros kp E. destruct (Hn kp E).
      - exact Hs.
      - intros r [tab2' w'] [[Ho S] Ha']. cbn [c_tab c_w] in *.
        destruct (arep_frame amax (su_bmax su) A bown ctx _ (live tab2') cs ar w w' _ R) as [R' S'].
        { apply (ct_perm _ _ _ _ ctx _ _ _ Ho). apply Permutation_app_comm. }
        { exact S. }
        apply same_on_app in S'. destruct S' as [S1 S2]. change (al_mem A) with bw_mem in *.
        split; [|intros u Hu v x [<-|[]] Hx; apply (S1 u); auto].
        split; [|exact Ha']. exists cs. unfold xinvx. cbn [o_tab o_g g_tab g_thr g_lock g_aw fst snd].
        split; [exact R'|]. split; [apply same_on_refl|]. split; [exact Hm|].
        split; [apply (agrees_same (bw_mem w) _ _ _ (live tab)); auto; apply incl_refl|].
        split; [exact Hlk|]. split; [|exact Hd].
        intros t p Hp. apply (pc_ok_other su cs cs tab tab (bw_mem w)); auto.
        + intros h u _ G. split; [exact G|]. intros v x [<-|[]] Hx. apply (S1 u); [apply live_in; eauto|exact Hx].
        + intros v x Hv Hx. apply (S2 v); [|exact Hx]. apply in_flat_map. exists p. split; [apply (nth_error_In _ _ Hp)|exact Hv].
        + apply (Hpc t p Hp). }
    unfold theirs, wp. cbn [o_tab o_g g_tab g_thr g_lock g_aw fst snd].
    destruct a; try (specialize (Hstep ltac:(discriminate)); unfold wp in Hstep;
      match type of Hstep with match ?m with _ => _ end => destruct m as [r st| | |] end;
      try contradiction; cbn [o_tab o_g g_tab g_thr g_lock g_aw fst snd]; destruct Hstep as [H1 H2];
      repeat (split; [first [exact H1|reflexivity]|]); exact H2).
    cbn. split; [exact Hi|]. repeat (split; [reflexivity|]). intros u _. apply same_on_refl.
  Qed.

  Lemma ostep_ok c o s s2 : oinv o s s2 ->
    wp (ostep su c) o (fun es o' => oinv o' (sevs (our_events es) s) (tevs es s2)).
  Proof.
    intros Hi. destruct c as [c|a]; cbn [ostep].
    - apply wp_bind. pose proof (ours_ok o s s2 c Hi) as H. unfold wp, lift_g in *.
      destruct (cstep su c (o_g o)) as [es g'| | |]; try contradiction. cbn [ret].
      rewrite our_events_map, tevs_ours. apply H.
    - eapply wp_mono; [apply (theirs_ok o s s2 a Hi)|]. intros es o' (H & E & _). rewrite E. exact H.
  Qed.

  Lemma tevs_app es1 es2 s : tevs (es1 ++ es2) s = tevs es2 (tevs es1 s).
  Proof. apply fold_left_app. Qed.

  Lemma orun_ok sched : forall o s s2, oinv o s s2 ->
    wp (orun su sched) o (fun es o' => oinv o' (sevs (our_events es) s) (tevs es s2)).
  Proof.
    induction sched as [|c sched IH]; intros o s s2 Hi; cbn [orun].
    - apply wp_ret. exact Hi.
    - apply wp_bind. eapply wp_mono; [apply (ostep_ok c o s s2 Hi)|].
      intros e o1 H1. apply wp_bind. eapply wp_mono; [apply (IH o1 _ _ H1)|].
      intros es o2 H2. apply wp_ret. rewrite our_events_app, sevs_app, tevs_app. exact H2.
  Qed.

  Lemma ostart_inv n : oinv (ostart su n) [] [].
  Proof.
    split; [|constructor]. destruct (cstart_inv su Hok n) as (cs & R & _ & H). exists cs.
    split; [exact R|]. split; [|exact H]. cbn. intros u x [].
  Qed.

  Definition oreached (n : nat) (sched : list ochoice) (es : list oevent) (o : ost) : Prop :=
    orun su sched (ostart su n) = ORet es o.

  Lemma orun_total n sched : exists es o, oreached n sched es o /\ oinv o (sevs (our_events es) []) (tevs es []).
  Proof.
    pose proof (orun_ok sched _ _ _ (ostart_inv n)) as H. apply wp_inv in H.
    destruct H as (es & o & E & H). exists es, o. auto.
  Qed.
  Lemma orun_returns n sched : exists es o, orun su sched (ostart su n) = ORet es o.
  Proof. destruct (orun_total n sched) as (es & o & E & _). eauto. Qed.
  Lemma oreached_inv n sched es o : oreached n sched es o -> oinv o (sevs (our_events es) []) (tevs es []).
  Proof.
    intros E. destruct (orun_total n sched) as (es' & o' & E' & H).
    unfold oreached in *. rewrite E in E'. inversion E'; subst. exact H.
  Qed.

  Lemma oinv_serves o s s2 : oinv o s s2 ->
    serves amax A bown (su_min su) (live (o_tab o)) (g_aw (o_g o)) (live (g_tab (o_g o))).
  Proof.
    intros ((cs & R & _ & Hm & _) & _). exists cs. split; [|exact Hm].
    apply (arep_perm _ _ _ _ _ _ _ _ _ (Permutation_app_comm _ _)) in R. revert R.
    induction (flat_map hold (g_thr (o_g o))) as [|u l IH]; cbn [app]; [auto|].
    intros R. apply IH. apply (arep_drop _ _ _ _ _ _ _ u). exact R.
  Qed.
End Facts.
