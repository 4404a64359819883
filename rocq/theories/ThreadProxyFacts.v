(** Proxies and [BlinkAlloc]s of one thread, among threads. *)
From Coq Require Import Permutation.
From Verif Require Import Base BaseFacts Alloc AllocFacts Arena ArenaFacts ArenaInv ArenaOps BlinkAlloc BlinkFacts
  History HistoryFacts Setup SetupFacts Frame Conc ConcFacts ConcSteps ConcProps Proxy ProxyFacts ProxyProps
  Blink BlinkInv BlinkReset BlinkIter BlinkMain BlinkEnv BlinkProps
  Threaded ThreadedFacts ThreadedOwn ThreadedCall ThreadedContract ThreadProxy.

(** ** What [town] says about others *)
Section Town.
  Variables (su : setup) (t : nat).

  Lemma town_others s us h u : town su t s us -> get h (g_tab (t_g s)) = Some u -> ~ In h (t_mine s) ->
    exists b, get h (srun (lin_ops (t_log s)) (map (option_map b_len) (lin_results (t_log s))) []) = Some b /\ buf_agrees (cmem (t_g s)) u b.
  Proof.
    intros ((( sb & (cs & _ & _ & _ & Ag & _) & (_ & Hal) & _) & _) & _) G N.
    destruct (agrees_get _ _ _ _ _ Ag G) as (t1 & t2 & s1 & s2 & b & _ & Es & _ & L2 & Hb & _).
    exists b. destruct (Hal h) as [_ X]. rewrite <- sevs_run, <- (X N). split; [|exact Hb]. rewrite Es, <- L2. apply get_mid.
  Qed.

  Lemma town_order s us t' : town su t s us -> (t' < length (g_thr (t_g s)))%nat ->
    exists ph, follows t' PIdle (t_log s) ph /\ (ph = PIdle <-> nth_error (g_thr (t_g s)) t' = Some Idle).
  Proof.
    intros (((sb & _ & _ & Ho) & _) & _) L.
    destruct (nth_error (g_thr (t_g s)) t') as [p|] eqn:Hp; [|apply nth_error_None in Hp; lia].
    exists (phase_of p). split; [apply (Ho t' p Hp)|]. split.
    - destruct p; cbn; try discriminate; [reflexivity|]. destruct next; discriminate.
    - intros X; injection X as ->; reflexivity.
  Qed.

  Lemma town_apart s us v h u : town su t s us -> In v us -> get h (g_tab (t_g s)) = Some u -> ~ In h (t_mine s) -> disjoint_u v u.
  Proof.
    intros ((Hfi & _ & _ & _) & hs & Hp & Hh) Hv G N x Hx Hx'.
    destruct (held_in _ _ _ v Hh Hv) as (k & Hk & q & Gq & Wq).
    apply (fine_disj su _ _ _ k h q u Hfi) with (x := x); auto.
    - intros ->. apply N. apply (Permutation_in _ Hp). exact Hk.
    - eapply within_in; eassumption.
  Qed.

  Lemma town_count s us : town su t s us -> length (t_mine s) = length us.
  Proof.
    intros (_ & hs & Hp & Hh). rewrite <- (Permutation_length Hp). clear Hp. induction Hh; cbn; congruence.
  Qed.

  (** A thread can always return everything it has. *)
  Fixpoint give (us : list ublock) : M tst unit :=
    match us with [] => ret tt | u :: us' => t_deallocate su t (u_ptr u) (u_layout u) ;;; give us' end.
  Definition give_back : M tst unit := fun s => give (live (map (fun h => get h (g_tab (t_g s))) (t_mine s))) s.

  Hypothesis Hok : setup_ok su.
  Lemma give_ok us : forall s, town su t s us -> wp (give us) s (fun _ s' => town su t s' []).
  Proof.
    induction us as [|u us IH]; intros s Ht; [apply wp_ret; exact Ht|].
    cbn [give]. apply wp_bind. eapply wp_mono; [apply (deallocate_ok su Hok t s u us (u_layout u) Ht)|].
    - pose proof (threaded_contract su Hok t) as C. destruct (ct_wf _ _ _ _ C _ _ Ht) as [O _]. apply Forall_inv in O.
      destruct O as ((_ & _ & L & _) & _). split; [reflexivity|]. cbn in L. lia.
    - intros _ s' [_ Ht']. apply IH. exact Ht'.
  Qed.
  Lemma give_back_ok s us : town su t s us -> wp give_back s (fun _ s' => town su t s' []).
  Proof.
    intros (Hs & hs & Hp & Hh).
    match goal with |- wp _ _ ?Q => change (wp (give (live (map (fun h => get h (g_tab (t_g s))) (t_mine s)))) s Q) end.
    apply give_ok. split; [exact Hs|]. exists (t_mine s). split; [reflexivity|].
    assert (X : forall k, In k (t_mine s) -> exists r, get k (g_tab (t_g s)) = Some r).
    { intros k Hk. apply (Permutation_in k (Permutation_sym Hp)) in Hk. clear - Hh Hk. induction Hh as [|h c hs us (r & G & _) H IH]; [destruct Hk|].
      destruct Hk as [<-|Hk]; [exists r; exact G|apply IH; exact Hk]. }
    clear - X. induction (t_mine s) as [|k ks IH]; [constructor|]. cbn [map live].
    destruct (X k (or_introl eq_refl)) as (r & G). rewrite G. cbn [live]. constructor; [exists r; split; [exact G|left; reflexivity]|].
    apply IH. intros k' Hk'. apply X. right. exact Hk'.
  Qed.
End Town.

(** ** Proxies of the thread *)
Section Proxies.
  Variables (su : setup) (t : nat) (psmax nmax : Z).
  Hypothesis Hok : proxies_ok su psmax nmax.
  Notation A := (threaded su t).
  Notation tpinv := (ProxyFacts.pinv (su_amax su) nmax A (town su t)).
  Let Hsu := psu su psmax nmax Hok.
  Let Hct := threaded_contract su Hsu t.

  (** Without resets of the shared allocator it does not matter what these do. *)
  Lemma prun_any reset reset' os : forallb no_shared_reset os = true -> forall s,
    prun A (su_dbg su) reset (su_smax su) psmax nmax os s = prun A (su_dbg su) reset' (su_smax su) psmax nmax os s.
  Proof.
    induction os as [|o os IH]; intros Hn s; [reflexivity|]. cbn [forallb] in Hn. apply andb_true_iff in Hn. destruct Hn as [H1 H2].
    assert (E : pstep A (su_dbg su) reset (su_smax su) psmax nmax o s = pstep A (su_dbg su) reset' (su_smax su) psmax nmax o s).
    { unfold pstep, pstep_at. destruct o as [|k|k|n|[k|] o]; try reflexivity. destruct o; try reflexivity. discriminate H1. }
    cbn [prun]. unfold bind. rewrite E. clear E.
    destruct (pstep A (su_dbg su) reset' (su_smax su) psmax nmax o s) as [r s1| | |]; try reflexivity. rewrite (IH H2 s1). reflexivity.
  Qed.

  Lemma tp_run_inv os s b : forallb no_shared_reset os = true -> tpinv s b ->
    exists rs s', tp_run su t psmax nmax os s = ORet rs s' /\ length rs = length os /\ tpinv s' (pspecs os rs b) /\ ProxyFacts.grows s s' /\
      (In PPanicked rs -> su_dbg su = true /\ exists o, In o os /\ small o).
  Proof.
    intros Hn H. unfold tp_run. rewrite (prun_any _ (fun _ => give_back su t) os Hn).
    pose proof (prun_ok (su_amax su) (su_smax su) psmax nmax A (town su t) Hct (pamax su psmax nmax Hok) (su_dbg su) (fun _ => give_back su t)
      (fun _ w us Ho => give_back_ok su t Hsu w us Ho) (ptop su psmax nmax Hok) (pcfg su psmax nmax Hok) os s b H) as Hr.
    apply wp_inv in Hr. exact Hr.
  Qed.

  Lemma tp_start_inv n sched es g todo : crun su sched (cstart su n) = ORet es g -> nth_error (g_thr g) t = Some Idle ->
    tpinv (tp_start g es todo) (mkSp [] []).
  Proof.
    intros Hr Hi. apply pstart_inv; [|pose proof (pamax su psmax nmax Hok); lia].
    destruct (threading_ready su t (fun _ _ => false) n sched es g todo Hsu Hr Hi) as (us & Ho & _). cbn [e_own threading] in Ho.
    rewrite app_nil_r in Ho. pose proof (town_count _ _ _ _ Ho) as L. cbn [t_mine] in L. destruct us; [exact Ho|discriminate L].
  Qed.

  Lemma tpinv_own s b : tpinv s b -> exists us, town su t (ps_w s) us /\
    forall who h u x, owns s who h u -> in_u x u -> exists v, In v us /\ in_u x v.
  Proof.
    intros [_ _ (P & leak & Ho & E)]. eexists. split; [exact Ho|]. intros who h u x Hw Hx. destruct who as [k|].
    - destruct Hw as (p & G & Gh).
      destruct (each_owner _ _ _ _ _ _ _ _ _ _ E G Gh) as (P1 & cs & P2 & c & -> & _ & Hc & _ & Hin & _).
      exists (c_u c). split; [|apply Hin; exact Hx]. apply in_or_app. left. unfold allc. apply in_map. apply concat_in. exact Hc.
    - exists u. split; [|exact Hx]. apply in_or_app. right. apply in_or_app. right. apply live_in. exists h. exact Hw.
  Qed.

  (** From any moment on which the thread may begin. *)
  Definition begins (w : pst (W := tst)) : Prop := exists n sched es g todo,
    crun su sched (cstart su n) = ORet es g /\ nth_error (g_thr g) t = Some Idle /\ w = tp_start g es todo.

  Lemma tp_all w os : begins w -> forallb no_shared_reset os = true ->
    exists rs s, tp_run su t psmax nmax os w = ORet rs s /\ length rs = length os /\ tpinv s (pspecs os rs (mkSp [] [])) /\
      (In PPanicked rs -> su_dbg su = true /\ exists o, In o os /\ small o).
  Proof.
    intros (n & sched & es & g & todo & Hr & Hi & ->) Hn.
    destruct (tp_run_inv os _ _ Hn (tp_start_inv n sched es g todo Hr Hi)) as (rs & s & E & L & H & _ & P).
    exists rs, s. auto.
  Qed.

  Lemma tp_separate w os : begins w -> forallb no_shared_reset os = true ->
    exists rs s, tp_run su t psmax nmax os w = ORet rs s /\ length rs = length os /\
      pagree (cmem (t_g (ps_w s))) s (pspecs os rs (mkSp [] [])) /\
      (forall who h u, owns s who h u -> u_ok (su_amax su) u) /\
      (forall who1 h1 u1 who2 h2 u2, owns s who1 h1 u1 -> owns s who2 h2 u2 -> (who1, h1) <> (who2, h2) -> disjoint_u u1 u2).
  Proof.
    intros Hb Hn. destruct (tp_all w os Hb Hn) as (rs & s & E & L & H & _). exists rs, s. split; [exact E|]. split; [exact L|].
    split; [apply (pinv_agree _ _ _ _ (pamax su psmax nmax Hok) _ _ H)|]. split.
    - intros who h u. apply (pinv_ok (su_amax su) (su_smax su) nmax A (town su t) Hct s _ who h u H).
    - intros who1 h1 u1 who2 h2 u2. apply (pinv_disjoint (su_amax su) (su_smax su) nmax A (town su t) Hct s _ who1 h1 u1 who2 h2 u2 H).
  Qed.

  Lemma tp_panics w os rs s : begins w -> forallb no_shared_reset os = true -> tp_run su t psmax nmax os w = ORet rs s -> In PPanicked rs ->
    su_dbg su = true /\ exists o, In o os /\ exists k l z, o = PUse (Some k) (OpAlloc l z) /\ l_size l = 0 /\ l_align l <= 8.
  Proof. intros Hb Hn E. destruct (tp_all w os Hb Hn) as (rs' & s' & E' & _ & _ & P). rewrite E in E'. injection E' as <- <-. exact P. Qed.

  Lemma tp_town w os rs s : begins w -> forallb no_shared_reset os = true -> tp_run su t psmax nmax os w = ORet rs s ->
    exists us, town su t (ps_w s) us /\ forall who h u x, owns s who h u -> in_u x u -> exists v, In v us /\ in_u x v.
  Proof.
    intros Hb Hn E. destruct (tp_all w os Hb Hn) as (rs' & s' & E' & _ & H & _). rewrite E in E'. injection E' as <- <-.
    apply (tpinv_own _ _ H).
  Qed.

  Lemma tp_others w os rs s h u : begins w -> forallb no_shared_reset os = true -> tp_run su t psmax nmax os w = ORet rs s ->
    get h (g_tab (t_g (ps_w s))) = Some u -> ~ In h (t_mine (ps_w s)) ->
    exists b, get h (srun (lin_ops (t_log (ps_w s))) (map (option_map b_len) (lin_results (t_log (ps_w s)))) []) = Some b /\
      buf_agrees (cmem (t_g (ps_w s))) u b.
  Proof. intros Hb Hn E. destruct (tp_town w os rs s Hb Hn E) as (us & Ho & _). apply (town_others su t _ us h u Ho). Qed.
  Lemma tp_order w os rs s t' : begins w -> forallb no_shared_reset os = true -> tp_run su t psmax nmax os w = ORet rs s ->
    (t' < length (g_thr (t_g (ps_w s))))%nat ->
    exists ph, follows t' PIdle (t_log (ps_w s)) ph /\ (ph = PIdle <-> nth_error (g_thr (t_g (ps_w s))) t' = Some Idle).
  Proof. intros Hb Hn E. destruct (tp_town w os rs s Hb Hn E) as (us & Ho & _). apply (town_order su t _ us t' Ho). Qed.
  Lemma tp_apart w os rs s who h u h' u' : begins w -> forallb no_shared_reset os = true -> tp_run su t psmax nmax os w = ORet rs s ->
    owns s who h u -> get h' (g_tab (t_g (ps_w s))) = Some u' -> ~ In h' (t_mine (ps_w s)) -> disjoint_u u u'.
  Proof.
    intros Hb Hn E Hw G N x Hx Hx'. destruct (tp_town w os rs s Hb Hn E) as (us & Ho & Hin). destruct (Hin _ _ _ _ Hw Hx) as (v & Hv & Hv').
    apply (town_apart su t _ us v h' u' Ho Hv G N x Hv' Hx').
  Qed.
End Proxies.

(** ** An arena of the thread, under a [Blink] or used directly *)

Lemma contract_ex {W X} amax smax (A : Allocator W) (own : X -> W -> list ublock -> Prop) :
  (exists x : X, True) -> (forall x, contract amax smax A (own x)) -> contract amax smax A (fun w us => exists x, own x w us).
Proof.
  intros [x0 _] C. constructor.
  - intros w us us' [x H] P. exists x. apply (ct_perm _ _ _ _ (C x) _ _ _ H P).
  - intros w us [x H]. apply (ct_wf _ _ _ _ (C x) _ _ H).
  - apply (ct_mem _ _ _ _ (C x0)).
  - intros w us m [x H] Hm. exists x. apply (ct_write _ _ _ _ (C x)); assumption.
  - intros w us l [x H] Hl. eapply wp_mono; [apply (ct_allocate _ _ _ _ (C x) _ _ _ H Hl)|]. intros [b|] w' [S R]; (split; [exact S|]); [|exists x; exact R].
    destruct R as [G R]. split; [exact G|exists x; exact R].
  - intros w us u l [x H] Hf. eapply wp_mono; [apply (ct_deallocate _ _ _ _ (C x) _ _ _ _ H Hf)|]. intros _ w' [S R]. split; [exact S|exists x; exact R].
  - intros w us u old new [x H] Hf Hl Hle. eapply wp_mono; [apply (ct_grow _ _ _ _ (C x) _ _ _ _ _ H Hf Hl Hle)|]. intros [b|] w' [S R]; (split; [exact S|]).
    + destruct R as (G & R & K). split; [exact G|]. split; [exists x; exact R|exact K].
    + destruct R as [K R]. split; [exact K|exists x; exact R].
  - intros w us u old new [x H] Hf Hl Hle. eapply wp_mono; [apply (ct_shrink _ _ _ _ (C x) _ _ _ _ _ H Hf Hl Hle)|]. intros [b|] w' [S R]; (split; [exact S|]).
    + destruct R as (G & R & K). split; [exact G|]. split; [exists x; exact R|exact K].
    + destruct R as [K R]. split; [exact K|exists x; exact R].
Qed.

Section Arena.
  Variables (su : setup) (t : nat) (psmax min : Z).
  Notation A := (threaded su t).
  Notation dbg := (su_dbg su).
  (** Chunks of the arena are requests the shared allocator can be asked for. *)
  Definition arena_fits : Prop :=
    setup_ok su /\ 0 <= min <= USIZE_MAX /\ psmax <= USIZE_MAX /\
    ((dbg = false /\ su_smax su = USIZE_MAX) \/ (1 <= min /\ Z.max (su_amax su) min + psmax + 2 ^ 15 <= su_smax su)).
  Hypothesis Hok : arena_fits.
  Let Hsu : setup_ok su := proj1 Hok.
  Let Hct := threaded_contract su Hsu t.

  Definition aown (ext : list ublock) : AW (W := tst) -> list ublock -> Prop :=
    blink_own (su_amax su) A (town su t) (fun _ _ => True) ext min.
  Definition xown (aw : AW (W := tst)) (us : list ublock) : Prop := exists ext, aown ext aw us.

  Lemma aown_ct ext : contract (su_amax su) psmax (blink A dbg) (aown ext).
  Proof.
    destruct Hok as (H1 & H2 & H3 & H4). apply (blink_contract (su_amax su) psmax (su_smax su) A (town su t) Hct (su_amax_ok su Hsu)); [apply jinv_true|].
    split; [exact H3|]. split; [apply (su_smax_ok su Hsu)|exact H4].
  Qed.
  Lemma xown_ct : contract (su_amax su) psmax (blink A dbg) xown.
  Proof. apply contract_ex; [exists []; exact Logic.I|apply aown_ct]. Qed.

  Lemma aown_reset keep ext aw us : aown ext aw us -> wp (arena_reset A keep) aw (fun _ aw' => aown ext aw' []).
  Proof.
    destruct aw as [ar w]. intros (cs & R & _ & Hm). cbn [fst snd] in *. destruct keep.
    - eapply wp_mono; [apply (arena_reset_keep_ok (su_amax su) (su_smax su) A (town su t) Hct ext cs ar w us R)|].
      intros _ [ar' w'] (_ & M1 & H). cbn [fst snd] in *. destruct cs as [|c cs].
      + injection H as -> ->. exists []. cbn [fst snd]. split; [|split; [exact Logic.I|exact Hm]].
        destruct R as [R1 R2 R3 R4 R5 R6 R7 R8]. constructor; auto; constructor.
      + exists [set_cur c (c_base c)]. cbn [fst snd]. split; [exact H|]. split; [exact Logic.I|congruence].
    - eapply wp_mono; [apply (arena_reset_final_ok (su_amax su) (su_smax su) A (town su t) Hct ext cs ar w us R)|].
      intros _ [ar' w'] (_ & M1 & _ & _ & H). cbn [fst snd] in *. exists []. cbn [fst snd]. split; [exact H|]. split; [exact Logic.I|congruence].
  Qed.

  Lemma xown_leak aw us : xown aw us -> wp (arena_reset_leak A true) aw (fun _ aw' => xown aw' []).
  Proof.
    destruct aw as [ar w]. intros (ext & cs & R & _ & Hm). cbn [fst snd] in *.
    eapply wp_mono; [apply (arena_reset_leak_ok (su_amax su) (su_smax su) A (town su t) Hct true ext cs ar w us R)|].
    intros _ [ar' w'] (_ & M1 & H). cbn [fst snd] in *. destruct cs as [|c cs].
    - injection H as -> ->. exists ext, []. cbn [fst snd]. split; [|split; [exact Logic.I|exact Hm]].
      destruct R as [R1 R2 R3 R4 R5 R6 R7 R8]. constructor; auto; constructor.
    - destruct H as [_ H]. exists (map c_u cs ++ ext), [set_cur c (c_base c)]. cbn [fst snd]. split; [exact H|]. split; [exact Logic.I|congruence].
  Qed.

  Lemma xown_start n sched es g todo : crun su sched (cstart su n) = ORet es g -> nth_error (g_thr g) t = Some Idle ->
    aown [] (arena_with_chunk_size min, mkT g [] es todo) [].
  Proof.
    intros Hr Hi. exists []. cbn [fst snd]. split; [|split; [exact Logic.I|reflexivity]].
    apply (arep_new (su_amax su) (su_smax su) A (town su t) [] _ min Hct); [|apply Hok].
    destruct (threading_ready su t (fun _ _ => false) n sched es g todo Hsu Hr Hi) as (us & Ho & _). cbn [e_own threading] in Ho.
    rewrite app_nil_r in Ho. pose proof (town_count _ _ _ _ Ho) as L. cbn [t_mine] in L. destruct us; [exact Ho|discriminate L].
  Qed.

  (** The blocks of the arena lie in blocks the thread has. *)
  Lemma xown_town aw us : xown aw us -> exists vs, town su t (snd aw) vs /\ forall u x, In u us -> in_u x u -> exists v, In v vs /\ in_u x v.
  Proof.
    intros (ext & cs & R & _). eexists. split; [apply (ar_own _ _ _ _ _ _ _ _ R)|]. intros u x Hu Hx.
    pose proof (ar_placed _ _ _ _ _ _ _ _ R) as Pl. unfold ArenaFacts.placed in Pl. rewrite Forall_forall in Pl.
    destruct (Pl u Hu) as (c & Hc & Q1 & Q2). exists (c_u c). split; [apply in_or_app; left; apply in_map; exact Hc|].
    pose proof (chain_cwf _ _ _ (ar_chain _ _ _ _ _ _ _ _ R) Hc) as (_ & _ & W1).
    unfold in_u in *. unfold c_base, c_end, c_ptr, HDR in *. lia.
  Qed.

  (** A [BlinkAlloc] on the shared allocator: histories, and what is left when it is dropped. *)
  Definition over_run (ops : list op) : M (cst (AW (W := tst))) (list (option block)) :=
    run psmax (blink A dbg) (arena_reset A) ops.
  Definition over_start (g : gst) (es : list event) (todo : list turn) : cst (AW (W := tst)) :=
    mkCst [] (arena_with_chunk_size min, mkT g [] es todo).

  Lemma over_inv ops n sched es g todo : crun su sched (cstart su n) = ORet es g -> nth_error (g_thr g) t = Some Idle ->
    exists rs st, over_run ops (over_start g es todo) = ORet rs st /\ length rs = length ops /\
      aown [] (c_w st) (live (c_tab st)) /\ agrees (cmem (t_g (snd (c_w st)))) (c_tab st) (srun ops (map (option_map b_len) rs) []).
  Proof.
    intros Hr Hi.
    pose proof (run_ok (su_amax su) psmax (blink A dbg) (aown []) (arena_reset A) (aown_ct []) (fun k w us => aown_reset k [] w us) ops
      (over_start g es todo) []) as H.
    assert (H0 : hinv (blink A dbg) (aown []) (over_start g es todo) []) by (split; [apply (xown_start n sched es g todo Hr Hi)|constructor]).
    apply H in H0. apply wp_inv in H0. destruct H0 as (rs & st & E & L & Ho & Ag). exists rs, st. auto.
  Qed.

  Lemma over_drop ops n sched es g todo : crun su sched (cstart su n) = ORet es g -> nth_error (g_thr g) t = Some Idle ->
    exists rs st aw, over_run ops (over_start g es todo) = ORet rs st /\ blink_drop A dbg (c_w st) = ORet tt aw /\ t_mine (snd aw) = [].
  Proof.
    intros Hr Hi. destruct (over_inv ops n sched es g todo Hr Hi) as (rs & st & E & _ & (cs & R & _) & _).
    destruct (c_w st) as [ar w] eqn:Ec. cbn [fst snd] in *.
    pose proof (arena_reset_final_ok (su_amax su) (su_smax su) A (town su t) Hct [] cs ar w _ R) as H. apply wp_inv in H.
    destruct H as ([] & [ar' w'] & Er & _ & _ & Hn & Ho & _). cbn [fst snd] in *.
    exists rs, st, (ar', w'). split; [exact E|]. split.
    - unfold blink_drop, bind. rewrite Ec, Er. cbn [fst]. rewrite Hn. unfold debug_assert. clear; rewrite Bool.andb_false_r; reflexivity.
    - pose proof (town_count _ _ _ _ Ho) as L. cbn [snd]. destruct (t_mine w'); [reflexivity|discriminate L].
  Qed.

  (** Under a [Blink]. *)
  Variables (bomb : Z -> Z -> bool) (k : tenure).
  Definition lodging : env :=
    mkEnv _ (blink A dbg) xown (tenure_reset su t k) (su_amax su) psmax dbg bomb true (is_lent k).

  Lemma lodging_ok : ISIZE_MAX <= psmax -> env_ok lodging.
  Proof.
    intros Hs. split; [apply xown_ct|]. split; [exact Hs|]. cbn [e_exact e_smax e_A e_own e_reset e_shared lodging e_W].
    split; [intros _; apply (blink_exact A dbg (su_amax su)); [apply Hok|apply xown_ct]|].
    intros w us fr Ho Hf. destruct k; cbn [tenure_reset is_lent] in *.
    - destruct Hf as [Hf| ->]; [discriminate|]. destruct Ho as (ext & Ho).
      eapply wp_mono; [apply (aown_reset true ext w _ Ho)|]. intros ? w' H. exists []. split; [exists ext; exact H|intros u x []].
    - destruct Hf as [Hf| ->]; [discriminate|].
      eapply wp_mono; [apply (xown_leak w _ Ho)|]. intros ? w' H. exists []. split; [exact H|intros u x []].
    - apply wp_ret. exists us. split; [exact Ho|apply same_on_refl].
  Qed.
  Lemma lodging_ready n sched es g todo : crun su sched (cstart su n) = ORet es g -> nth_error (g_thr g) t = Some Idle ->
    ready lodging [] (arena_with_chunk_size min, mkT g [] es todo).
  Proof. intros Hr Hi. exists []. split; [exists []; apply (xown_start n sched es g todo Hr Hi)|right; reflexivity]. Qed.

  Hypothesis Hs : ISIZE_MAX <= psmax.
  Lemma lodging_town fr w os s : arrives lodging fr w os s ->
    exists vs, town su t (snd (bl_w s)) vs /\
      forall i r x, get i (bl_tab s) = Some r -> covers r x -> exists v, In v vs /\ in_u x v.
  Proof.
    intros Ha. destruct (arrived lodging (lodging_ok Hs) _ _ _ _ Ha) as [(junk & Ho & _ & Hf & _) _].
    cbn [e_own lodging] in Ho. destruct (xown_town _ _ Ho) as (vs & Ht & Hin). exists vs. split; [exact Ht|].
    intros i r x Gi Hc.
    destruct (agree_get _ _ _ _ _ Hf Gi) as ([[r1 d1] v1] & _ & (_ & _ & _ & P1 & _)).
    destruct (covers_block _ _ P1 Hc) as (v & Bv & Iv). apply (Hin v x); [|exact Iv].
    apply in_or_app. left. apply in_flat_map. exists r. split; [apply live_in; eauto|rewrite Bv; left; reflexivity].
  Qed.
  Lemma lodging_others fr w os s h u : arrives lodging fr w os s ->
    get h (g_tab (t_g (snd (bl_w s)))) = Some u -> ~ In h (t_mine (snd (bl_w s))) ->
    (exists b, get h (srun (lin_ops (t_log (snd (bl_w s)))) (map (option_map b_len) (lin_results (t_log (snd (bl_w s))))) []) = Some b /\
       buf_agrees (cmem (t_g (snd (bl_w s)))) u b) /\
    (forall i r x, get i (bl_tab s) = Some r -> covers r x -> ~ in_u x u).
  Proof.
    intros Ha G N. destruct (lodging_town _ _ _ _ Ha) as (vs & Ht & Hin). split; [apply (town_others su t _ vs h u Ht G N)|].
    intros i r x Gi Hc Hx. destruct (Hin i r x Gi Hc) as (v & Hv & Hv'). apply (town_apart su t _ vs v h u Ht Hv G N x Hv' Hx).
  Qed.
End Arena.
