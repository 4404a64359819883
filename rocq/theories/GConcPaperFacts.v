(** Threads that use a [GlobalBlinkAlloc] do what GConcPaper.v says (C91). *)
From Coq Require Import Permutation.
From Verif Require Import Base BaseFacts Alloc AllocFacts Arena ArenaFacts ArenaInv ArenaOps
  BlinkAlloc BlinkFacts History HistoryFacts Setup SetupFacts Conc ConcFacts ConcSteps
  Paper PaperFacts ProxyPaper ProxyPaperFacts ConcPaper ConcPaperFacts Shared SharedFacts SharedPaper SharedPaperFacts
  GConc GConcFacts GConcPaper.

Lemma by_thread_mover t m : by_thread t m -> mover m = Some t.
Proof. destruct m; cbn; try contradiction; intros ->; reflexivity. Qed.

Lemma idle_none thr t : nth_error (map doing_of thr) t = Some DNone <-> nth_error thr t = Some Idle.
Proof.
  rewrite nth_error_map. destruct (nth_error thr t) as [p|]; cbn; [|split; discriminate].
  split; [|intros E; injection E as ->; reflexivity]. destruct p; cbn; try discriminate; [reflexivity|]. destruct next; discriminate.
Qed.
Lemma idle_all thr : forallb d_idle (map doing_of thr) = forallb is_idle thr.
Proof.
  induction thr as [|p thr IH]; [reflexivity|]. cbn [map forallb]. rewrite IH. f_equal. destruct p; try reflexivity. destruct next; reflexivity.
Qed.

Section Facts.
  Variable su : setup.
  Hypothesis Hok : setup_ok su.
  Notation dbg := (su_dbg su).
  Notation mstp := (mp_step (su_dbg su) (su_min su) (su_smax su) (su_bmax su) (su_strat su)).
  Notation mpr := (mp_run (su_dbg su) (su_min su) (su_smax su) (su_bmax su) (su_strat su)).
  Notation cstp := (cp_step (su_min su) (su_smax su) (su_strat su)).
  Notation cpr := (cp_run (su_min su) (su_smax su) (su_strat su)).

  Definition walk (m : mst) : list pc := g_thr (m_g m).
  Definition onward (q : mpaper) (es : list mevent) (m' : mst) : Prop :=
    exists ms q', mpr ms q = Some (es, q') /\ (length ms <= 1)%nat /\ mshows m' q' /\ paced (cp_chunks (op_in (mp_o q'))) (walk m').
  Notation goal q := (fun es m' => onward q es m').

  Lemma stay m q : mshows m q -> paced (cp_chunks (op_in (mp_o q))) (walk m) -> onward q [] m.
  Proof. intros Hs Hp. exists [], q. split; [reflexivity|]. split; [cbn; lia|]. auto. Qed.
  Lemma one mv m' q q' es : mstp mv q = Some (es, q') -> mshows m' q' -> paced (cp_chunks (op_in (mp_o q'))) (walk m') -> onward q es m'.
  Proof.
    intros E Hs Hp. exists [mv], q'. cbn [mp_run]. rewrite E, app_nil_r. split; [reflexivity|]. split; [cbn; lia|]. auto.
  Qed.

  Lemma call_loud t o q q' : cstp (MCall t o) q <> Some ([], q').
  Proof.
    cbn [cp_step]. destruct (nth_error (cp_thr q) t) as [[]|]; try discriminate.
    destruct o as [l z|h off cl|h l|h old new|h old new|k]; try discriminate.
    - destruct z; [discriminate|]. destruct (req_okb (su_smax su) l); discriminate.
    - destruct (get h (cp_tab q)); [|discriminate]. destruct (_ && _); discriminate.
    - destruct (get h (cp_tab q)); [|discriminate]. destruct (_ && _); discriminate.
    - destruct (get h (cp_tab q)); [|discriminate]. destruct (_ && _); discriminate.
    - destruct k; [|discriminate]. destruct (forallb _ _); discriminate.
  Qed.

  (** A step of the threads in the allocator. *)
  Lemma inside_exact c m s s2 q : minv su m s s2 -> mshows m q -> paced (cp_chunks (op_in (mp_o q))) (walk m) ->
    wp (inside_step su c) m (fun es m' =>
      m_on m' = m_on m /\ m_count m' = m_count m /\ m_post m' = m_post m /\ o_tab (m_o m') = o_tab (m_o m) /\
      ((es = [] /\ mshows m' q /\ paced (cp_chunks (op_in (mp_o q))) (walk m')) \/
       exists mv q', moves_of c mv /\ inner (su_min su) (su_smax su) (su_strat su) mv q = Some (es, q') /\ mshows m' q' /\
         mp_post q' = mp_post q /\ mp_on q' = mp_on q /\
         paced (cp_chunks (op_in (mp_o q'))) (walk m'))).
  Proof.
    intros Hi (H1 & H2 & H3 & Hs) Hp. unfold inside_step, walk, m_g in *.
    pose proof (ours_exact su Hok (m_o m) s s2 c (mp_o q) (mi_o _ _ _ _ Hi) Hs Hp) as H. unfold wp, on_o, lift_g in *.
    destruct (cstep su c (o_g (m_o m))) as [es g'| | |]; try contradiction. cbn [m_on m_count m_post m_o o_tab o_g].
    do 4 (split; [reflexivity|]). destruct H as (ms & q1 & E & Hf & L & Hs' & Hp').
    destruct ms as [|mv [|mv2 ms]]; [| |cbn in L; lia].
    - left. injection E as <- <-. split; [reflexivity|]. split; [|exact Hp']. do 3 (split; [assumption|]). split; [apply Hs|exact Hs'].
    - right. cbn [cp_run] in E. destruct (cstp mv (op_in (mp_o q))) as [[e1 q2]|] eqn:Ec; [|discriminate E].
      injection E as <- <-. rewrite app_nil_r. pose proof (Forall_inv Hf) as Hm.
      exists mv, (mkMP (mp_on q) (mp_count q) (mp_post q) (mkOP (op_tab (mp_o q)) q2)). split; [exact Hm|].
      split; [unfold inner; rewrite Ec; reflexivity|]. split; [|split; [reflexivity|split; [reflexivity|exact Hp']]].
      do 3 (split; [assumption|]). split; [apply Hs|exact Hs'].
  Qed.

  Lemma enter_exact' mv t o p m s s2 q : minv su m s s2 -> mshows m q -> paced (cp_chunks (op_in (mp_o q))) (walk m) ->
    mstp mv q = calls_it (su_min su) (su_smax su) (su_strat su) t o p q ->
    wp (enter_call su t o p) m (goal q).
  Proof.
    intros Hi Hs Hp Em. unfold enter_call. apply wp_bind. eapply wp_mono; [apply (inside_exact (Start t o) m s s2 q Hi Hs Hp)|].
    intros es m' (E1 & E2 & E3 & E4 & [(-> & Hs' & Hp')|(mv' & q' & Hm & Ei & Hs' & Ep & Eo & Hp')]).
    - apply wp_ret. apply stay; assumption.
    - cbn [moves_of] in Hm. subst mv'. destruct es as [|e es].
      { exfalso. unfold inner in Ei. destruct (cstp (MCall t o) (op_in (mp_o q))) as [[es2 q2]|] eqn:Ec; [|discriminate Ei].
        injection Ei as -> _. exact (call_loud t o _ _ Ec). }
      apply wp_bind. unfold wp, put_post, ret. apply (one mv _ _ (with_post t p q')).
      + rewrite Em. unfold calls_it. rewrite Ei. reflexivity.
      + destruct Hs' as (X1 & X2 & X3 & X4). split; [exact X1|]. split; [exact X2|]. split; [cbn; rewrite X3; reflexivity|exact X4].
      + exact Hp'.
  Qed.

  Lemma direct_exact mv o m s s2 q : minv su m s s2 -> mshows m q -> paced (cp_chunks (op_in (mp_o q))) (walk m) ->
    mstp mv q = upstairs (su_min su) (su_smax su) (su_bmax su) (su_strat su) o q ->
    wp (direct su o) m (goal q).
  Proof.
    intros Hi (H1 & H2 & H3 & Hs) Hp Em. unfold direct. apply wp_bind. pose proof (mi_o _ _ _ _ Hi) as ((cs & X) & Ha2).
    pose proof (theirs_exact su Hok cs (m_o m) s s2 o (mp_o q) X Ha2 Hs Hp) as H. unfold wp, on_o, walk, m_g in *.
    destruct (theirs su o (m_o m)) as [es o'| | |]; try contradiction. cbn [ret].
    destruct H as (ms & q1 & E & L & Hf & Hs' & Hp'). destruct ms as [|mo [|mo2 ms]]; [| |cbn in L; lia].
    - injection E as <- <-. apply stay; [|exact Hp']. do 3 (split; [assumption|]). exact Hs'.
    - pose proof (Forall_inv Hf). subst mo. cbn [op_run] in E.
      destruct (op_step _ _ _ _ (ByThem o) (mp_o q)) as [[e1 q2]|] eqn:Ec; [|discriminate E]. injection E as <- <-. rewrite app_nil_r.
      apply (one mv _ _ (mkMP (mp_on q) (mp_count q) (mp_post q) q2)); [rewrite Em; unfold upstairs; rewrite Ec; reflexivity| |exact Hp'].
      do 3 (split; [assumption|]). exact Hs'.
  Qed.

  Lemma thread_exact t c n p m s s2 q : minv su m s s2 -> mshows m q -> paced (cp_chunks (op_in (mp_o q))) (walk m) ->
    (forall mv, moves_of c mv -> by_thread t mv) -> n = length (g_tab (m_g m)) -> nth_error (m_post m) t = Some p ->
    wp (thread_step su t c n p) m (goal q).
  Proof.
    intros Hi Hs Hp Hc -> Hq. unfold thread_step. apply wp_bind. eapply wp_mono; [apply (inside_exact c m s s2 q Hi Hs Hp)|].
    intros es m' (E1 & E2 & E3 & E4 & [(-> & Hs' & Hp')|(mv' & q' & Hm & Ei & Hs' & Ep & Eo & Hp')]).
    - apply wp_bind. unfold wp, put_post, ret. apply stay; [|exact Hp'].
      destruct Hs' as (X1 & X2 & X3 & X4). split; [exact X1|]. split; [exact X2|]. split; [|exact X4]. cbn [m_post].
      rewrite set_nth_same; [exact X3|]. rewrite E3. exact Hq.
    - apply wp_bind. unfold wp, put_post, ret. set (p' := after (length (g_tab (m_g m))) es p).
      apply (one (GInside t mv') _ _ (with_post t p' q')).
      + cbn [mp_step]. rewrite (by_thread_mover t mv' (Hc _ Hm)).
        destruct Hs as (_ & _ & Y3 & _ & _ & Y4 & _). rewrite <- Y3, Hq, Nat.eqb_refl, Ei. unfold p', mp_tab, m_g. rewrite Y4. reflexivity.
      + destruct Hs' as (X1 & X2 & X3 & X4). split; [exact X1|]. split; [exact X2|]. split; [cbn; rewrite X3; reflexivity|exact X4].
      + exact Hp'.
  Qed.

  Lemma free_ready t m q : mshows m q -> free_to t q = ready t m.
  Proof.
    intros (_ & _ & H3 & _ & _ & _ & _ & H4). unfold free_to, ready, mp_thr, m_g. rewrite <- H3, <- H4.
    destruct (nth_error (g_thr (o_g (m_o m))) t) as [p|] eqn:E.
    - rewrite nth_error_map, E. cbn. destruct p; try reflexivity. destruct next; reflexivity.
    - rewrite nth_error_map, E. reflexivity.
  Qed.
  Lemma all_free_ready m q : mshows m q -> all_free q = all_ready m.
  Proof.
    intros (_ & _ & H3 & _ & _ & _ & _ & H4). unfold all_free, all_ready, mp_thr, m_g. rewrite <- H3, <- H4, idle_all. reflexivity.
  Qed.
  Lemma left_at t m q p : mshows m q -> nth_error (g_thr (m_g m)) t = Some Idle -> nth_error (m_post m) t = Some p -> left_to t q = Some p.
  Proof.
    intros (_ & _ & H3 & _ & _ & _ & _ & H4) Hp Hq. unfold left_to, mp_thr. unfold m_g in Hp. rewrite <- H3, <- H4.
    rewrite (proj2 (idle_none _ _) Hp), Hq. reflexivity.
  Qed.

  Lemma mstep_exact c m s s2 q : minv su m s s2 -> mshows m q -> paced (cp_chunks (op_in (mp_o q))) (walk m) ->
    wp (mstep su c) m (goal q).
  Proof.
    intros Hi Hs Hp. change (wp (mstep_at su c m) m (goal q)).
    assert (Hno : wp (ret []) m (goal q)) by (apply wp_ret; apply stay; assumption).
    assert (Ht : g_tab (m_g m) = mp_tab q) by apply Hs. assert (Ho : o_tab (m_o m) = op_tab (mp_o q)) by apply Hs.
    assert (Hon : m_on m = mp_on q) by apply Hs. assert (Hpo : m_post m = mp_post q) by apply Hs.
    assert (Hco : m_count m = mp_count q) by apply Hs.
    pose proof (fun t => free_ready t m q Hs) as Hf.
    assert (Hun : forall h, unseen h q = hidden h m) by (intros h; unfold unseen, hidden; rewrite Hpo; reflexivity).
    assert (Hlk : leaks dbg q = leak_check su m) by (unfold leaks, leak_check; rewrite Hco; reflexivity).
    destruct c as [t l z|t h|t h n|t h off cl|t|t sp|t v|t|a| |]; cbn [mstep_at].
    - destruct (ready t m && layout_okb l && (1 <=? l_size l)) eqn:Er; [|exact Hno].
      destruct (m_on m) eqn:Eo.
      + apply (enter_exact' (GAlloc t l z) t _ _ m s s2 q Hi Hs Hp). cbn [mp_step]. rewrite Hf, Er, <- Hon. reflexivity.
      + apply (direct_exact (GAlloc t l z) _ m s s2 q Hi Hs Hp). cbn [mp_step]. rewrite Hf, Er, <- Hon. reflexivity.
    - destruct (ready t m) eqn:Er; [|exact Hno]. destruct (m_on m) eqn:Eo.
      + destruct (get h (g_tab (m_g m))) as [u|] eqn:G; [|exact Hno]. destruct (hidden h m) eqn:Hh; [exact Hno|].
        apply (enter_exact' (GDealloc t h) t _ _ m s s2 q Hi Hs Hp). cbn [mp_step]. rewrite Hf, Er, <- Hon, <- Ht, G, Hun, Hh. reflexivity.
      + destruct (get h (o_tab (m_o m))) as [u|] eqn:G; [|exact Hno].
        apply (direct_exact (GDealloc t h) _ m s s2 q Hi Hs Hp). cbn [mp_step]. rewrite Hf, Er, <- Hon, <- Ho, G. reflexivity.
    - destruct (ready t m && (1 <=? n)) eqn:Er; [|exact Hno]. destruct (m_on m) eqn:Eo.
      + destruct (get h (g_tab (m_g m))) as [u|] eqn:G; [|exact Hno]. cbv zeta. destruct (hidden h m || _) eqn:Hh; [exact Hno|].
        apply (enter_exact' (GRealloc t h n) t _ _ m s s2 q Hi Hs Hp). cbn [mp_step].
        rewrite Hf, Er, <- Hon, <- Ht, G, Hun. cbv zeta. rewrite Hh. reflexivity.
      + destruct (get h (o_tab (m_o m))) as [u|] eqn:G; [|exact Hno]. destruct (n =? l_size (u_layout u)) eqn:En; [|exact Hno].
        apply (direct_exact (GRealloc t h n) _ m s s2 q Hi Hs Hp). cbn [mp_step]. rewrite Hf, Er, <- Hon, <- Ho, G, En. reflexivity.
    - destruct (ready t m && negb (hidden h m)) eqn:Er; [|exact Hno].
      apply (enter_exact' (GWrite t h off cl) t _ _ m s s2 q Hi Hs Hp). cbn [mp_step]. rewrite Hf, Hun, Er. reflexivity.
    - destruct (ready t m) eqn:Er; [|exact Hno]. destruct (leak_check su m) eqn:El.
      + apply wp_ret. apply (one (GCheck t) _ _ q); [|exact Hs|exact Hp]. cbn [mp_step]. rewrite Hf, Er, Hlk. reflexivity.
      + apply wp_bind. unfold wp, put_post, ret. apply (one (GCheck t) _ _ (with_post t PReset q)); [| |exact Hp].
        * cbn [mp_step]. rewrite Hf, Er, Hlk. reflexivity.
        * destruct Hs as (X1 & X2 & X3 & X4). split; [exact X1|]. split; [exact X2|]. split; [cbn; rewrite X3; reflexivity|exact X4].
    - destruct (nth_error (m_post m) t) as [p|] eqn:Hq; [|exact Hno].
      apply (thread_exact t (Go t sp) _ p m s s2 q Hi Hs Hp); [|reflexivity|exact Hq]. intros mv H. exact H.
    - destruct (nth_error (m_post m) t) as [p|] eqn:Hq; [|exact Hno].
      apply (thread_exact t (Stale t v) _ p m s s2 q Hi Hs Hp); [|reflexivity|exact Hq]. intros mv H. exact H.
    - destruct (nth_error (g_thr (m_g m)) t) as [p|] eqn:Ep; [|exact Hno]. destruct p; try exact Hno.
      destruct (nth_error (m_post m) t) as [p|] eqn:Hq; [|exact Hno]. pose proof (left_at t m q p Hs Ep Hq) as Hl.
      destruct p; try exact Hno.
      + destruct (get h (g_tab (m_g m))) as [u|] eqn:G; [|exact Hno].
        apply (enter_exact' (GZero t) t _ _ m s s2 q Hi Hs Hp). cbn [mp_step]. rewrite Hl, <- Ht, G. reflexivity.
      + apply wp_bind. unfold wp, add_count. unfold bind, put_post, ret.
        apply (one (GUp t) _ _ (with_post t PNone (with_count dbg 1 q))); [cbn [mp_step]; rewrite Hl; reflexivity| |exact Hp].
        destruct Hs as (X1 & X2 & X3 & X4). split; [exact X1|]. split; [cbn; rewrite X2; reflexivity|]. split; [cbn; rewrite X3; reflexivity|exact X4].
      + apply wp_bind. unfold wp, add_count. unfold bind, put_post, ret.
        apply (one (GDown t) _ _ (with_post t PNone (with_count dbg (-1) q))); [cbn [mp_step]; rewrite Hl; reflexivity| |exact Hp].
        destruct Hs as (X1 & X2 & X3 & X4). split; [exact X1|]. split; [cbn; rewrite X2; reflexivity|]. split; [cbn; rewrite X3; reflexivity|exact X4].
      + destruct (existsb is_pending (m_post m)) eqn:Hn; [exact Hno|].
        apply wp_bind. eapply wp_mono; [apply (inside_exact (Start t (OpReset true)) m s s2 q Hi Hs Hp)|].
        intros es m' (E1 & E2 & E3 & E4 & [(-> & Hs' & Hp')|(mv' & q' & Hm & Ei & Hs' & Epp & Eo & Hp')]).
        * apply wp_ret. apply stay; assumption.
        * cbn [moves_of] in Hm. subst mv'. destruct es as [|e es].
          { exfalso. unfold inner in Ei. destruct (cstp (MCall t (OpReset true)) (op_in (mp_o q))) as [[es2 q2]|] eqn:Ec; [|discriminate Ei].
            injection Ei as -> _. exact (call_loud t _ _ _ Ec). }
          apply wp_bind. unfold wp, put_lost. unfold bind, put_post, ret. apply (one (GReset t) _ _ (with_post t PNone q')).
          -- cbn [mp_step]. rewrite Hl, <- Hpo, Hn. unfold calls_it. rewrite Ei. reflexivity.
          -- destruct Hs' as (X1 & X2 & X3 & X4). split; [exact X1|]. split; [exact X2|]. split; [cbn; rewrite X3; reflexivity|exact X4].
          -- exact Hp'.
    - apply (direct_exact (GElse a) _ m s s2 q Hi Hs Hp). reflexivity.
    - destruct (all_ready m) eqn:Er; [|exact Hno]. apply wp_bind. unfold wp, put_on, ret.
      apply (one GBlink _ _ (with_on true q)); [cbn [mp_step]; rewrite (all_free_ready m q Hs), Er; reflexivity| |exact Hp].
      destruct Hs as (X1 & X2 & X3 & X4). split; [reflexivity|]. split; [exact X2|]. split; [exact X3|exact X4].
    - destruct (all_ready m) eqn:Er; [|exact Hno]. destruct (leak_check su m) eqn:El.
      + apply wp_ret. apply (one GDirect _ _ q); [|exact Hs|exact Hp]. cbn [mp_step]. rewrite (all_free_ready m q Hs), Er, Hlk. reflexivity.
      + assert (Hsil : forall g' es, cstep su (Exclusive true) (m_g m) = ORet es g' -> es = [ResetAll true]).
        { intros g' es E. unfold cstep, bind, get_g in E. unfold all_ready in Er. apply andb_true_iff in Er. destruct Er as [Er1 _].
          rewrite Er1 in E. unfold on_aw, put_tab, ret in E. destruct (do_reset su true (g_aw (m_g m))) as [[] aw| | |]; try discriminate.
          injection E as <- _. reflexivity. }
        apply wp_bind. pose proof (inside_exact (Exclusive true) m s s2 q Hi Hs Hp) as H. apply wp_inv in H.
        destruct H as (es & m' & E & E1 & E2 & E3 & E4 & H). unfold wp at 1. rewrite E.
        assert (Ee : es = [ResetAll true]).
        { unfold inside_step, on_o, lift_g in E. destruct (cstep su (Exclusive true) (o_g (m_o m))) as [es2 g'| | |] eqn:Ec; try discriminate E.
          injection E as <- _. apply (Hsil g' es2 Ec). }
        destruct H as [(Hx & _)|(mv' & q' & Hm & Ei & Hs' & Epp & Eo & Hp')]; [rewrite Ee in Hx; discriminate Hx|].
        cbn [moves_of] in Hm. subst mv'. unfold bind, put_lost, put_on, ret.
        change (onward q (ours es) (mkMst false (m_count m') (m_post m') (m_o m') (m_lost m' + nlive (g_tab (m_g m))))).
        apply (one GDirect _ _ (with_on false q')).
        * cbn [mp_step]. rewrite (all_free_ready m q Hs), Er, Hlk, Ei. reflexivity.
        * destruct Hs' as (X1 & X2 & X3 & X4). split; [reflexivity|]. split; [exact X2|]. split; [exact X3|exact X4].
        * exact Hp'.
  Qed.

  Lemma mpr_app ms1 : forall ms2 q es1 q1 es2 q2, mpr ms1 q = Some (es1, q1) -> mpr ms2 q1 = Some (es2, q2) ->
    mpr (ms1 ++ ms2) q = Some (es1 ++ es2, q2).
  Proof.
    induction ms1 as [|m ms1 IH]; intros ms2 q es1 q1 es2 q2 E1 E2; cbn [app mp_run] in *.
    - injection E1 as <- <-. exact E2.
    - destruct (mstp m q) as [[e1 qa]|]; [|discriminate E1]. destruct (mpr ms1 qa) as [[e2 qb]|] eqn:E; [|discriminate E1].
      injection E1 as <- <-. rewrite (IH _ _ _ _ _ _ E E2), app_assoc. reflexivity.
  Qed.

  Lemma mrun_exact sched : forall m s s2 q es m', minv su m s s2 -> mshows m q -> paced (cp_chunks (op_in (mp_o q))) (walk m) ->
    mrun su sched m = ORet es m' ->
    exists ms q', mpr ms q = Some (es, q') /\ (length ms <= length sched)%nat /\ mshows m' q'.
  Proof.
    induction sched as [|c sched IH]; intros m s s2 q es m' Hi Hs Hpa E; cbn [mrun] in E.
    - injection E as <- <-. exists [], q. split; [reflexivity|]. split; [cbn; lia|exact Hs].
    - pose proof (wp_conj _ _ _ _ (mstep_ok su Hok c m s s2 Hi) (mstep_exact c m s s2 q Hi Hs Hpa)) as H. apply wp_inv in H.
      destruct H as (es1 & m1 & E1 & Hi1 & ms1 & q1 & Em1 & L1 & Hs1 & Hpa1). unfold bind in E. rewrite E1 in E.
      destruct (mrun su sched m1) as [es2 m2| | |] eqn:E2; try discriminate E. injection E as <- <-.
      destruct (IH m1 _ _ q1 es2 m2 Hi1 Hs1 Hpa1 E2) as (ms2 & q2 & Em2 & L2 & Hs2).
      exists (ms1 ++ ms2), q2. split; [apply (mpr_app _ _ _ _ _ _ _ Em1 Em2)|]. split; [rewrite app_length; cbn [length]; lia|exact Hs2].
  Qed.

  Lemma global_threads_exact n sched es m : mrun su sched (mstart su n) = ORet es m ->
    exists ms q, mpr ms (mp0 n) = Some (es, q) /\ (length ms <= length sched)%nat /\ mshows m q.
  Proof.
    intros E. destruct (ostart_shows su n) as [H1 H2].
    apply (mrun_exact sched (mstart su n) [] [] (mp0 n) es m (mstart_inv su Hok n)); [|exact H2|exact E].
    do 3 (split; [reflexivity|]). exact H1.
  Qed.
End Facts.
