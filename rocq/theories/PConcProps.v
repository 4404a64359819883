(** What the clients of a shared allocator and of its proxies can rely on while any number
    of threads use them. *)
From Coq Require Import Permutation.
From Verif Require Import Base BaseFacts Alloc AllocFacts Arena ArenaFacts ArenaInv ArenaOps
  BlinkAlloc BlinkFacts History HistoryFacts Frame Proxy ProxyFacts ProxyProps Setup SetupFacts SetupOps SetupProps Concrete
  Conc ConcFacts ConcSteps ConcProps ConcDrain ConcDemo ConcShape GConcFacts PConc PConcAsk PConcFacts.

(** Block [h] of the shared allocator that the clients allocated themselves, or block [h]
    of proxy [k]. *)
Definition rowns (s : rst) (who : option nat) (h : nat) (u : ublock) : Prop :=
  match who with
  | None => get h (g_tab (r_g s)) = Some u /\ ~ In h (r_chunk s)
  | Some k => exists p, get k (r_prox s) = Some p /\ get h (px_tab p) = Some u
  end.
(** What is held from the underlying allocator. *)
Definition rheld (s : rst) : list ublock := cheld (r_g s).

Lemma prefix_of {T} (a1 a2 b1 b2 : list T) : a1 ++ a2 = b1 ++ b2 -> (length a1 <= length b1)%nat -> exists z, b1 = a1 ++ z.
Proof.
  revert b1. induction a1 as [|x a1 IH]; intros b1 E L; [exists b1; reflexivity|]. destruct b1 as [|y b1]; [cbn in L; lia|].
  cbn in *. injection E as -> E. destruct (IH b1 E ltac:(lia)) as (z & ->). exists z. reflexivity.
Qed.

Section Props.
  Variable su : setup.
  Variable psmax nmax : Z.
  Hypothesis Hok : proxies_ok su psmax nmax.
  Notation amax := (su_amax su).
  Notation Hsu := (psu su psmax nmax Hok).
  Definition rreached n sched es s := rrun su psmax nmax sched (rstart su n) = ORet es s.

  Lemma rreached_inv n sched es s : rreached n sched es s ->
    rinv su psmax nmax s (sevs (shared_events es) []) (proxies_spec es) /\ Forall (mild_ev su) es.
  Proof.
    intros E. pose proof (rrun_ok su psmax nmax Hok sched _ _ _ (rstart_inv su psmax nmax Hok n)) as H. unfold wp in H.
    unfold rreached in E. rewrite E in H. destruct H as [H M]. split; [|exact M]. unfold proxies_spec.
    rewrite <- (pevs_spec es (mkSp [] [])). exact H.
  Qed.
  Lemma rrun_returns n sched : exists es s, rrun su psmax nmax sched (rstart su n) = ORet es s.
  Proof.
    pose proof (rrun_ok su psmax nmax Hok sched _ _ _ (rstart_inv su psmax nmax Hok n)) as H. apply wp_inv in H.
    destruct H as (es & s & E & _). eauto.
  Qed.

  Lemma shared_block g s h u : cinv su g s -> get h (g_tab g) = Some u ->
    0 < u_ptr u /\ u_ptr u mod l_align (u_layout u) = 0 /\ l_size (u_layout u) <= u_len u /\ u_ptr u + u_len u <= amax /\
    exists k, In k (cheld g) /\ inside u k.
  Proof.
    intros (cs & R & Hh & _) G.
    assert (Hin : In u (live (g_tab g) ++ flat_map hold (g_thr g))).
    { apply in_or_app. left. apply live_in. eauto. }
    pose proof (ar_ok _ _ _ _ _ _ _ _ R) as Ho. rewrite Forall_forall in Ho.
    destruct (Ho u Hin) as ((G1 & G2 & G3 & G4) & _). unfold ublk in *. cbn in G1, G2, G3, G4.
    split; [exact G1|]. split; [exact G2|]. split; [exact G3|]. split; [exact G4|].
    pose proof (ar_placed _ _ _ _ _ _ _ _ R) as P. unfold placed in P. rewrite Forall_forall in P.
    destruct (P u Hin) as (c & Hc & P1 & P2).
    destruct (arep_chunk_ok _ _ _ _ (su_ct su Hsu) _ _ _ _ _ c R Hc) as ((_ & _ & W1) & _).
    exists (c_u c). split; [unfold cheld; rewrite <- Hh; apply in_map; exact Hc|].
    unfold inside, HEADER, c_base, c_end, c_ptr, HDR in *. lia.
  Qed.

  (** A block of a proxy lies in a block of the shared allocator, behind a header. *)
  Lemma proxy_block P hs s sd b k h u : rinvx su psmax nmax P hs s sd b -> rowns s (Some k) h u ->
    exists h' v, In h' hs /\ get h' (g_tab (r_g s)) = Some v /\ u_ok amax u /\
      u_ptr v + HEADER <= u_ptr u /\ u_ptr u + u_len u <= u_ptr v + u_len v /\
      forall k2 h2 u2, rowns s (Some k2) h2 u2 ->
        (k, h) <> (k2, h2) -> disjoint_u u u2 \/ exists h2' v2, In h2' hs /\ get h2' (g_tab (r_g s)) = Some v2 /\ h2' <> h' /\
          u_ptr v2 <= u_ptr u2 /\ u_ptr u2 + u_len u2 <= u_ptr v2 + u_len v2.
  Proof.
    intros I (p & G & Gh). pose proof (ri_each _ _ _ _ _ _ _ _ I) as E. pose proof (ri_hs _ _ _ _ _ _ _ _ I) as Eh.
    assert (Hpos : forall k h u, rowns s (Some k) h u -> exists P1 cs P2 c h1 hc h2 h', P = P1 ++ cs :: P2 /\ length P1 = k /\ In c cs /\
      hs = h1 ++ hc ++ h2 /\ length h1 = length (allc P1) /\ length hc = length cs /\ In h' hc /\
      get h' (g_tab (r_g s)) = Some (c_u c) /\ u_ok amax u /\ u_ptr (c_u c) + HEADER <= u_ptr u /\ u_ptr u + u_len u <= u_ptr (c_u c) + u_len (c_u c)).
    { clear k h u p G Gh. intros k h u (p & G & Gh).
      destruct (each_at _ _ _ _ _ _ _ _ E G) as (P1 & cs & P2 & l1 & l2 & S1 & t & S2 & -> & _ & _ & L1 & _ & X1 & _ & L & _).
      assert (Hu : In u (live (px_tab p))) by (apply live_in; eauto).
      pose proof (lr_placed _ _ _ _ _ _ L) as Pl. unfold placed in Pl. rewrite Forall_forall in Pl. destruct (Pl u Hu) as (c & Hc & Q1 & Q2).
      pose proof (lr_ok _ _ _ _ _ _ L) as Ok. rewrite Forall_forall in Ok. specialize (Ok u Hu).
      pose proof (chain_cwf _ _ _ (lr_chain _ _ _ _ _ _ L) Hc) as (_ & _ & W1).
      rewrite allc_app, allc_cons, !map_app in Eh.
      destruct (map_eq_app _ _ _ _ Eh) as (h1 & hr & -> & E1 & E'). destruct (map_eq_app _ _ _ _ E') as (hc & h2 & -> & E2 & E3).
      assert (X : In (Some (c_u c)) (map (fun h => get h (g_tab (r_g s))) hc)) by (rewrite E2; apply in_map, in_map; exact Hc).
      apply in_map_iff in X. destruct X as (h' & Gh' & Hh').
      exists P1, cs, P2, c, h1, hc, h2, h'. split; [reflexivity|]. split; [rewrite (proj1 (each_len _ _ _ _ _ _ X1)); exact L1|].
      split; [exact Hc|]. split; [reflexivity|].
      split; [apply (f_equal (@length _)) in E1; rewrite !map_length in E1; exact E1|].
      split; [apply (f_equal (@length _)) in E2; rewrite !map_length in E2; exact E2|].
      split; [exact Hh'|]. split; [exact Gh'|]. split; [exact Ok|]. unfold HEADER, c_base, c_end, c_ptr, HDR in *. lia. }
    destruct (Hpos k h u (ex_intro _ p (conj G Gh))) as (P1 & cs & P2 & c & h1 & hc & h2 & h' & EP & Lk & Hc & Ehs & Lh1 & Lhc & Hh' & Gh' & Ok & B1 & B2).
    exists h', (c_u c). split; [rewrite Ehs; apply in_or_app; right; apply in_or_app; left; exact Hh'|]. split; [exact Gh'|]. split; [exact Ok|].
    split; [exact B1|]. split; [exact B2|].
    intros k2 h3 u2 O2 N. destruct (Nat.eq_dec k k2) as [<-|Nk].
    - left. destruct O2 as (p2 & G2 & Gh2). assert (p2 = p) as -> by congruence.
      destruct (each_at _ _ _ _ _ _ _ _ E G) as (Q1 & ds & Q2 & l1 & l2 & S1 & t & S2 & _ & _ & _ & _ & _ & _ & _ & L & _).
      apply (get_pairwise disjoint_u disjoint_u_sym (px_tab p) h h3 u u2); auto; congruence || apply (lr_disj _ _ _ _ _ _ L).
    - right. destruct (Hpos k2 h3 u2 O2) as (P1' & cs' & P2' & c' & h1' & hc' & h2' & h4 & EP' & Lk' & Hc' & Ehs' & Lh1' & Lhc' & Hh4 & Gh4 & Ok' & B1' & B2').
      exists h4, (c_u c'). split; [rewrite Ehs'; apply in_or_app; right; apply in_or_app; left; exact Hh4|]. split; [exact Gh4|].
      split; [|unfold HEADER in B1'; lia].
      intros ->. pose proof (nodup_left _ _ (ri_nodup _ _ _ _ _ _ _ _ I)) as Nd.
      assert (Hsplit : forall (A1 : list (list chunk)) a A2 B1 b' B2 a1 ha a2 b1 hb b2, P = A1 ++ a :: A2 -> P = B1 ++ b' :: B2 -> (length A1 < length B1)%nat ->
        hs = a1 ++ ha ++ a2 -> hs = b1 ++ hb ++ b2 -> length a1 = length (allc A1) -> length b1 = length (allc B1) -> length ha = length a ->
        In h' ha -> In h' hb -> False).
      { clear -Nd. intros A1 a A2 B1 b' B2 a1 ha a2 b1 hb b2 EA EB Hlt Ea Eb La Lb Lha Ha Hb.
        assert (Hlen : (length (a1 ++ ha) <= length b1)%nat).
        { rewrite app_length, La, Lb, Lha. 
          destruct (prefix_of (A1 ++ [a]) A2 B1 (b' :: B2)) as (z & ->).
          { rewrite <- app_assoc. cbn [app]. congruence. }
          { rewrite app_length. cbn. lia. }
          rewrite <- app_assoc. cbn [app]. rewrite allc_app, allc_cons, !app_length, map_length. lia. }
        destruct (prefix_of (a1 ++ ha) a2 b1 (hb ++ b2)) as (z & Ez); [rewrite <- app_assoc; congruence|exact Hlen|].
        assert (Hb1 : In h' b1) by (rewrite Ez; apply in_or_app; left; apply in_or_app; auto).
        rewrite Eb in Nd. apply in_split in Hb. destruct Hb as (x1 & x2 & ->).
        replace (b1 ++ (x1 ++ h' :: x2) ++ b2) with ((b1 ++ x1) ++ h' :: (x2 ++ b2)) in Nd by (rewrite <- !app_assoc; reflexivity).
        apply NoDup_remove_2 in Nd. apply Nd. apply in_or_app. left. apply in_or_app. auto. }
      destruct (Nat.lt_total k k2) as [Hl|[Hl|Hl]]; [|contradiction|].
      + apply (Hsplit P1 cs P2 P1' cs' P2' h1 hc h2 h1' hc' h2'); auto; lia.
      + apply (Hsplit P1' cs' P2' P1 cs P2 h1' hc' h2' h1 hc h2); auto; lia.
  Qed.

  Lemma rreached_block n sched es s who h u : rreached n sched es s -> rowns s who h u ->
    0 < u_ptr u /\ u_ptr u mod l_align (u_layout u) = 0 /\ l_size (u_layout u) <= u_len u /\ u_ptr u + u_len u <= amax /\
    exists k, In k (rheld s) /\ inside u k.
  Proof.
    intros E O. destruct (rreached_inv _ _ _ _ E) as [(P & hs & I) _]. pose proof (ri_c _ _ _ _ _ _ _ _ I) as Hc. destruct who as [k|].
    - destruct (proxy_block _ _ _ _ _ _ _ _ I O) as (h' & v & _ & Gv & Ok & B1 & B2 & _).
      destruct Ok as ((G1 & G2 & G3 & G4) & _). unfold ublk in *. cbn in G1, G2, G3, G4.
      split; [exact G1|]. split; [exact G2|]. split; [exact G3|]. split; [exact G4|].
      destruct (shared_block _ _ _ _ Hc Gv) as (_ & _ & _ & _ & kk & Hk & Hi). exists kk. split; [exact Hk|].
      unfold inside, HEADER in *. lia.
    - apply (shared_block _ _ h u Hc). apply O.
  Qed.

  Lemma rreached_disjoint n sched es s who1 h1 u1 who2 h2 u2 : rreached n sched es s ->
    rowns s who1 h1 u1 -> rowns s who2 h2 u2 -> (who1, h1) <> (who2, h2) -> disjoint_u u1 u2.
  Proof.
    intros E O1 O2 N. destruct (rreached_inv _ _ _ _ E) as [(P & hs & I) _]. pose proof (ri_c _ _ _ _ _ _ _ _ I) as Hc.
    assert (Hmix : forall k h h' u u', rowns s (Some k) h u -> rowns s None h' u' -> disjoint_u u u').
    { intros k h h' u u' O O'. destruct (proxy_block _ _ _ _ _ _ _ _ I O) as (h3 & v & Hi & Gv & Ok & B1 & B2 & _).
      destruct O' as [G' Nc]. assert (Nh : h3 <> h').
      { intros <-. apply Nc. apply (ri_incl _ _ _ _ _ _ _ _ I). apply in_or_app. auto. }
      pose proof (cinv_disj su _ _ _ _ _ _ Hc Nh Gv G') as D. intros x Hx Hx'. apply (D x); [|exact Hx']. unfold in_u, HEADER in *. lia. }
    destruct who1 as [k1|], who2 as [k2|].
    - destruct (proxy_block _ _ _ _ _ _ _ _ I O1) as (h3 & v & Hi & Gv & Ok & B1 & B2 & H).
      destruct (H k2 h2 u2 O2) as [D|(h4 & v2 & _ & Gv2 & Nh & C1 & C2)]; [congruence|exact D|].
      pose proof (cinv_disj su _ _ _ _ _ _ Hc Nh Gv2 Gv) as D. intros x Hx Hx'. apply (D x); unfold in_u, HEADER in *; lia.
    - apply (Hmix k1 h1 h2); assumption.
    - apply disjoint_u_sym. apply (Hmix k2 h2 h1); assumption.
    - apply (cinv_disj su _ _ h1 h2 u1 u2 Hc); [congruence|apply O1|apply O2].
  Qed.

  Lemma rreached_shared n sched es s : rreached n sched es s ->
    agrees (gmem (r_g s)) (g_tab (r_g s))
      (srun (lin_ops (shared_events es)) (map (option_map b_len) (lin_results (shared_events es))) []).
  Proof.
    intros E. destruct (rreached_inv _ _ _ _ E) as [(P & hs & I) _]. destruct (ri_c _ _ _ _ _ _ _ _ I) as (cs & _ & _ & _ & Ha & _).
    rewrite <- sevs_run. exact Ha.
  Qed.
  Lemma rreached_proxy n sched es s k p : rreached n sched es s -> get k (r_prox s) = Some p ->
    exists t, get k (proxies_spec es) = Some t /\ agrees (gmem (r_g s)) (px_tab p) t.
  Proof.
    intros E G. destruct (rreached_inv _ _ _ _ E) as [(P & hs & I) _].
    destruct (each_at _ _ _ _ _ _ _ _ (ri_each _ _ _ _ _ _ _ _ I) G) as (P1 & cs & P2 & l1 & l2 & S1 & t & S2 & _ & _ & -> & _ & L2 & _ & _ & _ & Ag).
    exists t. split; [|exact Ag]. rewrite <- L2. apply get_mid.
  Qed.
  Lemma rreached_legal n sched es s : rreached n sched es s -> legal (su_bmax su) (bw_trace (snd (g_aw (r_g s)))).
  Proof.
    intros E. destruct (rreached_inv _ _ _ _ E) as [(P & hs & I) _]. destruct (ri_c _ _ _ _ _ _ _ _ I) as (cs & R & _). apply (ar_own _ _ _ _ _ _ _ _ R).
  Qed.
  Lemma rreached_panic n sched es s o : rreached n sched es s -> In (RP o PPanicked) es ->
    su_dbg su = true /\ exists k l z, o = PUse (Some k) (OpAlloc l z) /\ l_size l = 0 /\ l_align l <= 8.
  Proof.
    intros E Hi. destruct (rreached_inv _ _ _ _ E) as [_ M]. rewrite Forall_forall in M. specialize (M _ Hi). cbn in M.
    destruct o as [|k|k|n0|[k|] o]; try (destruct (M eq_refl)). unfold mild in M. destruct (M eq_refl) as (Hd & l & z & -> & X1 & X2).
    split; [exact Hd|]. exists k, l, z. auto.
  Qed.

  (** With no proxy left and no thread in a call, [reset_final] returns every byte. *)
  Lemma rreached_reclaimed n sched es s : rreached n sched es s -> forallb is_none (r_prox s) = true ->
    forallb is_idle (g_thr (r_g s)) = true ->
    exists s', rstep su psmax nmax (RExclusive false) s = ORet [RO (ResetAll false)] s' /\ rheld s' = [].
  Proof.
    intros E Hn Hi. destruct (rreached_inv _ _ _ _ E) as [(P & hs & I) _]. destruct s as [mx prox ch jobs [tab thr lk [ar w]]].
    cbn [r_prox r_g g_thr] in *. destruct (ri_c _ _ _ _ _ _ _ _ I) as (cs & R & _). cbn [r_g g_aw fst snd g_tab g_thr] in R.
    pose proof (reset_final_ok su Hsu cs ar w _ R) as Hr. apply wp_inv in Hr. destruct Hr as ([] & aw' & Er & _ & Ho & _).
    unfold rstep. cbn [rstep_at r_prox]. rewrite Hn. unfold bind, on_g. cbn [r_g]. unfold cstep, bind, get_g. cbn [g_thr]. rewrite Hi.
    unfold on_aw. cbn [g_aw g_tab g_thr g_lock]. rewrite Er. unfold put_tab, ret. eexists. split; [reflexivity|]. exact Ho.
  Qed.

  (** A block that a client allocates from the shared allocator itself is not a proxy's. *)
  Lemma rreached_direct n sched es s t sp es' s' l b : rreached n sched es s -> nth_error (r_job s) t = Some RNone ->
    rstep su psmax nmax (RGo t sp) s = ORet es' s' -> In (RO (Lin t (OpAlloc l false) (Some b))) es' ->
    rowns s' None (length (g_tab (r_g s))) (mkU (b_ptr b) (b_len b) l).
  Proof.
    intros E Hq Es Hi. destruct (rreached_inv _ _ _ _ E) as [(P & hs & I) _].
    destruct (rthread _ _ _ _ _ _ _ _ _ _ I Hq) as (p & Hp).
    pose proof (cinv_unlock su _ _ t p (ri_c _ _ _ _ _ _ _ _ I) Hp) as Hun.
    unfold rstep in Es. cbn [rstep_at] in Es. unfold thread_step in Es. rewrite Hq in Es. unfold bind, on_g in Es.
    destruct (cstep su (Go t sp) (r_g s)) as [es1 g1| | |] eqn:Ec; try discriminate.
    unfold put_job, put_chunk, ret in Es. cbn [r_max r_prox r_chunk r_job r_g fst snd] in Es. inversion Es; subst es' s'. clear Es.
    unfold cstep, bind, get_g in Ec. rewrite Hp in Ec. pose proof (go_shape su t p sp (r_g s) Hp Hun _ _ Ec) as Sh.
    apply in_map_iff in Hi. destruct Hi as (e & X & Hi). injection X as ->.
    destruct Sh as [p' _ _ Q _ _ _|j r pre wr _ E2 Ej Q -> _|wr h' _ _ _ ->].
    - destruct Q as [-> | ->]; [destruct Hi|destruct Hi as [X|[]]; discriminate].
    - apply in_app_or in Hi. destruct Hi as [Hi|Hi]; [destruct Q as [-> | ->]; [destruct Hi|destruct Hi as [X|[]]; discriminate]|].
      destruct Hi as [X|[]]. injection X as Ejo ->. destruct j; cbn in Ejo; try discriminate. injection Ejo as ->.
      rewrite (rafter_lin _ _ _ _ _ _ Q). cbn [rowns r_g r_chunk rafter1 snd]. rewrite E2. cbn [fin_tab]. split; [apply get_mid|].
      intros Hc. destruct (ri_blank _ _ _ _ _ _ _ _ I _ Hc). lia.
    - destruct Hi as [X|[]]; discriminate.
  Qed.

  (** ** Every call can be finished *)

  Definition rgo (c : choice) : rchoice := match c with Go t sp => RGo t sp | _ => RUpdate (-1) end.
  Lemma rgo_run sched : Forall is_go sched -> forall s sd b es g', rinv su psmax nmax s sd b -> crun su sched (r_g s) = ORet es g' ->
    exists es' s', rrun su psmax nmax (map rgo sched) s = ORet es' s' /\ r_g s' = g'.
  Proof.
    induction 1 as [|c sched Hc _ IH]; intros s sd b es g' Hi E.
    - inversion E; subst. exists [], s. split; reflexivity.
    - destruct c as [t o|t sp|t v|keep]; try (cbn in Hc; contradiction). cbn [crun] in E. unfold bind in E.
      destruct (cstep su (Go t sp) (r_g s)) as [e1 g1| | |] eqn:E1; try discriminate.
      destruct (crun su sched g1) as [e2 g2| | |] eqn:E2; try discriminate. inversion E; subst.
      pose proof (rstep_ok su psmax nmax Hok (RGo t sp) s sd b Hi) as W. apply wp_inv in W. destruct W as (es1 & s1 & Es & Hi1 & _).
      assert (Eg : r_g s1 = g1).
      { unfold rstep in Es. cbn [rstep_at] in Es. unfold thread_step in Es. destruct (nth_error (r_job s) t) as [q|] eqn:Hq.
        - unfold bind, on_g in Es. rewrite E1 in Es. unfold put_job, put_chunk, ret in Es. inversion Es; subst. reflexivity.
        - destruct Hi as (P & hs & I). inversion Es; subst. unfold cstep, bind, get_g in E1.
          destruct (nth_error (g_thr (r_g s1)) t) eqn:Hp; [|inversion E1; reflexivity].
          apply nth_error_None in Hq. rewrite (ri_len _ _ _ _ _ _ _ _ I) in Hq. apply nth_error_None in Hq. congruence. }
      subst g1. destruct (IH s1 _ _ _ _ Hi1 E2) as (es2 & s2 & Er & Eg2).
      exists (es1 ++ es2), s2. split; [|exact Eg2]. cbn [map rgo rrun]. unfold bind. rewrite Es, Er. reflexivity.
  Qed.

  Lemma next_run ts : forall s sd b, rinv su psmax nmax s sd b -> (forall t p, nth_error (g_thr (r_g s)) t = Some p -> p = Idle) ->
    exists es s', rrun su psmax nmax (map RNext ts) s = ORet es s' /\ g_thr (r_g s') = g_thr (r_g s) /\ length (r_job s') = length (r_job s) /\
      forall t q, nth_error (r_job s') t = Some q -> q = RNone \/ ~ In t ts /\ nth_error (r_job s) t = Some q.
  Proof.
    induction ts as [|t ts IH]; intros s sd b Hi Hid.
    - exists [], s. split; [reflexivity|]. split; [reflexivity|]. split; [reflexivity|]. intros t q Hq. right. auto.
    - pose proof (rstep_ok su psmax nmax Hok (RNext t) s sd b Hi) as W. apply wp_inv in W. destruct W as (es1 & s1 & Es & Hi1 & _).
      assert (H1 : g_thr (r_g s1) = g_thr (r_g s) /\ length (r_job s1) = length (r_job s) /\
        forall t' q, nth_error (r_job s1) t' = Some q -> q = RNone \/ t' <> t /\ nth_error (r_job s) t' = Some q).
      { pose proof Es as Es0. unfold rstep in Es. cbn [rstep_at] in Es.
        assert (Hsk : ret [] s = ORet es1 s1 -> (forall q, nth_error (r_job s) t = Some q -> q = RNone) -> g_thr (r_g s1) = g_thr (r_g s) /\ length (r_job s1) = length (r_job s) /\
          forall t' q, nth_error (r_job s1) t' = Some q -> q = RNone \/ t' <> t /\ nth_error (r_job s) t' = Some q).
        { intros X Hn. inversion X; subst. split; [reflexivity|]. split; [reflexivity|]. intros t' q Hq.
          destruct (Nat.eq_dec t' t) as [->|N]; [left; apply (Hn q Hq)|right; auto]. }
        destruct Hi as (P & hs & I).
        destruct (nth_error (g_thr (r_g s)) t) as [p|] eqn:Hp.
        2:{ apply Hsk; [exact Es|]. intros q Hq. destruct (rthread _ _ _ _ _ _ _ _ _ _ I Hq). congruence. }
        rewrite (Hid t p Hp) in Es.
        destruct (nth_error (r_job s) t) as [[|k o l|k o l h]|] eqn:Hq; try (apply Hsk; [exact Es|intros q X; congruence]).
        - pose proof (ri_fit _ _ _ _ _ _ _ _ I t _ _ Hp Hq) as F. cbn in F. rewrite (Hid t p Hp) in F. destruct F; discriminate.
        - clear Hsk. destruct (get k (r_prox s)) as [pr|]; [|discriminate]. cbv zeta in Es.
          destruct (asked_of _) as [l'|]; [|discriminate]. destruct (layout_eqb l' l); [|discriminate].
          unfold bind, put_job, settle, put_mem, put_prox, ret in Es. destruct s as [mx prox ch jobs g]. cbn [r_job r_g] in *.
          assert (Hend : exists m' pr', s1 = mkR mx pr' ch (set_nth t RNone jobs) (set_gmem su g m')).
          { destruct (run_op _ _ _ _ _ _) as [r c|c| |]; try discriminate; inversion Es; subst; eexists; eexists; reflexivity. }
          destruct Hend as (m' & pr' & ->). cbn [r_g set_gmem g_thr r_job]. split; [reflexivity|]. split; [apply set_nth_length|].
          intros t' q X. destruct (Nat.eq_dec t t') as [<-|N].
          + rewrite (nth_set_same _ _ _ _ Hq) in X. left. congruence.
          + rewrite nth_set_other in X by exact N. right. auto. }
      destruct H1 as (T1 & L1 & J1).
      destruct (IH s1 _ _ Hi1) as (es2 & s2 & Er & T2 & L2 & J2); [rewrite T1; exact Hid|].
      exists (es1 ++ es2), s2. split; [cbn [map rrun]; unfold bind; rewrite Es, Er; reflexivity|]. split; [congruence|]. split; [congruence|].
      intros t' q Hq. destruct (J2 t' q Hq) as [->|[N2 Hq1]]; [left; reflexivity|]. destruct (J1 t' q Hq1) as [->|[N1 Hq2]]; [left; reflexivity|].
      right. split; [|exact Hq2]. intros [<-|X]; auto.
  Qed.

  Lemma rrun_app c1 c2 s : rrun su psmax nmax (c1 ++ c2) s =
    match rrun su psmax nmax c1 s with
    | ORet es1 s1 => match rrun su psmax nmax c2 s1 with ORet es2 s2 => ORet (es1 ++ es2) s2 | OPanic x => OPanic x | OAbort => OAbort | OUB => OUB end
    | OPanic x => OPanic x | OAbort => OAbort | OUB => OUB
    end.
  Proof.
    revert s. induction c1 as [|c c1 IH]; intros s; cbn [app rrun].
    - unfold ret. destruct (rrun su psmax nmax c2 s); reflexivity.
    - unfold bind, ret. destruct (rstep su psmax nmax c s) as [e s1|x| |]; auto. rewrite IH.
      destruct (rrun su psmax nmax c1 s1) as [e1 s2|x| |]; auto. destruct (rrun su psmax nmax c2 s2); auto. rewrite app_assoc. reflexivity.
  Qed.

  Definition all_done (s : rst) : Prop := forall t, (t < length (g_thr (r_g s)))%nat -> rready t s = true.
  Lemma rreached_drain n sched es s : rreached n sched es s ->
    exists sched2 es2 s2, Forall (fun c => (exists t, c = RGo t false) \/ exists t, c = RNext t) sched2 /\
      rrun su psmax nmax sched2 s = ORet es2 s2 /\ all_done s2.
  Proof.
    intros E. destruct (rreached_inv _ _ _ _ E) as [Hi _]. pose proof Hi as (P & hs & I).
    destruct (cinv_drain su Hsu _ _ (ri_c _ _ _ _ _ _ _ _ I)) as (d & e & g' & F & Ed & Hid).
    destruct (rgo_run d F s _ _ e g' Hi Ed) as (e1 & s1 & E1 & Eg).
    assert (Hi1 : exists sd b, rinv su psmax nmax s1 sd b).
    { pose proof (rrun_ok su psmax nmax Hok (map rgo d) s _ _ Hi) as W. unfold wp in W. rewrite E1 in W. destruct W as [W _]. eauto. }
    destruct Hi1 as (sd & b & Hi1).
    destruct (next_run (seq 0 (length (r_job s1))) s1 sd b Hi1) as (e2 & s2 & E2 & T2 & L2 & J2); [rewrite Eg; exact Hid|].
    exists (map rgo d ++ map RNext (seq 0 (length (r_job s1)))), (e1 ++ e2), s2. split; [|split].
    - apply Forall_app. split.
      + apply Forall_map. eapply Forall_impl; [|exact F]. intros c Hc. destruct c as [|t sp| |]; try (cbn in Hc; contradiction). left. exists t. cbn. cbn in Hc.
        destruct sp; [contradiction|reflexivity].
      + apply Forall_map. rewrite Forall_forall. intros t _. right. exists t. reflexivity.
    - rewrite rrun_app, E1, E2. reflexivity.
    - intros t Ht. unfold rready. rewrite T2 in *. destruct Hi1 as (P1 & hs1 & I1).
      destruct (nth_error (g_thr (r_g s1)) t) as [p|] eqn:Hp; [|apply nth_error_None in Hp; lia].
      rewrite Eg in Hp. rewrite (Hid t p Hp).
      destruct (nth_error (r_job s2) t) as [q|] eqn:Hq.
      + destruct (J2 t q Hq) as [->|[N _]]; [reflexivity|]. destruct N. apply in_seq. rewrite (ri_len _ _ _ _ _ _ _ _ I1). lia.
      + apply nth_error_None in Hq. rewrite L2, (ri_len _ _ _ _ _ _ _ _ I1) in Hq. lia.
  Qed.
End Props.
