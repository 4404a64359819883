(** Threads that use a shared allocator and its proxies do what PConcPaper.v says (C92). *)
From Coq Require Import Permutation.
From Verif Require Import Base BaseFacts Alloc AllocFacts Arena ArenaFacts ArenaInv ArenaOps BlinkAlloc BlinkFacts
  History HistoryFacts Setup SetupFacts SetupOps Frame Conc ConcFacts ConcSteps ConcProps ConcShape GConcFacts
  Paper PaperFacts ConcPaper ConcPaperFacts GConcPaper Proxy ProxyFacts ProxyProps ProxyPaper ProxyPaperUse ProxyPaperFacts
  GConcPaperFacts PConc PConcAsk PConcFacts PConcPaper.

(** ** The proxies on paper *)
Definition sketch1 (cs : list chunk) (p : option proxy) : option pproxy :=
  option_map (fun p => mkPP (ar_min (px_arena p)) (bumps cs) (px_tab p)) p.
Fixpoint sketch (P : list (list chunk)) (l : list (option proxy)) : list (option pproxy) :=
  match P, l with
  | cs :: P', p :: l' => sketch1 cs p :: sketch P' l'
  | _, _ => []
  end.
Lemma sketch_app P1 : forall l1 P2 l2, length P1 = length l1 -> sketch (P1 ++ P2) (l1 ++ l2) = sketch P1 l1 ++ sketch P2 l2.
Proof. induction P1 as [|c P1 IH]; intros [|p l1] P2 l2 H; try discriminate; [reflexivity|]. cbn in *. rewrite IH by lia. reflexivity. Qed.
Lemma sketch_len P : forall l, length P = length l -> length (sketch P l) = length l.
Proof. induction P as [|c P IH]; intros [|p l] H; try discriminate; [reflexivity|]. cbn in *. rewrite IH by lia. reflexivity. Qed.
Lemma sketch_none P : forall l, length P = length l -> forallb is_none (sketch P l) = forallb is_none l.
Proof. induction P as [|c P IH]; intros [|p l] H; try discriminate; [reflexivity|]. cbn in *. rewrite IH by lia. destruct p; reflexivity. Qed.

Lemma sketch_drawn amax nmax m P l S : each amax nmax m P l S -> above_zero (allc P) -> Forall2 (drawn m) l (sketch P l).
Proof.
  induction 1 as [|cs p t P l S Ho E IH]; intros Hz; [constructor|]. rewrite allc_cons in Hz. apply Forall_app in Hz. destruct Hz as [Z1 Z2].
  cbn [sketch]. constructor; [|apply IH, Z2]. destruct p as [p|]; [|exact I]. destruct t as [t|]; [|destruct Ho]. destruct Ho as [L _].
  cbn [sketch1 option_map drawn pp_min pp_tab pp_chunks]. split; [reflexivity|]. split; [reflexivity|].
  rewrite (lr_head _ _ _ _ _ _ L). apply headed_chain; [apply L|exact Z1].
Qed.
Lemma drawn_sketch amax nmax m P l S : each amax nmax m P l S -> above_zero (allc P) -> forall ql, Forall2 (drawn m) l ql -> ql = sketch P l.
Proof.
  induction 1 as [|cs p t P l S Ho E IH]; intros Hz ql D; inversion D as [|? q ? ql' D1 D2]; subst; [reflexivity|].
  rewrite allc_cons in Hz. apply Forall_app in Hz. destruct Hz as [Z1 Z2].
  cbn [sketch]. f_equal; [|apply IH; assumption]. destruct p as [p|], q as [q|]; try destruct D1; [|reflexivity].
  destruct t as [t|]; [|destruct Ho]. destruct Ho as [L _]. cbn [sketch1 option_map]. f_equal.
  apply (drawn_is amax nmax m cs p _ q L Z1). split; assumption.
Qed.

Section Facts.
  Variable su : setup.
  Variable psmax nmax : Z.
  Hypothesis Hok : proxies_ok su psmax nmax.
  Notation amax := (su_amax su).
  Notation dbg := (su_dbg su).
  Notation Hsu := (psu su psmax nmax Hok).
  Notation Hamax := (pamax su psmax nmax Hok).
  Notation rinvP := (rinvP su psmax nmax).
  Notation rstp := (rp_step (su_dbg su) (su_min su) (su_smax su) psmax nmax (su_strat su)).
  Notation rpr := (rp_run (su_dbg su) (su_min su) (su_smax su) psmax nmax (su_strat su)).
  Notation cstp := (cp_step (su_min su) (su_smax su) (su_strat su)).
  Notation cpr := (cp_run (su_min su) (su_smax su) (su_strat su)).
  Notation tries := (pp_try (su_dbg su) psmax).

  (** ** One operation of a proxy *)
  Definition sees (d : dw) : desk := (d_ans d, d_asked d).

  Lemma deputy_answers d l r d' : al_allocate deputy l d = ORet r d' -> reply l (sees d) = (r, sees d').
  Proof.
    cbn [deputy al_allocate]. unfold reply, sees. cbn [fst]. destruct (d_ans d) as [[l' r']|].
    - destruct (layout_eqb l l'); intros E; injection E as <- <-; reflexivity.
    - intros E; injection E as <- <-; reflexivity.
  Qed.

  Lemma deputy_takes d p l d' : al_deallocate deputy p l d = ORet tt d' -> sees d' = sees d.
  Proof. intros E. injection E as <-. reflexivity. Qed.

  Lemma try_exact o p ans m cs K t : is_reset o = false -> lrep amax nmax cs (px_arena p) m (live (px_tab p)) -> agrees m (px_tab p) t ->
    Forall (u_ok amax) K -> pairwise disjoint_u K -> Permutation (map c_u cs ++ avail (mkD m ans None)) K ->
    let out := run_op su psmax o p ans m in
    exists c', over out c' /\
      forall cs' us, lrep amax nmax cs' (fst (c_w c')) (d_mem (snd (c_w c'))) us -> above_zero (map c_u cs') ->
        tries o (mkPP (ar_min (px_arena p)) (bumps cs) (px_tab p)) ans = (res_of out, mkPP (ar_min (fst (c_w c'))) (bumps cs') (c_tab c'), asked_of out).
  Proof.
    intros Hr L At Ku Kd Kp out. pose proof (deputy_ok amax (su_smax su) K m Ku Kd) as Hct.
    assert (R : arep amax deputy (dep K m) [] cs (px_arena p) (mkD m ans None) (live (px_tab p))) by (apply (lrep_dep su psmax nmax Hok); assumption).
    assert (Hlax : cfg_lax dbg amax psmax (ar_min (px_arena p)) (su_smax su)).
    { pose proof (lr_min _ _ _ _ _ _ L). apply (cfg_of amax (su_smax su) psmax nmax dbg (pcfg su psmax nmax Hok)); lia. }
    pose proof (use_exact amax (su_smax su) psmax deputy (dep K m) Hct Hamax dbg reply (fun _ _ x => x) sees (fun w m => eq_refl)
      (fun w us l r w' _ _ E => deputy_answers w l r w' E)
      (fun w us u l w' _ _ E => deputy_takes w (u_ptr u) l w' E)
      o (mkCst (px_tab p) (px_arena p, mkD m ans None)) cs _ R Hlax eq_refl) as H.
    cbv zeta in H. cbn [c_w c_tab fst snd] in H.
    change (step psmax (blink deputy dbg) (fun _ => blink_reset deputy) o (mkCst (px_tab p) (px_arena p, mkD m ans None))) with out in H.
    assert (Hz : forall cs0 ar0 d0 us0, arep amax deputy (dep K m) [] cs0 ar0 d0 us0 -> above_zero (map c_u cs0)).
    { intros cs0 ar0 d0 us0 R0. destruct (ar_own _ _ _ _ _ _ _ _ R0) as [(lost & Pl) _]. apply (above_own _ amax).
      rewrite app_nil_r in Pl. apply (Permutation_Forall (Permutation_sym Pl)) in Ku. apply Forall_app in Ku. tauto. }
    unfold pp_try. change (ans, @None Layout) with (sees (mkD m ans None)).
    destruct out as [r c|c| |] eqn:Eo; try contradiction.
    - exists c. split; [left; eauto|]. intros cs' us L' Z'. destruct H as (cs2 & R2 & Hm & E). rewrite E.
      cbn [res_of asked_of sees snd]. rewrite Hm. do 2 f_equal. f_equal.
      apply (headed_unique (d_mem (snd (c_w c))) _ (ar_root (fst (c_w c)))).
      + rewrite (ar_head _ _ _ _ _ _ _ _ R2). apply headed_chain; [apply (ar_chain _ _ _ _ _ _ _ _ R2)|apply (Hz _ _ _ _ R2)].
      + rewrite (lr_head _ _ _ _ _ _ L'). apply headed_chain; [apply L'|exact Z'].
    - exists c. split; [right; reflexivity|]. intros cs' us L' Z'. destruct H as (-> & E1 & E2 & _ & E). rewrite E. cbn [res_of asked_of sees snd].
      rewrite E1, E2. do 2 f_equal. f_equal.
      pose proof (lr_head _ _ _ _ _ _ L') as X. rewrite E2, (lr_head _ _ _ _ _ _ L) in X. destruct cs'; [reflexivity|discriminate X].
  Qed.

  (** ** The state *)
  Definition stands (s : rst) (q : rpaper) : Prop :=
    exists P sd b, rinvP P s sd b /\ r_max s = rp_max q /\ r_chunk s = rp_chunk q /\ r_job s = rp_job q /\ cshows (r_g s) (rp_in q) /\
      paced (cp_chunks (rp_in q)) (g_thr (r_g s)) /\ rp_prox q = sketch P (r_prox s).

  Lemma above_all P s sd b : rinvP P s sd b -> above_zero (allc P).
  Proof.
    intros (hs & I0). apply (above_own _ amax). apply (blocks_ok su (r_g s) sd hs (allc P)).
    - apply I0.
    - apply (nodup_left _ (flat_map pendh (r_job s))). apply I0.
    - apply I0.
  Qed.
  Lemma stands_shows s q : stands s q -> rshows s q.
  Proof.
    intros (P & sd & b & I0 & H1 & H2 & H3 & H4 & _ & H5). do 4 (split; [assumption|]). rewrite H5.
    pose proof (above_all _ _ _ _ I0) as Z. destruct I0 as (hs & I0). apply (sketch_drawn amax nmax _ _ _ _ (ri_each _ _ _ _ _ _ _ _ I0) Z).
  Qed.

  Lemma each_lens P hs s sd b : rinvx su psmax nmax P hs s sd b -> length P = length (r_prox s).
  Proof. intros I0. apply (each_len _ _ _ _ _ _ (ri_each _ _ _ _ _ _ _ _ I0)). Qed.

  Lemma write_shows g sd m' q : cinv su g sd -> cshows g q ->
    (forall x, (forall u, In u (live (g_tab g)) -> ~ in_u x u) -> m' x = gmem g x) -> cshows (set_gmem su g m') q.
  Proof.
    intros (cs & C) Hs Hm. pose proof (page_eq su Hsu cs g sd q C Hs) as ->. pose proof C as (R & _).
    destruct (arep_write_us amax (su_bmax su) (bot su) _ (su_ct su Hsu) _ _ _ _ _ m' R) as [R' _].
    { intros x Hx. apply Hm. intros u Hu. apply Hx, in_or_app. left. exact Hu. }
    split; [|split; [reflexivity|split; reflexivity]]. apply (arep_headed su Hsu [] _ _ _ _ R').
  Qed.

  (** ** Steps *)
  (** The moves a step can make. *)
  Definition makes (c : rchoice) (m : rmove) : Prop :=
    match c with
    | RStart t o => m = NCall t o
    | RGo t _ | RStale t _ => exists x, m = NInside t x
    | RExclusive keep => m = NReset keep
    | RLocal v => m = NLocal v
    | RUse t k o => m = NUse t k o
    | RNext t => m = NNext t
    | RReset k => m = NReuse k
    | RDrop k => m = NDrop k
    | RUpdate n => m = NUpdate n
    end.
  Definition forth (c : rchoice) (q : rpaper) (es : list revent) (s' : rst) : Prop :=
    exists ms q', rpr ms q = Some (es, q') /\ (length ms <= 1)%nat /\ Forall (makes c) ms /\ stands s' q'.
  Lemma forth_none c s q : stands s q -> forth c q [] s.
  Proof. intros H. exists [], q. split; [reflexivity|]. split; [cbn; lia|]. split; [constructor|exact H]. Qed.
  Lemma forth_stay c s q : stands s q -> wp (ret []) s (forth c q).
  Proof. intros H. apply wp_ret. apply forth_none. exact H. Qed.
  Lemma forth_one c m q es q' s' : makes c m -> rstp m q = Some (es, q') -> stands s' q' -> forth c q es s'.
  Proof.
    intros K E H. exists [m], q'. split; [cbn; rewrite E, app_nil_r; reflexivity|]. split; [cbn; lia|]. split; [constructor; [exact K|constructor]|exact H].
  Qed.

  (** A step of the shared allocator. *)
  Lemma shared_exact c g sd q : cinv su g sd -> cshows g q -> paced (cp_chunks q) (g_thr g) ->
    exists es g', cstep su c g = ORet es g' /\ cinv su g' (sevs es sd) /\
      ((es = [] /\ cshows g' q /\ paced (cp_chunks q) (g_thr g')) \/
       exists m q', moves_of c m /\ cstp m q = Some (es, q') /\ cshows g' q' /\ paced (cp_chunks q') (g_thr g')).
  Proof.
    intros Hi Hs Hp. pose proof (wp_conj _ _ _ _ (cstep_ok su Hsu g sd c Hi) (step_exact su Hsu g sd c q Hi Hs Hp)) as H.
    apply wp_inv in H. destruct H as (es & g' & E & Hi' & ms & q' & Er & Hf & L & Hs' & Hp'). exists es, g'. split; [exact E|]. split; [exact Hi'|].
    destruct ms as [|m [|m2 ms]]; [| |cbn in L; lia].
    - left. injection Er as <- <-. auto.
    - right. cbn [cp_run] in Er. destruct (cstp m q) as [[e1 q1]|] eqn:Ec; [|discriminate Er]. injection Er as <- <-.
      rewrite app_nil_r. exists m, q1. split; [exact (Forall_inv Hf)|]. auto.
  Qed.

  Lemma thread_exact t c rc s q : stands s q -> (exists sp, c = Go t sp) \/ (exists v, c = Stale t v) -> (forall x, makes rc (NInside t x)) ->
    wp (thread_step su t c s) s (forth rc q).
  Proof.
    intros H0 Hch Hrc. pose proof H0 as (P & sd & b & (hs & I0) & H1 & H2 & H3 & H4 & H5 & H6).
    pose proof (thread_okP su psmax nmax Hok t c P hs s sd b I0 Hch) as Hpost. apply wp_inv in Hpost.
    destruct Hpost as (rs & s' & E & Hinv & _). unfold wp. rewrite E.
    unfold thread_step in E. destruct (nth_error (r_job s) t) as [j|] eqn:Hj.
    2:{ injection E as <- <-. apply (forth_none rc s q H0). }
    destruct (shared_exact c (r_g s) sd (rp_in q) (ri_c _ _ _ _ _ _ _ _ I0) H4 H5) as (es & g' & Ec & Hc' & Hmv).
    unfold bind, on_g, put_job, put_chunk, ret in E. rewrite Ec in E. cbn [r_max r_prox r_chunk r_job r_g] in E. injection E as <- <-.
    destruct Hmv as [(-> & Hs' & Hp')|(m & q1 & Hm & Em & Hs' & Hp')].
    - apply forth_none.
      exists P, (sevs (shared_events (map RO [])) sd), (pevs (map RO []) b). split; [exact Hinv|]. cbn [r_max r_prox r_chunk r_job r_g rafter fold_left fst snd].
      rewrite (ConcFacts.set_nth_same _ _ _ Hj). repeat (split; [assumption|]). exact H6.
    - apply (forth_one rc (NInside t m) q _ (with_chunk (snd (rafter (length (g_tab (r_g s))) es (j, r_chunk s)))
        (with_job t (fst (rafter (length (g_tab (r_g s))) es (j, r_chunk s))) (with_in q1 q)))).
      + apply Hrc.
      + cbn [rp_step]. assert (Hmv : mover m = Some t) by (apply by_thread_mover; destruct Hch as [[sp ->]|[v ->]]; exact Hm).
        rewrite Hmv, <- H3, Hj, Nat.eqb_refl. unfold below. rewrite Em. destruct H4 as (_ & Et & _). rewrite <- Et, <- H2. reflexivity.
      + exists P, (sevs (shared_events (map RO es)) sd), (pevs (map RO es) b). split; [exact Hinv|].
        cbn [with_chunk with_job with_in rp_max rp_prox rp_chunk rp_job rp_in r_max r_prox r_chunk r_job r_g]. rewrite H3.
        repeat (split; [assumption || reflexivity|]). exact H6.
  Qed.

  Lemma ready_same t s q : stands s q -> rp_ready t q = rready t s.
  Proof.
    intros (P & sd & b & _ & _ & _ & H3 & (_ & _ & _ & H4) & _). unfold rp_ready, rready. rewrite <- H3, <- H4.
    rewrite nth_error_map. destruct (nth_error (g_thr (r_g s)) t) as [p|]; [|reflexivity]. cbn [option_map].
    destruct p; try reflexivity. destruct next; reflexivity.
  Qed.

  Lemma all_live (tab : list (option ublock)) hl us : map (fun h => get h tab) hl = map Some us -> forall u, In u us -> In u (live tab).
  Proof.
    intros E u Hu. assert (X : In (Some u) (map (fun h => get h tab) hl)) by (rewrite E; apply in_map; exact Hu).
    apply in_map_iff in X. destruct X as (h & Eh & _). apply live_in. eauto.
  Qed.

  (** A proxy on its own memory. *)
  Lemma own_stands P1 cs P2 l1 p l2 cs' p' mx' ch jobs' g m' sd b' qi ql U :
    cinv su g sd -> cshows g qi -> paced (cp_chunks qi) (g_thr g) -> length P1 = length l1 ->
    ql = sketch (P1 ++ cs :: P2) (l1 ++ Some p :: l2) ->
    rinvP (P1 ++ cs' :: P2) (mkR mx' (l1 ++ p' :: l2) ch jobs' (set_gmem su g m')) sd b' ->
    (forall x, (forall u, In u U -> ~ in_u x u) -> m' x = gmem g x) -> (forall u, In u U -> In u (live (g_tab g))) ->
    stands (mkR mx' (l1 ++ p' :: l2) ch jobs' (set_gmem su g m')) (mkRP mx' (set_nth (length l1) (sketch1 cs' p') ql) ch jobs' qi).
  Proof.
    intros Hc Hs Hp Hl -> Hinv Hm Hu. exists (P1 ++ cs' :: P2), sd, b'. split; [exact Hinv|].
    cbn [rp_max rp_prox rp_chunk rp_job rp_in r_max r_prox r_chunk r_job r_g]. do 3 (split; [reflexivity|]). split; [|split].
    - apply (write_shows g sd m' qi Hc Hs). intros x Hx. apply Hm. intros u Hi. apply Hx, Hu, Hi.
    - exact Hp.
    - rewrite !sketch_app by exact Hl. cbn [sketch]. rewrite <- (sketch_len P1 l1 Hl), set_nth_split. reflexivity.
  Qed.
  Lemma sketch_at P1 cs P2 l1 p l2 : length P1 = length l1 -> get (length l1) (sketch (P1 ++ cs :: P2) (l1 ++ Some p :: l2)) =
    Some (mkPP (ar_min (px_arena p)) (bumps cs) (px_tab p)).
  Proof. intros Hl. rewrite sketch_app by exact Hl. cbn [sketch]. rewrite <- (sketch_len P1 l1 Hl). apply get_mid. Qed.

  (** What [settle] makes of an operation of a proxy. *)
  Lemma settled_at k o out c' mx l1 l2 ch jobs g p : over out c' -> length l1 = k ->
    settle su k o out (mkR mx (l1 ++ Some p :: l2) ch jobs g) =
    ORet [RP (PUse (Some k) o) (res_of out)]
      (mkR mx (l1 ++ Some (mkProxy (fst (c_w c')) (c_tab c')) :: l2) ch jobs (set_gmem su g (d_mem (snd (c_w c'))))).
  Proof.
    intros [[r ->]| ->] <-; unfold settle, bind, put_mem, put_prox, ret; cbn [r_max r_prox r_chunk r_job r_g]; rewrite set_nth_split; reflexivity.
  Qed.
  Lemma over_same out c1 c2 : over out c1 -> over out c2 -> c1 = c2.
  Proof. intros [[r1 ->]| ->] [[r2 E]|E]; congruence. Qed.


  Lemma chunks_above P1 cs P2 s sd b : rinvP (P1 ++ cs :: P2) s sd b -> above_zero (map c_u cs).
  Proof. intros H. apply above_all in H. rewrite allc_app, allc_cons in H. apply Forall_app in H. destruct H as [_ H]. apply Forall_app in H. tauto. Qed.

  Lemma leave_exact keep k s q : stands s q -> wp (leave_step su keep k s) s (forth (if keep then RReset k else RDrop k) q).
  Proof.
    intros H0. pose proof H0 as (P & sd & b & (hs & I0) & H1 & H2 & H3 & H4 & H5 & H6). unfold leave_step.
    destruct (get k (r_prox s)) as [p|] eqn:G; [|apply forth_stay; exact H0].
    destruct (in_call k s) eqn:Ec; [apply forth_stay; exact H0|].
    destruct s as [mx prox ch jobs g]. unfold in_call in Ec. cbn [r_prox r_g r_max r_job r_chunk] in *.
    destruct (own_step su psmax nmax Hok _ _ _ _ _ _ _ _ _ _ _ I0 G) as (P1 & cs & P2 & l1 & l2 & S1 & t & S2 & h1 & hc & h2 & Hnd & -> & -> & -> & L0 & L1 & L2 & Ecs & L & Ag & -> & Ehc & Hown).
    destruct (blocks_ok su g sd hc (map c_u cs) (ri_c _ _ _ _ _ _ _ _ I0) (nodup_left _ _ Hnd) Ehc) as [Ku Kd].
    destruct (leave_ok su psmax nmax Hok keep p (gmem g) cs t _ L Ag Ku Kd eq_refl) as (n & aw & cs' & lost & E & (En & Ecs' & Emin) & Hn & Hm & Hp & Hl).
    rewrite E. unfold wp, bind, put_mem, put_prox, put_max, ret. cbn [r_max r_prox r_chunk r_job r_g].
    rewrite <- L1, set_nth_split, ?L1.
    pose proof (ri_max _ _ _ _ _ _ _ _ I0) as Hmx. cbn [r_max] in Hmx.
    assert (Hj : forall t0 q0, nth_error jobs t0 = Some q0 -> works_on k q0 = false /\
      (q0 = RNone /\ (forall p0, nth_error (g_thr g) t0 = Some p0 -> p0 = Idle) \/ nth_error jobs t0 = Some q0)).
    { intros t0 q0 Hq. split; [|right; exact Hq]. destruct (works_on k q0) eqn:Ew; [|reflexivity].
      assert (existsb (works_on k) jobs = true); [|congruence].
      apply existsb_exists. exists q0. split; [apply (nth_error_In _ _ Hq)|exact Ew]. }
    assert (H : forall p' t', ProxyFacts.one amax nmax (d_mem (snd aw)) cs' p' t' ->
      stands (mkR (Z.max mx n) (l1 ++ p' :: l2) ch jobs (set_gmem su g (d_mem (snd aw)))) (mkRP (Z.max mx n) (set_nth (length l1) (sketch1 cs' p') (rp_prox q)) ch jobs (rp_in q))).
    { intros p' t' Ho. apply (own_stands P1 cs P2 l1 p l2 cs' p' _ _ _ g _ sd (S1 ++ t' :: S2) (rp_in q) (rp_prox q) (map c_u cs)); auto.
      - apply (ri_c _ _ _ _ _ _ _ _ I0).
      - lia.
      - apply (Hown [] [] (d_mem (snd aw)) cs' lost p' t' (Z.max mx n) jobs); auto; try lia.
        + intros x Hx. apply Hm. rewrite app_nil_r in Hx. exact Hx.
        + rewrite app_nil_r. exact Hp.
      - apply (all_live _ _ _ Ehc). }
    assert (Gq : get k (rp_prox q) = Some (mkPP (ar_min (px_arena p)) (bumps cs) (px_tab p))) by (rewrite H6, <- L1; apply sketch_at; lia).
    assert (Bq : rp_busy k q = false) by (unfold rp_busy; rewrite <- H3; exact Ec).
    assert (Er : p_room (bumps cs) = n) by (rewrite p_room_last; congruence).
    destruct keep.
    - eapply (forth_one _ (NReuse k)).
      + reflexivity.
      + cbn [rp_step]. rewrite Gq, Bq. reflexivity.
      + unfold with_prox, with_max. cbn [pp_chunks pp_min pp_tab rp_max rp_prox rp_chunk rp_job rp_in]. rewrite Er, <- H1, <- H2, <- H3.
        replace (Some (mkPP (ar_min (px_arena p)) (newest (bumps cs)) (map (fun _ => None) (px_tab p))))
          with (sketch1 cs' (Some (mkProxy (fst aw) (map (fun _ => None) (px_tab p))))).
        * rewrite <- L1. apply (H _ (Some (map (fun _ => None) t))). cbn [ProxyFacts.one px_arena px_tab].
          assert (El : live (map (fun _ : option ublock => @None ublock) (px_tab p)) = []) by (clear; induction (px_tab p); auto).
          rewrite El. split; [exact Hl|]. apply (agrees_none (gmem g)). exact Ag.
        * cbn [sketch1 option_map px_arena px_tab]. rewrite (Emin eq_refl), Ecs'. destruct cs; reflexivity.
    - eapply (forth_one _ (NDrop k)).
      + reflexivity.
      + cbn [rp_step]. rewrite Gq, Bq. reflexivity.
      + unfold with_prox, with_max. cbn [pp_chunks rp_max rp_prox rp_chunk rp_job rp_in]. rewrite Er, <- H1, <- H2, <- H3, <- L1.
        change (@None pproxy) with (sketch1 cs' None). apply (H None None). exact Hl.
  Qed.

  (** A step of the shared allocator that does not concern the proxies. *)
  Lemma apart_stands P mx prox ch jobs g' sd' b q qi' : rinvP P (mkR mx prox ch jobs g') sd' b ->
    mx = rp_max q -> ch = rp_chunk q -> rp_prox q = sketch P prox -> cshows g' qi' -> paced (cp_chunks qi') (g_thr g') ->
    forall jq, jobs = jq -> stands (mkR mx prox ch jobs g') (mkRP (rp_max q) (rp_prox q) (rp_chunk q) jq qi').
  Proof. intros I0 -> -> E Hs Hp jq ->. exists P, sd', b. split; [exact I0|]. cbn. auto 8. Qed.

  Lemma rstep_exact c s q : stands s q -> wp (rstep su psmax nmax c) s (forth c q).
  Proof.
    intros H0. unfold rstep.
    assert (Hskip : wp (ret []) s (forth c q)) by (apply forth_stay; exact H0).
    match goal with |- wp _ _ ?Q => change (wp (rstep_at su psmax nmax c s) s Q) end. unfold rstep_at.
    pose proof H0 as (P & sd & b & (hs & I0) & H1 & H2 & H3 & H4 & H5 & H6).
    assert (LP : length P = length (r_prox s)) by (apply (each_lens P hs s sd b I0)).
    assert (Hno : no_proxy q = forallb is_none (r_prox s)) by (unfold no_proxy; rewrite H6; apply sketch_none; exact LP).
    destruct c as [t o|t sp|t v|keep|v|t k o|t|k|k|n].
    - destruct (rready t s && _ && _) eqn:Er; [|exact Hskip]. pose proof Er as Er'.
      apply andb_true_iff in Er. destruct Er as [Er E3]. apply andb_true_iff in Er. destruct Er as [E1 E2]. apply ready_inv in E1. destruct E1 as [Hp Hq].
      destruct (shared_exact (Start t o) (r_g s) sd (rp_in q) (ri_c _ _ _ _ _ _ _ _ I0) H4 H5) as (es & g' & Ec & Hc' & Hmv).
      assert (Hinv : rinvP P (mkR (r_max s) (r_prox s) (r_chunk s) (r_job s) g') (sevs es sd) b).
      { destruct s as [mx prox ch jobs g]. cbn [r_g r_job r_chunk r_prox r_max] in *. destruct (is_reset o) eqn:Eo.
        - cbn [negb orb] in E3. destruct (start_begun su t o g es g' Ec) as [-> ->|j Hi Ej -> X1 X2|h off cl u Hi -> G _ _ _ _ _|Hi -> -> X1 X2].
          + exists hs. exact I0.
          + destruct j; cbn in Ej; subst o; discriminate.
          + discriminate.
          + exists hs. apply (wipe su psmax nmax P hs mx prox ch jobs g sd b g' _ I0 E3 Hc' X1 X2). reflexivity.
        - rewrite <- (ConcFacts.set_nth_same _ _ _ Hq). apply (start_ok su psmax nmax Hok t o P hs mx prox ch jobs g sd b es g' RNone I0); auto.
          intros h Eh Hi. rewrite Eh in E2. apply negb_true_iff in E2. assert (existsb (Nat.eqb h) ch = true); [|congruence].
          apply existsb_exists. exists h. split; [exact Hi|apply Nat.eqb_refl]. }
      unfold wp, bind, on_g, ret. rewrite Ec. destruct Hmv as [(-> & Hs' & Hp')|(m & q1 & Hm & Em & Hs' & Hp')].
      + apply forth_none. destruct q as [a1 a2 a3 a4 a5]. apply (apart_stands P _ _ _ _ _ _ _ (mkRP a1 a2 a3 a4 a5) a5 Hinv); auto.
      + cbn [moves_of] in Hm. subst m. apply (forth_one _ (NCall t o) q _ (with_in q1 q)); [reflexivity| |].
        * cbn [rp_step]. rewrite (ready_same t s q H0), Hno, <- H2, Er'. unfold below. rewrite Em. reflexivity.
        * apply (apart_stands P _ _ _ _ _ _ _ q q1 Hinv); auto.
    - apply (thread_exact t _ _ s q H0); [eauto|]. intros x. exists x. reflexivity.
    - apply (thread_exact t _ _ s q H0); [eauto|]. intros x. exists x. reflexivity.
    - destruct (forallb is_none (r_prox s)) eqn:En; [|exact Hskip].
      destruct (shared_exact (Exclusive keep) (r_g s) sd (rp_in q) (ri_c _ _ _ _ _ _ _ _ I0) H4 H5) as (es & g' & Ec & Hc' & Hmv).
      assert (Hinv : rinvP P (mkR (r_max s) (r_prox s) (r_chunk s) (r_job s) g') (sevs es sd) b).
      { destruct s as [mx prox ch jobs g]. cbn [r_g r_job r_chunk r_prox r_max] in *.
        destruct (exclusive_begun su keep g es g' Ec) as [[-> ->]|(-> & X1 & X2)]; exists hs; [exact I0|].
        apply (wipe su psmax nmax P hs mx prox ch jobs g sd b g' _ I0 En Hc' X1 X2). reflexivity. }
      unfold wp, bind, on_g, ret. rewrite Ec. destruct Hmv as [(-> & Hs' & Hp')|(m & q1 & Hm & Em & Hs' & Hp')].
      + apply forth_none. destruct q as [a1 a2 a3 a4 a5]. apply (apart_stands P _ _ _ _ _ _ _ (mkRP a1 a2 a3 a4 a5) a5 Hinv); auto.
      + cbn [moves_of] in Hm. subst m. apply (forth_one _ (NReset keep) q _ (with_in q1 q)); [reflexivity| |].
        * cbn [rp_step]. rewrite Hno. unfold below. rewrite Em. reflexivity.
        * apply (apart_stands P _ _ _ _ _ _ _ q q1 Hinv); auto.
    - destruct ((0 <=? v) && (v <=? r_max s)) eqn:Ev; [|exact Hskip].
      unfold wp, bind, put_prox, ret. cbn [r_max r_prox r_chunk r_job r_g].
      apply (forth_one _ (NLocal v) q _ (mkRP (rp_max q) (rp_prox q ++ [Some (mkPP v [] [])]) (rp_chunk q) (rp_job q) (rp_in q))); [reflexivity| |].
      + cbn [rp_step]. rewrite <- H1, Ev. reflexivity.
      + exists (P ++ [[]]), sd, (b ++ [Some []]). split; [|cbn [rp_max rp_prox rp_chunk rp_job rp_in r_max r_prox r_chunk r_job r_g]; repeat (split; [assumption|]);
          rewrite (sketch_app P _ [[]] _ LP), H6; reflexivity].
        apply (local_ok su psmax nmax v P hs s sd b I0 Ev).
    - destruct (get k (r_prox s)) as [p|] eqn:G; [|exact Hskip]. destruct (rready t s && _ && _) eqn:Er; [|exact Hskip]. pose proof Er as Er'.
      apply andb_true_iff in Er. destruct Er as [Er E3]. apply andb_true_iff in Er. destruct Er as [E1 E2]. apply ready_inv in E1. destruct E1 as [Hp Hq].
      apply negb_true_iff in E2, E3. clear Hskip.
      assert (Rq : rp_ready t q && negb (rp_busy k q) && negb (is_reset o) = true).
      { rewrite (ready_same t s q H0). unfold rp_busy. rewrite <- H3. exact Er'. }
      destruct s as [mx prox ch jobs g]. unfold in_call in E2. cbn [r_prox r_g r_max r_job r_chunk] in *.
      destruct (own_step su psmax nmax Hok _ _ _ _ _ _ _ _ _ _ _ I0 G) as (P1 & cs & P2 & l1 & l2 & S1 & ts & S2 & h1 & hc & h2 & Hnd & -> & -> & -> & L0 & L1 & L2 & Ecs & L & Ag & -> & Ehc & Hown).
      assert (Gq : get k (rp_prox q) = Some (mkPP (ar_min (px_arena p)) (bumps cs) (px_tab p))) by (rewrite H6, <- L1; apply sketch_at; lia).
      destruct (blocks_ok su g sd hc (map c_u cs) (ri_c _ _ _ _ _ _ _ _ I0) (nodup_left _ _ Hnd) Ehc) as [Ku Kd].
      assert (Kp : Permutation (map c_u cs ++ avail (mkD (gmem g) None None)) (map c_u cs)) by (cbn; rewrite app_nil_r; reflexivity).
      destruct (run_op_ok su psmax nmax Hok o p None (gmem g) cs ts (map c_u cs) E3 L Ag Ku Kd Kp) as (Ha & c' & cs' & lost & Hov & Hm & Hpm & L' & Ag' & Hmi).
      destruct (try_exact o p None (gmem g) cs (map c_u cs) ts E3 L Ag Ku Kd Kp) as (c2 & Hov2 & Ht). rewrite (over_same _ _ _ Hov2 Hov) in Ht. clear c2 Hov2.
      assert (Z' : above_zero (map c_u cs')).
      { apply (above_own _ amax). apply (Permutation_Forall (Permutation_sym Hpm)) in Ku. apply Forall_app in Ku. tauto. }
      specialize (Ht cs' _ L' Z'). rewrite Ha in *. destruct (want dbg psmax o (px_tab p) cs (ar_min (px_arena p))) as [l|] eqn:Hw.
      + destruct (shared_exact (Start t (OpAlloc l false)) g sd (rp_in q) (ri_c _ _ _ _ _ _ _ _ I0) H4 H5) as (es & g' & Ec & Hc' & Hmv).
        assert (Hne : es <> []).
        { pose proof (want_ok su psmax nmax Hok o p (gmem g) cs _ l L Ku Kd eq_refl Hw) as Hreq. pose proof Ec as E.
          unfold cstep, bind at 1, get_g in E. rewrite Hp in E. unfold begin, bind at 1, get_g in E.
          unfold req_ok in Hreq. rewrite Hreq in E. inversion E. discriminate. }
        destruct Hmv as [(-> & _)|(m & q1 & Hmm & Em & Hs' & Hp')]; [congruence|]. cbn [moves_of] in Hmm. subst m.
        unfold wp, bind, on_g. cbn [r_max r_prox r_chunk r_job r_g]. rewrite Ec. destruct es as [|e es]; [congruence|]. unfold put_job, ret. cbn [r_max r_prox r_chunk r_job r_g].
        apply (forth_one _ (NUse t k o) q _ (with_job t (RWait k o l) (with_in q1 q))); [reflexivity| |].
        * cbn [rp_step]. rewrite Gq, Rq, Ht. unfold below. rewrite Em. reflexivity.
        * refine (apart_stands _ _ _ _ _ _ _ _ q q1 _ _ _ _ _ _ (set_nth t (RWait k o l) (rp_job q)) _); try eassumption; [|rewrite H3; reflexivity].
          apply (start_ok su psmax nmax Hok t (OpAlloc l false) _ _ mx _ ch jobs g sd _ (e :: es) g' (RWait k o l) I0 Hp Hq); auto; [discriminate|].
          right. exists k, o, l. split; [reflexivity|]. split; [reflexivity|]. split; [exact Hne|]. split; [|exact E2].
          split; [exact E3|]. exists p. rewrite Ecs. auto.
      + unfold wp. rewrite (settled_at k o _ c' mx l1 l2 ch jobs g p Hov L1).
        apply (forth_one _ (NUse t k o) q _ (with_prox k (Some (mkPP (ar_min (fst (c_w c'))) (bumps cs') (c_tab c'))) q)); [reflexivity| |].
        * cbn [rp_step]. rewrite Gq, Rq, Ht. reflexivity.
        * unfold with_prox. rewrite <- H1, <- H2, <- H3, <- L1.
          refine (own_stands P1 cs P2 l1 p l2 cs' (Some (mkProxy (fst (c_w c')) (c_tab c'))) mx ch jobs g _ sd _ (rp_in q) (rp_prox q) (map c_u cs) _ _ _ _ _ _ Hm _); auto.
          -- apply (ri_c _ _ _ _ _ _ _ _ I0).
          -- lia.
          -- apply (Hown [] [] (d_mem (snd (c_w c'))) cs' lost _ (Some (spec_of o (res_of (run_op su psmax o p None (gmem g))) ts)) mx jobs); auto.
             ++ intros x Hx. apply Hm. rewrite app_nil_r in Hx. exact Hx.
             ++ rewrite app_nil_r. exact Hpm.
             ++ split; assumption.
             ++ apply (ri_max _ _ _ _ _ _ _ _ I0).
             ++ intros t0 q0 Hq0. split; [|right; exact Hq0]. destruct (works_on k q0) eqn:Ew; [|reflexivity].
                assert (existsb (works_on k) jobs = true); [|congruence]. apply existsb_exists. exists q0. split; [apply (nth_error_In _ _ Hq0)|exact Ew].
          -- apply (all_live _ _ _ Ehc).
    - destruct (nth_error (g_thr (r_g s)) t) as [[]|] eqn:Hp; try exact Hskip.
      destruct (nth_error (r_job s) t) as [[|k o l|k o l h]|] eqn:Hq; try exact Hskip. clear Hskip.
      pose proof (ri_fit _ _ _ _ _ _ _ _ I0 t _ _ Hp Hq) as F. cbn [rfit] in F. destruct F as (_ & _ & (E3 & p & G & Hw) & Hh).
      rewrite G. destruct s as [mx prox ch jobs g]. cbn [r_prox r_g r_max r_job r_chunk] in *.
      destruct (own_step su psmax nmax Hok _ _ _ _ _ _ _ _ _ _ _ I0 G) as (P1 & cs & P2 & l1 & l2 & S1 & ts & S2 & h1 & hc & h2 & Hnd & -> & -> & -> & L0 & L1 & L2 & Ecs & L & Ag & -> & Ehc & Hown).
      assert (Gq : get k (rp_prox q) = Some (mkPP (ar_min (px_arena p)) (bumps cs) (px_tab p))) by (rewrite H6, <- L1; apply sketch_at; lia).
      rewrite Ecs in Hw. set (bk := match h with Some h => option_map ublk (get h (g_tab g)) | None => None end).
      set (hx := pendh (RAns k o l h)).
      assert (Hx : exists ux, map (fun h => get h (g_tab g)) hx = map Some ux /\ avail (mkD (gmem g) (Some (l, bk)) None) = ux).
      { subst bk hx. destruct h as [h|]; [|exists []; auto]. destruct Hh as (u & Gu & El). exists [u]. cbn [pendh map]. rewrite Gu. split; [reflexivity|].
        cbn. subst l. destruct u; reflexivity. }
      destruct Hx as (ux & Ex & Eav).
      destruct (flat_set pendh jobs t _ Hq) as (rest & Pr).
      pose proof (Pr (RAns k o l h)) as Pq. rewrite (ConcFacts.set_nth_same _ _ _ Hq) in Pq. fold hx in Pq.
      pose proof (Pr RNone) as Pn. cbn [pendh app] in Pn.
      assert (Hnd2 : NoDup (hc ++ hx)).
      { apply (nodup_left _ rest). rewrite <- app_assoc. eapply Permutation_NoDup; [|exact Hnd]. apply Permutation_app_head. exact Pq. }
      assert (Ehx : map (fun h => get h (g_tab g)) (hc ++ hx) = map Some (map c_u cs ++ ux)) by (rewrite !map_app, Ehc, Ex; reflexivity).
      destruct (blocks_ok su g sd _ _ (ri_c _ _ _ _ _ _ _ _ I0) Hnd2 Ehx) as [Ku Kd].
      assert (Kp : Permutation (map c_u cs ++ avail (mkD (gmem g) (Some (l, bk)) None)) (map c_u cs ++ ux)) by (rewrite Eav; reflexivity).
      destruct (run_op_ok su psmax nmax Hok o p (Some (l, bk)) (gmem g) cs ts (map c_u cs ++ ux) E3 L Ag Ku Kd Kp) as (Ha & c' & cs' & lost & Hov & Hm & Hpm & L' & Ag' & Hmi).
      destruct (try_exact o p (Some (l, bk)) (gmem g) cs (map c_u cs ++ ux) ts E3 L Ag Ku Kd Kp) as (c2 & Hov2 & Ht). rewrite (over_same _ _ _ Hov2 Hov) in Ht. clear c2 Hov2.
      assert (Z' : above_zero (map c_u cs')).
      { apply (above_own _ amax). apply (Permutation_Forall (Permutation_sym Hpm)) in Ku. apply Forall_app in Ku. tauto. }
      specialize (Ht cs' _ L' Z').
      rewrite Ha, Hw. rewrite (proj2 (layout_eqb_eq l l) eq_refl).
      match goal with |- wp _ _ ?Q => change (wp (settle su k o (run_op su psmax o p (Some (l, bk)) (gmem g))) (mkR mx (l1 ++ Some p :: l2) ch (set_nth t RNone jobs) g) Q) end.
      unfold wp. rewrite (settled_at k o _ c' mx l1 l2 ch _ g p Hov L1).
      apply (forth_one _ (NNext t) q _ (with_prox k (Some (mkPP (ar_min (fst (c_w c'))) (bumps cs') (c_tab c'))) (with_job t RNone q))); [reflexivity| |].
      + cbn [rp_step]. destruct H4 as (_ & Et & _ & Ed). rewrite <- Ed, nth_error_map, Hp, <- H3, Hq, Gq, <- Et. cbn [option_map doing_of]. fold bk. rewrite Ht. reflexivity.
      + unfold with_prox, with_job. cbn [rp_max rp_prox rp_chunk rp_job rp_in]. rewrite <- H1, <- H2, <- H3, <- L1.
        refine (own_stands P1 cs P2 l1 p l2 cs' (Some (mkProxy (fst (c_w c')) (c_tab c'))) mx ch (set_nth t RNone jobs) g _ sd _ (rp_in q) (rp_prox q) (map c_u cs ++ ux) _ _ _ _ _ _ Hm _); auto.
        * apply (ri_c _ _ _ _ _ _ _ _ I0).
        * lia.
        * apply (Hown hx ux (d_mem (snd (c_w c'))) cs' lost _ (Some (spec_of o (res_of (run_op su psmax o p (Some (l, bk)) (gmem g))) ts)) mx (set_nth t RNone jobs)); auto.
          -- rewrite Pn. exact Pq.
          -- split; assumption.
          -- apply (ri_max _ _ _ _ _ _ _ _ I0).
          -- apply set_nth_length.
          -- intros t0 q0 Hq0. destruct (Nat.eq_dec t t0) as [<-|N].
             ++ rewrite (nth_set_same _ _ _ _ Hq) in Hq0. inversion Hq0; subst q0. split; [reflexivity|]. left. split; [reflexivity|]. intros p0 X. congruence.
             ++ rewrite nth_set_other in Hq0 by exact N. split; [|right; exact Hq0]. unfold works_on. destruct (job_proxy q0) as [k'|] eqn:Ek; [|reflexivity].
                destruct (Nat.eqb_spec k' k) as [->|]; [|reflexivity]. destruct N. apply (ri_one _ _ _ _ _ _ _ _ I0 t t0 (RAns k o l h) q0 k Hq Hq0 eq_refl Ek).
        * apply (all_live _ _ _ Ehx).
    - apply (leave_exact true). exact H0.
    - apply (leave_exact false). exact H0.
    - destruct ((0 <=? n) && (n <=? nmax)) eqn:En; [|exact Hskip].
      unfold wp, bind, put_max, ret. cbn [r_max r_prox r_chunk r_job r_g].
      apply (forth_one _ (NUpdate n) q _ (with_max n q)); [reflexivity| |].
      + cbn [rp_step]. rewrite En. reflexivity.
      + exists P, sd, b. split; [|cbn [with_max rp_max rp_prox rp_chunk rp_job rp_in r_max r_prox r_chunk r_job r_g]; rewrite H1; auto 8].
        exists hs. destruct I0 as [I1 I2 I3 I4 I5 I6 I7 I8 I9 I10]. split; cbn [r_g r_max r_prox r_chunk r_job]; auto.
        apply andb_true_iff in En. lia.
  Qed.

  Lemma rrun_exact sched : forall s q es s', stands s q -> rrun su psmax nmax sched s = ORet es s' ->
    exists ms q', rpr ms q = Some (es, q') /\ (length ms <= length sched)%nat /\ Forall (fun m => exists c, In c sched /\ makes c m) ms /\ stands s' q'.
  Proof.
    induction sched as [|c sched IH]; intros s q es s' H E; cbn [rrun] in E.
    - injection E as <- <-. exists [], q. split; [reflexivity|]. split; [cbn; lia|]. split; [constructor|exact H].
    - pose proof (rstep_exact c s q H) as W. apply wp_inv in W. destruct W as (es1 & s1 & E1 & ms1 & q1 & Em1 & L1 & F1 & H1). unfold bind in E. rewrite E1 in E.
      destruct (rrun su psmax nmax sched s1) as [es2 s2| | |] eqn:E2; try discriminate E. injection E as <- <-.
      destruct (IH s1 q1 es2 s2 H1 E2) as (ms2 & q2 & Em2 & L2 & F2 & H2).
      assert (F2' : Forall (fun m => exists c0, In c0 (c :: sched) /\ makes c0 m) ms2).
      { eapply Forall_impl; [|exact F2]. intros m (c0 & Hi & Hm). exists c0. split; [right; exact Hi|exact Hm]. }
      destruct ms1 as [|m [|m2 ms1]]; [| |cbn in L1; lia].
      + injection Em1 as <- <-. exists ms2, q2. split; [exact Em2|]. split; [cbn; lia|]. split; [exact F2'|exact H2].
      + cbn [rp_run] in Em1. destruct (rstp m q) as [[e1 qa]|] eqn:Em; [|discriminate Em1]. injection Em1 as <- <-. rewrite app_nil_r.
        exists (m :: ms2), q2. cbn [rp_run]. rewrite Em, Em2. split; [reflexivity|]. split; [cbn [length]; lia|]. split; [|exact H2].
        constructor; [exists c; split; [left; reflexivity|exact (Forall_inv F1)]|exact F2'].
  Qed.

  Lemma stands_start n : stands (rstart su n) (rp0 n).
  Proof.
    exists [], [], []. split; [|do 3 (split; [reflexivity|]); split; [|split; [|reflexivity]]].
    - destruct (rstart_inv su psmax nmax Hok n) as (P & hs & I0). pose proof (ri_each _ _ _ _ _ _ _ _ I0) as X. cbn [rstart r_prox] in X.
      inversion X. subst P. exists hs. exact I0.
    - split; [exact I|]. split; [reflexivity|]. split; [reflexivity|]. cbn. clear. induction n; cbn; congruence.
    - cbn. unfold paced. rewrite Forall_forall. intros p Hp. apply repeat_spec in Hp. subst p. exact I.
  Qed.
  Lemma proxies_exact n sched es s : rrun su psmax nmax sched (rstart su n) = ORet es s ->
    exists ms q, rpr ms (rp0 n) = Some (es, q) /\ (length ms <= length sched)%nat /\ rshows s q.
  Proof.
    intros E. destruct (rrun_exact sched _ _ es s (stands_start n) E) as (ms & q & Em & L & _ & H). exists ms, q. split; [exact Em|]. split; [exact L|].
    apply stands_shows. exact H.
  Qed.
End Facts.
