(** A global allocator with its proxies does what GLocalPaper.v says (C93). *)
From Coq Require Import Permutation.
From Verif Require Import Base BaseFacts Alloc AllocFacts Arena ArenaFacts ArenaInv ArenaOps BlinkAlloc BlinkFacts
  History HistoryFacts Setup SetupFacts Frame Tower Param Proxy ProxyFacts ProxyProps Global GlobalFacts GlobalProps GLocal GLocalFacts GLocalProps
  Paper PaperFacts ProxyPaper ProxyPaperUse ProxyPaperFacts Layered LayeredFacts GlobalPaper GlobalPaperFacts GLocalPaper.

(** ** An operation of a proxy of any allocator that hands out chunks by the rules of Paper.v *)
Section AnySteps.
  Context {W : Type} (amax smax psmax nmax : Z) (L : Allocator W) (own : W -> list ublock -> Prop).
  Hypothesis Hct : contract amax smax L own.
  Hypothesis Hamax : 0 <= amax <= USIZE_MAX.
  Variable dbg : bool.
  Variable reset : bool -> M W unit.
  Hypothesis Htop : Z.max amax nmax <= USIZE_MAX.
  Hypothesis Hcfg : cfg_lax dbg amax psmax (Z.max amax nmax) smax.
  Variable min : Z.
  Variable S : strategy.
  Variable view : W -> books.
  Hypothesis Hset : forall w m, view (al_set_mem L w m) = view w.
  Hypothesis Hask : forall w us l r w', own w us -> req_ok smax l -> al_allocate L l w = ORet r w' -> sells min S l (view w) = (r, view w').
  Hypothesis Hgive : forall w us u l w', own w (u :: us) -> fits l u -> al_deallocate L (u_ptr u) l w = ORet tt w' -> view w' = view w.
  Notation pinv := (ProxyFacts.pinv amax nmax L own).
  Notation memory s := (al_mem L (ps_w s)).
  Notation PP := (pp_step min S dbg smax psmax nmax).
  Notation PST := (pstep L dbg reset smax psmax nmax).

  Definition entered (s : pst (W := W)) (q : ppaper) : Prop :=
    ps_max s = sh_max q /\ ps_tab s = sh_tab q /\ view (ps_w s) = sh_books q /\ Forall2 (drawn (memory s)) (ps_prox s) (sh_prox q).

  Lemma own_above w us : own w us -> above_zero us.
  Proof. intros H. apply (above_own _ (amax)). apply (ct_wf _ _ _ _ Hct _ _ H). Qed.

  (** The view of one proxy. *)
  Lemma focus_drawn s b q k p : pinv s b -> entered s q -> get k (ps_prox s) = Some p ->
    exists P1 cs P2 l1 l2 S1 S2 ql1 ql2 leak,
      ps_prox s = l1 ++ Some p :: l2 /\ length l1 = k /\ length ql1 = k /\
      sh_prox q = ql1 ++ Some (mkPP (ar_min (px_arena p)) (bumps cs) (px_tab p)) :: ql2 /\
      each (amax) nmax (memory s) P1 l1 S1 /\ each (amax) nmax (memory s) P2 l2 S2 /\
      Forall2 (drawn (memory s)) l1 ql1 /\ Forall2 (drawn (memory s)) l2 ql2 /\
      lrep (amax) nmax cs (px_arena p) (memory s) (live (px_tab p)) /\
      own (ps_w s) (map c_u cs ++ allc P1 ++ allc P2 ++ leak ++ live (ps_tab s)).
  Proof.
    intros H (_ & _ & _ & D) G.
    destruct (focus _ _ _ _ _ Hct s b k p H G) as (P1 & cs & P2 & l1 & l2 & S1 & t & S2 & leak & E1 & E2 & L1 & L2 & X1 & X2 & Lr & At & Ho).
    rewrite E1 in D. apply Forall2_app_inv_l in D. destruct D as (ql1 & ql' & D1 & D2 & Eq). inversion D2 as [|? qk ? ql2 D3 D4]; subst.
    pose proof (own_above _ _ Ho) as Hp. apply Forall_app in Hp. destruct Hp as [Hp _].
    destruct qk as [qk|]; [|destruct D3]. rewrite (drawn_is _ _ _ _ _ _ _ Lr Hp D3) in Eq.
    exists P1, cs, P2, l1, l2, S1, S2, ql1, ql2, leak. repeat (split; [assumption|]).
    split; [reflexivity|]. split; [symmetry; apply (drawn_len _ _ _ D1)|]. repeat (split; [assumption|]). exact Ho.
  Qed.

  (** Afterwards: the others are drawn as before. *)
  Lemma redrawn s P1 P2 l1 l2 S1 S2 ql1 ql2 rest w' q1 q2 :
    each (amax) nmax (memory s) P1 l1 S1 -> each (amax) nmax (memory s) P2 l2 S2 ->
    Forall2 (drawn (memory s)) l1 ql1 -> Forall2 (drawn (memory s)) l2 ql2 ->
    above_zero (allc P1 ++ allc P2 ++ rest) -> same_on (allc P1 ++ allc P2 ++ rest) (memory s) (al_mem L w') ->
    drawn (al_mem L w') q1 q2 -> Forall2 (drawn (al_mem L w')) (l1 ++ q1 :: l2) (ql1 ++ q2 :: ql2).
  Proof.
    intros X1 X2 D1 D2 Hp Hs D. apply Forall_app in Hp. destruct Hp as [Hp1 Hp]. apply Forall_app in Hp. destruct Hp as [Hp2 _].
    rewrite !same_on_app in Hs. destruct Hs as (Hs1 & Hs2 & _).
    apply Forall2_app; [|constructor; [exact D|]].
    - apply (each_drawn _ _ _ _ _ _ _ _ X1 Hs1 Hp1 D1).
    - apply (each_drawn _ _ _ _ _ _ _ _ X2 Hs2 Hp2 D2).
  Qed.

  (** [reset] and drop of a proxy. *)
  Lemma finish_exact (keep : bool) s b q k p : pinv s b -> entered s q -> get k (ps_prox s) = Some p ->
    exists cs l1 l2 ql1 ql2 ar' w',
      length l1 = k /\ length ql1 = k /\
      sh_prox q = ql1 ++ Some (mkPP (ar_min (px_arena p)) (bumps cs) (px_tab p)) :: ql2 /\
      (n <- on_proxy k (call (last_chunk_size L) (fun _ t => t)) ;; p_update n ;;;
        on_proxy k (call (arena_reset_leak L keep) (fun _ => map (fun _ => None)))) s =
      ORet tt (mkPst (Z.max (ps_max s) (p_room (bumps cs))) (l1 ++ Some (mkProxy ar' (map (fun _ => None) (px_tab p))) :: l2) (ps_tab s) w') /\
      view w' = view (ps_w s) /\
      (keep = false -> ar_root ar' = None) /\
      (keep = true -> Forall2 (drawn (al_mem L w')) (l1 ++ Some (mkProxy ar' (map (fun _ => None) (px_tab p))) :: l2)
         (ql1 ++ Some (mkPP (ar_min (px_arena p)) (newest (bumps cs)) (map (fun _ => None) (px_tab p))) :: ql2)) /\
      (keep = false -> Forall2 (drawn (al_mem L w')) (l1 ++ None :: l2) (ql1 ++ None :: ql2)).
  Proof.
    intros H T G.
    destruct (focus_drawn _ _ _ _ _ H T G) as (P1 & cs & P2 & l1 & l2 & S1 & S2 & ql1 & ql2 & leak & E1 & L1 & L2 & Eq & X1 & X2 & D1 & D2 & Lr & Ho).
    set (F := allc P1 ++ allc P2 ++ leak ++ live (ps_tab s)) in *.
    pose proof (lrep_arep _ _ _ _ Htop _ _ _ _ _ Lr Ho) as R.
    pose proof (own_above _ _ Ho) as Hpos. apply Forall_app in Hpos. destruct Hpos as [Hpos HposF].
    pose proof (arena_reset_leak_ok _ _ L _ (contract_framed _ _ _ _ F (memory s) Hct) keep [] cs (px_arena p) (ps_w s) _ R) as Hl.
    apply wp_inv in Hl. destruct Hl as ([] & [ar' w'] & El & Qu & M1 & H1). cbn [fst snd] in *.
    exists cs, l1, l2, ql1, ql2, ar', w'. split; [exact L1|]. split; [exact L2|]. split; [exact Eq|].
    split; [|split; [|split; [|split]]].
    - unfold bind. unfold on_proxy at 1. rewrite G. unfold call at 1. cbn [c_w c_tab]. rewrite (last_size_ok _ _ _ _ _ _ _ Lr).
      rewrite (put_split _ _ _ _ _ _ E1 L1). cbn [c_w c_tab fst snd]. unfold p_update. cbn [ps_max ps_prox ps_tab ps_w].
      unfold on_proxy. cbn [ps_prox]. rewrite <- L1, get_mid. cbn [px_tab px_arena ps_w]. unfold call. cbn [c_w c_tab]. rewrite El.
      rewrite (put_split _ (mkPst _ (l1 ++ _ :: l2) _ _) l1 l2 _ _ eq_refl eq_refl). cbn [c_w c_tab fst snd ps_max ps_tab]. rewrite p_room_last. reflexivity.
    - apply (Qu _ view). apply Hset.
    - intros ->. destruct H1 as [_ R3]. apply (ar_head _ _ _ _ _ _ _ _ R3).
    - intros ->. destruct cs as [|c cs].
      + injection H1 as -> ->. apply (redrawn s P1 P2 l1 l2 S1 S2 ql1 ql2 (leak ++ live (ps_tab s)) (ps_w s)); auto; [apply same_on_refl|].
        split; [reflexivity|]. split; [reflexivity|]. cbn [px_arena pp_chunks bumps map newest]. rewrite (lr_head _ _ _ _ _ _ Lr). exact I.
      + destruct H1 as [S3 R3]. rewrite app_nil_r in *. destruct (ar_own _ _ _ _ _ _ _ _ R3) as [_ S4].
        apply (redrawn s P1 P2 l1 l2 S1 S2 ql1 ql2 (leak ++ live (ps_tab s)) w'); auto.
        split; [exact M1|]. split; [reflexivity|]. cbn [px_arena pp_chunks].
        rewrite (ar_head _ _ _ _ _ _ _ _ R3). change (newest (bumps (c :: cs))) with (bumps [set_cur c (c_base c)]).
        apply headed_chain; [apply (ar_chain _ _ _ _ _ _ _ _ R3)|]. constructor; [|constructor]. cbn [map] in Hpos. apply (Forall_inv Hpos).
    - intros ->. destruct H1 as [-> _]. apply (redrawn s P1 P2 l1 l2 S1 S2 ql1 ql2 (leak ++ live (ps_tab s)) (ps_w s)); auto; [apply same_on_refl|]. exact I.
  Qed.

  Lemma proxy_step_exact o s b q r s' : (forall o', o <> PUse None o') -> pinv s b -> entered s q -> PST o s = ORet r s' -> exists q', PP o q = (r, q') /\ entered s' q'.
  Proof.
    intros Hn H T E. pose proof T as (Tm & Tt & Tb & D). unfold pstep in E. unfold pstep_at in E.
    assert (Hal : forall k, alive k (ps_prox s) = match get k (sh_prox q) with Some _ => true | None => false end).
    { intros k. unfold alive. pose proof (drawn_get _ _ _ k D) as X. destruct (get k (ps_prox s)), (get k (sh_prox q)); try contradiction; reflexivity. }
    destruct o as [|k|k|n|[k|] o]; cbn [pp_step].
    - (* local *)
      injection E as <- <-. eexists. split; [reflexivity|]. unfold entered. cbn [ps_max ps_tab ps_w ps_prox sh_max sh_tab sh_books sh_prox].
      split; [exact Tm|]. split; [exact Tt|]. split; [exact Tb|]. apply Forall2_app; [exact D|]. constructor; [|constructor].
      cbn. rewrite Tm. auto.
    - (* drop *)
      pose proof (Hal k) as X. unfold alive in X, E. destruct (get k (ps_prox s)) as [p|] eqn:G.
      2:{ destruct (get k (sh_prox q)); [discriminate|]. injection E as <- <-. eauto. }
      destruct (finish_exact false s b q k p H T G) as (cs & l1 & l2 & ql1 & ql2 & ar' & w' & L1 & L2 & Eq & Ef & Hb & Hr & _ & Dd).
      assert (Ed : p_drop L dbg k s = ORet tt (mkPst (Z.max (ps_max s) (p_room (bumps cs))) (l1 ++ None :: l2) (ps_tab s) w')).
      { unfold p_drop, bind in *. destruct (on_proxy k (call (last_chunk_size L) (fun _ t => t)) s) as [n s1| | |]; try discriminate Ef.
        unfold p_update in *.
        destruct (on_proxy k (call (arena_reset_leak L false) (fun _ => map (fun _ => None)))
          (mkPst (Z.max (ps_max s1) n) (ps_prox s1) (ps_tab s1) (ps_w s1))) as [u' s2| | |]; try discriminate Ef.
        injection Ef as -> ->. unfold on_proxy. cbn [ps_prox]. rewrite <- L1, get_mid. unfold call. cbn [c_w c_tab fst snd px_arena].
        rewrite (Hr eq_refl). unfold debug_assert. rewrite andb_false_r. cbn [ret fst snd].
        unfold put. cbn [ps_max ps_prox ps_tab ps_w fst snd c_w c_tab]. rewrite !set_nth_split. reflexivity. }
      unfold caught in E. rewrite Ed in E. injection E as <- <-. rewrite Eq, <- L2, get_mid, set_nth_split. cbn [pp_chunks].
      eexists. split; [reflexivity|]. unfold entered. cbn [ps_max ps_tab ps_w ps_prox sh_max sh_tab sh_books sh_prox].
      rewrite Tm, Hb. auto.
    - (* reset *)
      pose proof (Hal k) as X. unfold alive in X, E. destruct (get k (ps_prox s)) as [p|] eqn:G.
      2:{ destruct (get k (sh_prox q)); [discriminate|]. injection E as <- <-. eauto. }
      destruct (finish_exact true s b q k p H T G) as (cs & l1 & l2 & ql1 & ql2 & ar' & w' & L1 & L2 & Eq & Ef & Hb & _ & Dd & _).
      unfold caught, p_reset in E. rewrite Ef in E. injection E as <- <-. rewrite Eq, <- L2, get_mid, set_nth_split. cbn [pp_chunks pp_min pp_tab].
      eexists. split; [reflexivity|]. unfold entered. cbn [ps_max ps_tab ps_w ps_prox sh_max sh_tab sh_books sh_prox].
      rewrite Tm, Hb. auto.
    - (* update *)
      destruct ((0 <=? n) && (n <=? nmax)); injection E as <- <-; [|eauto]. eexists. split; [reflexivity|].
      unfold entered. cbn [ps_max ps_tab ps_w ps_prox sh_max sh_tab sh_books sh_prox]. rewrite Tm. auto.
    - (* an operation of a proxy *)
      pose proof (Hal k) as X. unfold alive in X, E. destruct (get k (ps_prox s)) as [p|] eqn:G.
      2:{ destruct (get k (sh_prox q)); [discriminate|]. injection E as <- <-. eauto. }
      destruct (focus_drawn _ _ _ _ _ H T G) as (P1 & cs & P2 & l1 & l2 & S1 & S2 & ql1 & ql2 & leak & E1 & L1 & L2 & Eq & X1 & X2 & D1 & D2 & Lr & Ho).
      set (F := allc P1 ++ allc P2 ++ leak ++ live (ps_tab s)) in *.
      pose proof (lrep_arep _ _ _ _ Htop _ _ _ _ _ Lr Ho) as R.
      pose proof (contract_framed _ _ _ _ F (memory s) Hct) as Hct'.
      pose proof (own_above _ _ Ho) as Hpos. apply Forall_app in Hpos. destruct Hpos as [Hpos HposF].
      pose proof (use_exact (amax) smax psmax L (framed L own F (memory s)) Hct' Hamax dbg (sells min S) keeps view
        Hset) as U.
      specialize (U (fun w us l r w' O Hl Ea => Hask _ _ _ _ _ (proj1 O) Hl Ea)).
      assert (Hgive' : forall w us u l w', framed L own F (memory s) w (u :: us) -> fits l u -> al_deallocate L (u_ptr u) l w = ORet tt w' -> view w' = keeps (u_ptr u) l (view w)).
      { intros w us u l w' O Hf Ea. apply (Hgive _ _ _ _ _ (proj1 O) Hf Ea). }
      specialize (U Hgive' o (mkCst (px_tab p) (px_arena p, ps_w s)) cs (view (ps_w s)) R).
      specialize (U (cfg_of _ _ _ _ _ Hcfg _ (proj2 (lr_min _ _ _ _ _ _ Lr))) eq_refl). cbv zeta in U. cbn [c_w c_tab fst snd] in U.
      unfold caught, on_proxy in E. rewrite G in E. rewrite Eq, <- L2, get_mid. rewrite Tb in U.
      destruct (step psmax (blink L dbg) (fun _ => blink_reset L) o (mkCst (px_tab p) (px_arena p, ps_w s))) as [r0 c'|c'| |]; try contradiction.
      + destruct U as (cs' & R' & M' & U). rewrite U. injection E as <- <-. rewrite set_nth_split. eexists. split; [reflexivity|].
        rewrite (put_split _ _ _ _ _ _ E1 L1). unfold entered. cbn [ps_max ps_tab ps_w ps_prox sh_max sh_tab sh_books sh_prox].
        split; [exact Tm|]. split; [exact Tt|]. split; [reflexivity|].
        destruct (ar_own _ _ _ _ _ _ _ _ R') as [O' S']. rewrite app_nil_r in O'.
        apply (redrawn s P1 P2 l1 l2 S1 S2 ql1 ql2 (leak ++ live (ps_tab s)) (snd (c_w c'))); auto.
        split; [exact M'|]. split; [reflexivity|]. cbn [px_arena pp_chunks]. rewrite (ar_head _ _ _ _ _ _ _ _ R').
        apply headed_chain; [apply (ar_chain _ _ _ _ _ _ _ _ R')|]. apply own_above in O'. apply Forall_app in O'. apply O'.
      + destruct U as (-> & Ec & Ea & (b1 & O' & S') & U). rewrite U. injection E as <- <-. rewrite set_nth_split. eexists. split; [reflexivity|].
        rewrite (put_split _ _ _ _ _ _ E1 L1). unfold entered. cbn [ps_max ps_tab ps_w ps_prox sh_max sh_tab sh_books sh_prox].
        split; [exact Tm|]. split; [exact Tt|]. split; [reflexivity|].
        apply (redrawn s P1 P2 l1 l2 S1 S2 ql1 ql2 (leak ++ live (ps_tab s)) (snd (c_w c'))); auto.
        rewrite Ea, Ec. split; [reflexivity|]. split; [reflexivity|]. cbn [px_arena pp_chunks bumps map]. rewrite (lr_head _ _ _ _ _ _ Lr). exact I.
    - destruct (Hn o eq_refl).
  Qed.
End AnySteps.

Lemma lsell_sells min S l x : lsell min (tsell S []) (tgive []) l x = sells min S l x.
Proof.
  destruct x as [ks0 tr]. unfold lsell, sells. cbn [fst snd]. destruct (take min (supplier (tsell S []) tr) ks0 l []) as [[a ks] c] eqn:E.
  rewrite (take_after _ _ _ _ _ _ _ _ E). reflexivity.
Qed.

Section Both.
  Variable su : setup.
  Variables psmax nmax : Z.
  Variable lax : bool.
  Hypothesis Hok : proxies_ok su psmax nmax.
  Notation Hsu := (lsu su psmax nmax Hok).
  Notation amax := (su_amax su).
  Notation smax := (su_smax su).
  Notation dbg := (su_dbg su).
  Notation min := (su_min su).
  Notation S := (su_strat su).
  Notation A := (under su lax).
  Notation bown := (base_own (su_amax su) (su_bmax su)).
  Notation Hct := (under_ct su psmax nmax lax Hok).
  Notation Ha := (su_amax_ok su Hsu).
  Notation may := (whichever lax).
  Notation linv := (GLocalFacts.linv amax A bown dbg min nmax).
  Notation in_step := (GlobalPaperFacts.in_step amax A bown min bw_trace).
  Notation aw_of s := (g_aw (gc_st (l_g s))).
  Notation memory s := (al_mem A (snd (aw_of s))).

  Lemma under_set w m : bw_trace (al_set_mem A w m) = bw_trace w.
  Proof. unfold under. destruct lax; reflexivity. Qed.
  Lemma under_ask w us l r w' : bown w us -> req_ok (su_bmax su) l -> al_allocate A l w = ORet r w' -> tsell S [] l (bw_trace w) = (r, bw_trace w').
  Proof. unfold under. destruct lax; apply bot_ask. Qed.
  Lemma under_give w us u l w' : bown w (u :: us) -> fits l u -> al_deallocate A (u_ptr u) l w = ORet tt w' ->
    bw_trace w' = tgive [] (u_ptr u) l (bw_trace w).
  Proof. unfold under. destruct lax; apply bot_give. Qed.
  Lemma under_res w us u old new r w' : bown w (u :: us) -> fits old u -> req_ok (su_bmax su) new -> may (l_size old) (l_size new) = true ->
    (if l_size new <=? l_size old then al_grow A (u_ptr u) old new else al_shrink A (u_ptr u) old new) w = ORet r w' ->
    r = Alloc.st_resize S (bw_trace w) (u_ptr u) old new /\ bw_trace w' = EvResize (u_ptr u) old new r :: bw_trace w.
  Proof. intros _ _ _ _. unfold under. destruct lax; [apply lenient_either|apply bot_either]. Qed.

  (** The shared allocator with its chunks as a ghost, while the blocks [ext] of direct mode keep
      the contents [m0]. *)
  Notation LY := (layer A dbg min (tsell S []) (tgive []) bw_trace).
  Notation LO ext m0 := (lown amax A (framed A bown ext m0) min).
  Lemma fr_asks ext m0 w us l r w' : framed A bown ext m0 w us -> req_ok (su_bmax su) l -> al_allocate A l w = ORet r w' ->
    tsell S [] l (bw_trace w) = (r, bw_trace w').
  Proof. intros [H _]. apply (under_ask _ _ _ _ _ H). Qed.
  Lemma fr_gives ext m0 w us u l w' : framed A bown ext m0 w (u :: us) -> fits l u -> al_deallocate A (u_ptr u) l w = ORet tt w' ->
    bw_trace w' = tgive [] (u_ptr u) l (bw_trace w).
  Proof. intros [H _]. apply (under_give _ _ _ _ _ H). Qed.
  Notation Hfr ext m0 := (contract_framed _ _ _ _ ext m0 Hct).
  Lemma ghost_contract ext m0 : contract amax smax LY (LO ext m0).
  Proof. apply (layer_contract amax (su_bmax su) smax A _ dbg min _ _ bw_trace (Hfr ext m0) Ha under_set (fr_asks ext m0) (su_cfg su Hsu)). Qed.
  Lemma ghost_ask ext m0 w us l r w' : LO ext m0 w us -> req_ok smax l -> al_allocate LY l w = ORet r w' ->
    sells min S l (lview bw_trace w) = (r, lview bw_trace w').
  Proof.
    intros H Hl E. rewrite <- lsell_sells.
    apply (lalloc amax (su_bmax su) smax A _ dbg min _ _ bw_trace (Hfr ext m0) Ha under_set (fr_asks ext m0) (su_cfg su Hsu) _ _ _ _ _ H Hl E).
  Qed.
  Lemma ghost_give ext m0 w us u l w' : LO ext m0 w (u :: us) -> fits l u -> al_deallocate LY (u_ptr u) l w = ORet tt w' ->
    lview bw_trace w' = lview bw_trace w.
  Proof.
    intros H Hl E.
    apply (ldealloc amax (su_bmax su) smax A _ dbg min _ _ bw_trace (Hfr ext m0) Ha under_set (su_cfg su Hsu) _ _ _ _ _ H Hl E).
  Qed.

  (** (No operation of a proxy resets the shared allocator.) *)
  Definition ghost_reset (k : bool) : M (LWd (W := bworld)) unit :=
    noted bw_trace (arena_reset A k) (fun x => if k then newest (fst x) else []).
  Lemma ghost_reset_ok ext m0 k w us : LO ext m0 w us -> wp (ghost_reset k) w (fun _ w' => LO ext m0 w' []).
  Proof.
    intros (cs & R & Hm & Hk). destruct w as [[ar w] ks]. cbn [fst snd] in *. unfold wp, ghost_reset, noted. cbn [fst snd lview]. destruct k.
    - pose proof (reset_exact amax (su_bmax su) A _ (Hfr ext m0) (tgive []) bw_trace under_set (fr_gives ext m0) cs ar w us R) as X.
      unfold wp, blink_reset in X. destruct (arena_reset A true (ar, w)) as [[] aw'| | |]; try contradiction.
      destruct X as (M1 & _ & cs' & Eb & R'). exists cs'. cbn [fst snd]. split; [exact R'|]. split; [congruence|]. rewrite Hk, Eb. reflexivity.
    - pose proof (final_exact amax (su_bmax su) A _ (Hfr ext m0) (tgive []) bw_trace (fr_gives ext m0) cs ar w us R) as X.
      unfold wp, blink_reset_final in X. destruct (arena_reset A false (ar, w)) as [[] aw'| | |]; try contradiction.
      destruct X as (M1 & _ & R'). exists []. cbn [fst snd]. split; [exact R'|]. split; [congruence|reflexivity].
  Qed.

  (** ** Operations of the proxies *)
  Definition along (s : lst (W := bworld)) (q : lpaper) : Prop :=
    in_step (l_g s) (lp_g q) /\ l_max s = lp_max q /\ Forall2 (drawn (memory s)) (l_prox s) (lp_prox q).

  Lemma ghost_start s b q : linv s b -> along s q ->
    let t := gc_tab (l_g s) in let us := part true t in let m0 := memory s in
    pinv amax nmax LY (LO (part false t) m0) (mkPst (l_max s) (l_prox s) (map Some us) (aw_of s, gp_chunks (lp_g q))) (mkSp (ls_prox b) (pinned m0 us)).
  Proof.
    intros [_ Hmax (P & leak & Hh & He)] (Hi & _ & _). cbv zeta. constructor; cbn [ps_max ps_prox ps_tab ps_w sp_tab sp_prox].
    - exact Hmax.
    - apply pinned_agrees.
    - exists P, leak. split; [|exact He]. rewrite live_some. apply has_tag in Hh. rewrite <- app_assoc in Hh. destruct Hh as (cs & R & Hm).
      exists cs. cbn [fst snd]. split; [apply to_framed; exact R|]. split; [exact Hm|].
      pose proof (in_step_headed amax (su_bmax su) A bown Hct min bw_trace _ _ Hi) as H1. rewrite (ar_head _ _ _ _ _ _ _ _ R) in H1.
      pose proof (ar_own _ _ _ _ _ _ _ _ R) as Ho. destruct (ct_wf _ _ _ _ Hct _ _ Ho) as [O _]. apply Forall_app in O. destruct O as [O _].
      pose proof (above_own _ amax O) as Hp.
      pose proof (headed_chain _ _ (ar_chain _ _ _ _ _ _ _ _ R) Hp) as H2. apply (headed_unique _ _ _ _ H1 H2).
  Qed.

  Lemma proxies_exact o s b q : linv s b -> along s q -> (forall o', o <> PUse None o') ->
    exists r s' x, on_proxies A dbg smax psmax nmax o s = ORet (RProxy r) s' /\
      pp_step min S dbg smax psmax nmax o (for_proxies q) = (r, x) /\ along s' (from_proxies q x).
  Proof.
    intros H Al Hn. pose proof (ghost_start s b q H Al) as Hp. cbv zeta in Hp. destruct Al as ((Pm & Pt & Pv & K) & Em & D).
    set (t := gc_tab (l_g s)) in *. set (us := part true t) in *. set (ext := part false t) in *. set (m0 := memory s) in *.
    set (ks := gp_chunks (lp_g q)) in *. set (p1 := mkPst (l_max s) (l_prox s) (map Some us) (aw_of s, ks)) in *.
    pose proof (pstep_ok amax smax psmax nmax LY (LO ext m0) (ghost_contract ext m0) Ha dbg ghost_reset (ghost_reset_ok ext m0)
      (ptop su psmax nmax Hok) (pcfg su psmax nmax Hok) o _ _ Hp) as X.
    apply wp_inv in X. destruct X as (r & p1' & E1 & Hp' & _).
    set (q1 := mkShared (lp_max q) (lp_prox q) (map Some us) (ks, gp_calls (lp_g q))).
    assert (He : entered LY (lview bw_trace) p1 q1).
    { unfold entered, p1, q1. cbn [ps_max ps_tab ps_w ps_prox sh_max sh_tab sh_books sh_prox]. split; [exact Em|]. split; [reflexivity|].
      split; [unfold lview; cbn [fst snd]; rewrite Pv; reflexivity|exact D]. }
    destruct (proxy_step_exact amax smax psmax nmax LY (LO ext m0) (ghost_contract ext m0) Ha dbg ghost_reset (ptop su psmax nmax Hok) (pcfg su psmax nmax Hok)
      min S (lview bw_trace) (lset A dbg min _ _ bw_trace under_set) (ghost_ask ext m0) (ghost_give ext m0) o _ _ _ _ _ Hn Hp He E1)
      as (x1 & Ex & (T1 & T2 & T3 & T4)).
    (* the paper does not look at the blocks of the shared allocator's client either *)
    assert (Ey : exists x, pp_step min S dbg smax psmax nmax o (for_proxies q) = (r, x) /\ sh_max x = sh_max x1 /\ sh_prox x = sh_prox x1 /\ sh_books x = sh_books x1).
    { unfold q1 in Ex. unfold for_proxies. fold ks. revert Ex.
      destruct o as [|k|k|n|[k|] o]; [..|destruct (Hn o eq_refl)]; cbn [pp_step sh_max sh_prox sh_tab sh_books].
      - intros E. injection E as <- <-. eexists. split; [reflexivity|]. auto.
      - destruct (get k (lp_prox q)); intros E; injection E as <- <-; (eexists; split; [reflexivity|]; auto).
      - destruct (get k (lp_prox q)); intros E; injection E as <- <-; (eexists; split; [reflexivity|]; auto).
      - destruct ((0 <=? n) && (n <=? nmax)); intros E; injection E as <- <-; (eexists; split; [reflexivity|]; auto).
      - destruct (get k (lp_prox q)); [|intros E; injection E as <- <-; (eexists; split; [reflexivity|]; auto)].
        destruct (use_pp _ _ _ _ _ _ _) as [[r0 p'] x]. intros E. injection E as <- <-. eexists. split; [reflexivity|]. auto. }
    destruct Ey as (x & Ey & F1 & F2 & F3).
    (* without the ghost *)
    assert (B : both_shared (erased eq) p1 (mkPst (l_max s) (l_prox s) (map Some us) (aw_of s))).
    { split; [reflexivity|]. split; [reflexivity|]. split; [reflexivity|]. unfold p1. cbn [ps_w]. unfold erased. cbn [fst]. split; reflexivity. }
    pose proof (Param.lp_step (erased eq) LY (blink A dbg) (layer_alike eq A A (alike_eq A) dbg min _ _ bw_trace) dbg ghost_reset (arena_reset A)
      (fun k => noted_like eq bw_trace _ _ _ (la_reset eq A A (alike_eq A) k)) smax psmax nmax o _ _ B) as X.
    rewrite E1 in X. destruct X as (p2 & E2 & (B1 & B2 & B3 & B4)).
    change (mkPst (l_max s) (l_prox s) (map Some us) (aw_of s)) with (retab (map Some us) (mkPst (l_max s) (l_prox s) [] (aw_of s))) in E2.
    rewrite (blind_pstep (blink A dbg) dbg (arena_reset A) smax psmax nmax (map Some us) o Hn) in E2.
    destruct (pstep (blink A dbg) dbg (arena_reset A) smax psmax nmax o (mkPst (l_max s) (l_prox s) [] (aw_of s))) as [r0 s0| | |] eqn:E0;
      cbn [retabbed] in E2; try discriminate E2. injection E2 as -> <-. cbn [retab ps_max ps_prox ps_tab ps_w] in B1, B2, B3, B4.
    exists r, (with_proxies s s0), x. split; [unfold on_proxies; rewrite E0; reflexivity|]. split; [exact Ey|].
    assert (Bw : ps_w s0 = fst (ps_w p1')).
    { unfold erased, both_arenas in B4. destruct (ps_w s0) as [a0 w0], (ps_w p1') as [[a1 w1] k1]. cbn [fst snd] in *. destruct B4 as [<- <-]. reflexivity. }
    destruct Hp' as [_ _ (P' & leak' & (cs & R & Hm & Hk) & _)].
    unfold along, with_proxies, from_proxies. cbn [l_g l_max l_prox lp_g lp_max lp_prox gc_st g_aw].
    rewrite F1, F2, F3, <- T3, Bw. unfold lview. cbn [fst snd]. split; [|split; [congruence|]].
    - split; [exact Pm|]. split; [exact Pt|]. split; [reflexivity|]. cbn [gp_tab gp_chunks gc_st g_aw]. rewrite <- Pt.
      exists cs. split; [|auto]. apply of_framed in R.
      assert (Et : ps_tab p1' = map Some us).
      { rewrite T2. clear - Ex Hn. unfold q1 in Ex.
        destruct o as [|k|k|n|[k|] o]; [..|destruct (Hn o eq_refl)]; cbn [pp_step sh_max sh_prox sh_tab sh_books] in Ex.
        - injection Ex as _ <-. reflexivity.
        - destruct (get k (lp_prox q)); injection Ex as _ <-; reflexivity.
        - destruct (get k (lp_prox q)); injection Ex as _ <-; reflexivity.
        - destruct ((0 <=? n) && (n <=? nmax)); injection Ex as _ <-; reflexivity.
        - destruct (get k (lp_prox q)); [|injection Ex as _ <-; reflexivity].
          destruct (use_pp _ _ _ _ _ _ _) as [[r0 p'] x]. injection Ex as _ <-. reflexivity. }
      rewrite Et, live_some in R. fold t. fold us. fold ext. rewrite app_assoc in R. revert R. generalize (allc P' ++ leak'). intros F R.
      induction F as [|u F IH]; [exact R|]. apply IH. apply (arep_drop _ _ _ _ _ _ _ _ _ R).
    - rewrite B2. exact T4.
  Qed.

  (** ** Operations on the global allocator *)
  Lemma unused_drawn m l ql : Forall2 (drawn m) l ql -> forallb unused l = forallb no_chunks ql.
  Proof.
    intros D. induction D as [|p q l ql D1 D IH]; [reflexivity|]. cbn [forallb]. rewrite IH. f_equal.
    destruct p as [p|], q as [q|]; try contradiction; [|reflexivity]. destruct D1 as (_ & _ & Hh). cbn [unused no_chunks].
    destruct (ar_root (px_arena p)), (pp_chunks q); try contradiction; reflexivity.
  Qed.
  Lemma global_exact o s b q : linv s b -> along s q -> resets o = false \/ forallb unused (l_prox s) = true ->
    exists r s' g, on_global A dbg smax may o s = ORet (RGlobal r) s' /\
      gp_step min S dbg smax may o (lp_g q) = (r, g) /\ along s' (mkLP g (lp_max q) (lp_prox q)).
  Proof.
    intros [Hg Hmax (P & leak & Hh & He)] (Hi & Em & D) Hr.
    pose proof (x_step amax smax (su_bmax su) A bown Hct Ha dbg true min (su_cfg su Hsu) (su_ss su Hsu) may (under_may su psmax nmax lax Hok)
      S bw_trace under_set under_ask under_give under_res o _ _ _ _ Hg Hi) as X.
    apply wp_inv in X. destruct X as (r & c & E & g & Eg & Hi' & _).
    exists r, (mkLst c (l_max s) (l_prox s)), g. split; [unfold on_global; rewrite E; reflexivity|]. split; [exact Eg|].
    split; [exact Hi'|]. split; [exact Em|]. cbn [l_prox lp_prox l_g].
    pose proof (has_tag amax A bown min (allc P ++ leak) (gc_tab (l_g s)) (aw_of s)) as Ht.
    assert (Hp : above_zero (allc P)).
    { apply Ht in Hh. destruct Hh as (cs & R & _). apply (above_own _ amax).
      pose proof (ar_ok _ _ _ _ _ _ _ _ R) as O. apply Forall_app in O. destruct O as [O _]. apply Forall_app in O. apply O. }
    destruct (resets o) eqn:Eo.
    - destruct Hr as [Hr|Hr]; [discriminate Hr|]. pose proof (each_unused _ _ _ _ _ _ He Hr) as E1.
      apply (each_drawn _ _ _ _ _ _ _ _ He); [|exact Hp|exact D]. rewrite E1. intros u x [].
    - pose proof (gstep_with amax smax (su_bmax su) A bown Hct Ha dbg min (su_cfg su Hsu) (su_ss su Hsu) may (under_may su psmax nmax lax Hok) nmax
        (allc P ++ leak) o (l_g s) Hh Eo) as Y. rewrite E in Y. destruct Y as [_ Y2]. apply same_on_app in Y2.
      apply (each_drawn _ _ _ _ _ _ _ _ He); [apply Y2|exact Hp|exact D].
  Qed.

  (** ** Histories *)
  Notation LG := (lg_step min S dbg smax may psmax nmax).
  Lemma lstep_exact o s b q : linv s b -> along s q ->
    exists r s' q', both_step su psmax nmax lax true o s = ORet r s' /\ LG o q = (r, q') /\ along s' q' /\ linv s' (lspec_step o r b).
  Proof.
    intros H Al.
    pose proof (lstep_ok amax smax (su_bmax su) A bown Hct Ha dbg min (su_cfg su Hsu) (su_ss su Hsu) may (under_may su psmax nmax lax Hok) psmax nmax
      (ptop su psmax nmax Hok) (pcfg su psmax nmax Hok) o s b H) as X.
    apply wp_inv in X. destruct X as (r & s' & E & H' & _). exists r, s'.
    assert (Y : exists q', LG o q = (r, q') /\ along s' q').
    2:{ destruct Y as (q' & Y1 & Y2). exists q'. split; [exact E|]. auto. }
    unfold lstep in E. destruct o as [o|o]; cbn [lg_step].
    - pose proof (unused_drawn _ _ _ (proj2 (proj2 Al))) as Eu. cbn [may_reset] in E. rewrite <- Eu.
      destruct (resets o && negb (forallb unused (l_prox s))) eqn:Er; [injection E as <- <-; eauto|].
      assert (Hr : resets o = false \/ forallb unused (l_prox s) = true).
      { destruct (resets o); [right|left; reflexivity]. cbn [andb] in Er. destruct (forallb unused (l_prox s)); [reflexivity|discriminate Er]. }
      destruct (global_exact o s b q H Al Hr) as (r0 & s0 & g & E0 & Eg & A0). rewrite E0 in E. injection E as <- <-. rewrite Eg. eauto.
    - assert (Hd : (exists o', o = PUse None o') \/ (forall o', o <> PUse None o')).
      { destruct o as [|k|k|n|[k|] o]; [right; discriminate..|left; eauto]. }
      destruct Hd as [(o' & ->)|Hn]; [injection E as <- <-; eauto|].
      destruct (proxies_exact o s b q H Al Hn) as (r0 & s0 & x & E0 & Ex & A0).
      assert (E' : on_proxies A dbg smax psmax nmax o s = ORet r s') by (destruct o as [|k|k|n|[k|] o]; [..|destruct (Hn o eq_refl)]; exact E).
      rewrite E0 in E'. injection E' as <- <-. exists (from_proxies q x). split; [|exact A0].
      destruct o as [|k|k|n|[k|] o]; [..|destruct (Hn o eq_refl)]; rewrite Ex; reflexivity.
  Qed.
  Lemma lrun_exact os : forall s b q, linv s b -> along s q ->
    exists rs s' q', both_run su psmax nmax lax true os s = ORet rs s' /\ lg_run min S dbg smax may psmax nmax os q = (rs, q') /\ along s' q'.
  Proof.
    induction os as [|o os IH]; intros s b q H Al.
    - exists [], s, q. split; [reflexivity|]. split; [reflexivity|exact Al].
    - destruct (lstep_exact o s b q H Al) as (r & s1 & q1 & E1 & Q1 & A1 & H1).
      destruct (IH s1 _ q1 H1 A1) as (rs & s2 & q2 & E2 & Q2 & A2).
      exists (r :: rs), s2, q2. split; [|split; [|exact A2]].
      + unfold both_run. cbn [lrun]. unfold bind. unfold both_step in E1. rewrite E1. unfold both_run in E2. rewrite E2. reflexivity.
      + cbn [lg_run]. rewrite Q1, Q2. reflexivity.
  Qed.

  Theorem both_on_paper os : exists rs s q, both_run su psmax nmax lax true os (both_start su) = ORet rs s /\
    lg_run min S dbg smax may psmax nmax os lp0 = (rs, q) /\ lshows s q.
  Proof.
    assert (Al : along (both_start su) lp0).
    { split; [|split; [reflexivity|constructor]]. apply (in_step_start amax A bown min (su_min_ok su Hsu) bw_trace bworld0). apply bot_start. }
    destruct (lrun_exact os _ _ _ (both_start_inv su psmax nmax lax Hok) Al) as (rs & s & q & E & Q & (Hi & Em & D)).
    exists rs, s, q. split; [exact E|]. split; [exact Q|].
    pose proof (in_step_headed amax (su_bmax su) A bown Hct min bw_trace _ _ Hi) as Hh. destruct Hi as (P1 & P2 & P3 & _).
    rewrite under_mem in Hh, D. split; [|split; [exact Em|exact D]].
    split; [exact P1|]. split; [exact P2|]. split; [exact Hh|exact P3].
  Qed.
End Both.
