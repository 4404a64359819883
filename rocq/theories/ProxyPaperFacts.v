(** The shared allocator and its proxies do what ProxyPaper.v says (C86). *)
From Coq Require Import Permutation.
From Verif Require Import Base BaseFacts Alloc AllocFacts Arena ArenaFacts ArenaInv ArenaOps BlinkAlloc BlinkFacts
  History HistoryFacts Setup SetupFacts SetupOps SetupOps3 Frame Proxy Param ProxyFacts ProxyProps Paper PaperFacts Diary DiaryFacts
  ProxyPaper ProxyPaperUse ProxyPaperBooks.

(** ** Headers *)
Definition above_zero (us : list ublock) : Prop := Forall (fun u => 0 < u_ptr u) us.

Lemma headed_chain m cs : chain m cs -> above_zero (map c_u cs) -> headed m (head_ptr cs) (bumps cs).
Proof.
  induction cs as [|c cs IH]; [intros _ _; exact I|]. cbn [chain map]. intros (_ & (X1 & X2 & X3 & _) & Hch) Hp.
  inversion Hp as [|? ? _ Hp']; subst. cbn [bumps map head_ptr headed bump p_at].
  split; [reflexivity|]. split.
  - split; [unfold CURSOR in X1; rewrite Z.add_0_r in X1; exact X1|exact X2].
  - exists (ptr_opt (head_ptr cs)). split; [exact X3|].
    replace (if ptr_opt (head_ptr cs) =? 0 then None else Some (ptr_opt (head_ptr cs))) with (head_ptr cs); [apply IH; assumption|].
    destruct cs as [|c' cs]; [reflexivity|]. cbn [head_ptr ptr_opt]. cbn [map] in Hp'. pose proof (Forall_inv Hp') as X. cbv beta in X.
    unfold c_ptr. replace (u_ptr (c_u c') =? 0) with false by lia. reflexivity.
Qed.

Lemma headed_unique m ks1 : forall root ks2, headed m root ks1 -> headed m root ks2 -> ks1 = ks2.
Proof.
  induction ks1 as [|k1 ks1 IH]; intros [p|] [|k2 ks2]; cbn [headed]; try tauto.
  intros (A1 & (B1 & C1) & o1 & D1 & E1) (A2 & (B2 & C2) & o2 & D2 & E2). rewrite D1 in D2. injection D2 as <-.
  rewrite (IH _ _ E1 E2). f_equal. destruct k1 as [a n f], k2 as [a' n' f']. cbn in *. subst a a'. rewrite B1 in B2. rewrite C1 in C2.
  injection B2 as ->. injection C2 as C2. unfold p_end in C2. cbn in C2. f_equal. lia.
Qed.

Lemma above_own us amax : Forall (u_ok amax) us -> above_zero us.
Proof. apply Forall_impl. intros u ((H & _) & _). exact H. Qed.

(** What stays of the drawing of the other proxies. *)
Lemma each_drawn amax nmax m m' P l S ql : each amax nmax m P l S -> same_on (allc P) m m' -> above_zero (allc P) ->
  Forall2 (drawn m) l ql -> Forall2 (drawn m') l ql.
Proof.
  intros E. revert ql. induction E as [|cs p t P l S Ho E IH]; intros ql Hs Hp D; inversion D as [|? q ? ql' D1 D2]; subst; constructor;
    rewrite allc_cons in *; apply same_on_app in Hs; destruct Hs as [Hs1 Hs2]; apply Forall_app in Hp; destruct Hp as [Hp1 Hp2].
  - destruct p as [p|], q as [q|]; cbn [drawn] in *; auto. destruct t as [t|]; [|destruct Ho]. destruct Ho as [L _].
    destruct D1 as (Y1 & Y2 & Y3). split; [exact Y1|]. split; [exact Y2|].
    pose proof (lrep_same _ _ _ _ _ _ _ Hs1 L) as L'. rewrite (lr_head _ _ _ _ _ _ L) in Y3 |- *.
    pose proof (headed_chain _ _ (lr_chain _ _ _ _ _ _ L) Hp1) as Y. rewrite (headed_unique _ _ _ _ Y3 Y).
    apply headed_chain; [apply (lr_chain _ _ _ _ _ _ L')|exact Hp1].
  - apply IH; assumption.
Qed.
Lemma drawn_is amax nmax m cs p us q : lrep amax nmax cs (px_arena p) m us -> above_zero (map c_u cs) -> drawn m (Some p) (Some q) ->
  q = mkPP (ar_min (px_arena p)) (bumps cs) (px_tab p).
Proof.
  intros L Hp (Y1 & Y2 & Y3). rewrite (lr_head _ _ _ _ _ _ L) in Y3. pose proof (headed_chain _ _ (lr_chain _ _ _ _ _ _ L) Hp) as Y.
  rewrite (headed_unique _ _ _ _ Y Y3), Y1, Y2. destruct q; reflexivity.
Qed.

Lemma p_room_last cs : p_room (bumps cs) = last_cap cs.
Proof. destruct cs; reflexivity. Qed.

Lemma drawn_none m l ql : Forall2 (drawn m) l ql -> forallb is_none l = forallb is_none ql.
Proof.
  intros D. induction D as [|p q l ql H D IH]; [reflexivity|]. cbn [forallb]. rewrite IH. destruct p, q; cbn in *; try contradiction; reflexivity.
Qed.
Lemma drawn_get m l ql k : Forall2 (drawn m) l ql ->
  match get k l, get k ql with Some p, Some q => drawn m (Some p) (Some q) | None, None => True | _, _ => False end.
Proof.
  intros D. revert k. induction D as [|p q l ql H D IH]; intros k; [destruct k; exact I|].
  destruct k as [|k]; [|exact (IH k)]. unfold get. cbn. destruct p, q; cbn in *; try contradiction; auto.
Qed.

Lemma drawn_len m l ql : Forall2 (drawn m) l ql -> length l = length ql.
Proof. intros D. induction D; cbn; congruence. Qed.

Section Steps.
  Variable su : setup.
  Variables psmax nmax : Z.
  Hypothesis Hok : proxies_ok su psmax nmax.
  Notation L := (ledger su).
  Notation own := (balanced su).
  Notation Hsu := (psu su psmax nmax Hok).
  Notation Hct := (balanced_contract su Hsu).
  Notation Hamax := (pamax su psmax nmax Hok).
  Notation pinv := (ProxyFacts.pinv (su_amax su) nmax L own).
  Notation memory s := (al_mem L (ps_w s)).
  Notation PP := (pp_step (su_min su) (su_strat su) (su_dbg su) (su_smax su) psmax nmax).
  Notation PST := (pstep L (su_dbg su) (l_reset su) (su_smax su) psmax nmax).

  Definition told (s : pst (W := AW (W := bworld) * books)) (q : ppaper) : Prop :=
    ps_max s = sh_max q /\ ps_tab s = sh_tab q /\ snd (ps_w s) = sh_books q /\ Forall2 (drawn (memory s)) (ps_prox s) (sh_prox q).

  Lemma own_above w us : own w us -> above_zero us.
  Proof. intros H. apply (above_own _ (su_amax su)). apply (ct_wf _ _ _ _ Hct _ _ H). Qed.

  (** The view of one proxy. *)
  Lemma focus_drawn s b q k p : pinv s b -> told s q -> get k (ps_prox s) = Some p ->
    exists P1 cs P2 l1 l2 S1 S2 ql1 ql2 leak,
      ps_prox s = l1 ++ Some p :: l2 /\ length l1 = k /\ length ql1 = k /\
      sh_prox q = ql1 ++ Some (mkPP (ar_min (px_arena p)) (bumps cs) (px_tab p)) :: ql2 /\
      each (su_amax su) nmax (memory s) P1 l1 S1 /\ each (su_amax su) nmax (memory s) P2 l2 S2 /\
      Forall2 (drawn (memory s)) l1 ql1 /\ Forall2 (drawn (memory s)) l2 ql2 /\
      lrep (su_amax su) nmax cs (px_arena p) (memory s) (live (px_tab p)) /\
      own (ps_w s) (map c_u cs ++ allc P1 ++ allc P2 ++ leak ++ live (ps_tab s)).
  Proof.
    intros H (_ & _ & _ & D) G.
    destruct (focus _ _ _ _ _ Hct s b k p H G) as (P1 & cs & P2 & l1 & l2 & S1 & t & S2 & leak & E1 & E2 & L1 & L2 & X1 & X2 & Lr & At & Ho).
    rewrite E1 in D. apply Forall2_app_inv_l in D. destruct D as (ql1 & ql' & D1 & D2 & Eq). inversion D2 as [|? qk ? ql2 D3 D4]; subst.
    pose proof (own_above _ _ Ho) as Hp. apply Forall_app in Hp. destruct Hp as [Hp _].
    destruct qk as [qk|]; [|destruct D3]. rewrite (drawn_is _ _ _ _ _ _ _ Lr Hp D3) in Eq.
    exists P1, cs, P2, l1, l2, S1, S2, ql1, ql2, leak. repeat (split; [assumption|]).
    split; [reflexivity|]. split; [symmetry; apply (drawn_len _ _ _ D1)|]. repeat (split; [assumption|]). exact Ho.
  Qed.

  (** Afterwards: the others are drawn as before. *)
  Lemma redrawn s P1 P2 l1 l2 S1 S2 ql1 ql2 rest w' q1 q2 :
    each (su_amax su) nmax (memory s) P1 l1 S1 -> each (su_amax su) nmax (memory s) P2 l2 S2 ->
    Forall2 (drawn (memory s)) l1 ql1 -> Forall2 (drawn (memory s)) l2 ql2 ->
    above_zero (allc P1 ++ allc P2 ++ rest) -> same_on (allc P1 ++ allc P2 ++ rest) (memory s) (al_mem L w') ->
    drawn (al_mem L w') q1 q2 -> Forall2 (drawn (al_mem L w')) (l1 ++ q1 :: l2) (ql1 ++ q2 :: ql2).
  Proof.
    intros X1 X2 D1 D2 Hp Hs D. apply Forall_app in Hp. destruct Hp as [Hp1 Hp]. apply Forall_app in Hp. destruct Hp as [Hp2 _].
    rewrite !same_on_app in Hs. destruct Hs as (Hs1 & Hs2 & _).
    apply Forall2_app; [|constructor; [exact D|]].
    - apply (each_drawn _ _ _ _ _ _ _ _ X1 Hs1 Hp1 D1).
    - apply (each_drawn _ _ _ _ _ _ _ _ X2 Hs2 Hp2 D2).
  Qed.

  (** [reset] and drop of a proxy. *)
  Lemma finish_exact (keep : bool) s b q k p : pinv s b -> told s q -> get k (ps_prox s) = Some p ->
    exists cs l1 l2 ql1 ql2 ar' w',
      length l1 = k /\ length ql1 = k /\
      sh_prox q = ql1 ++ Some (mkPP (ar_min (px_arena p)) (bumps cs) (px_tab p)) :: ql2 /\
      (n <- on_proxy k (call (last_chunk_size L) (fun _ t => t)) ;; p_update n ;;;
        on_proxy k (call (arena_reset_leak L keep) (fun _ => map (fun _ => None)))) s =
      ORet tt (mkPst (Z.max (ps_max s) (p_room (bumps cs))) (l1 ++ Some (mkProxy ar' (map (fun _ => None) (px_tab p))) :: l2) (ps_tab s) w') /\
      snd w' = snd (ps_w s) /\
      (keep = false -> ar_root ar' = None) /\
      (keep = true -> Forall2 (drawn (al_mem L w')) (l1 ++ Some (mkProxy ar' (map (fun _ => None) (px_tab p))) :: l2)
         (ql1 ++ Some (mkPP (ar_min (px_arena p)) (newest (bumps cs)) (map (fun _ => None) (px_tab p))) :: ql2)) /\
      (keep = false -> Forall2 (drawn (al_mem L w')) (l1 ++ None :: l2) (ql1 ++ None :: ql2)).
  Proof.
    intros H T G.
    destruct (focus_drawn _ _ _ _ _ H T G) as (P1 & cs & P2 & l1 & l2 & S1 & S2 & ql1 & ql2 & leak & E1 & L1 & L2 & Eq & X1 & X2 & D1 & D2 & Lr & Ho).
    set (F := allc P1 ++ allc P2 ++ leak ++ live (ps_tab s)) in *.
    pose proof (lrep_arep _ _ _ _ (ptop su psmax nmax Hok) _ _ _ _ _ Lr Ho) as R.
    pose proof (own_above _ _ Ho) as Hpos. apply Forall_app in Hpos. destruct Hpos as [Hpos HposF].
    pose proof (arena_reset_leak_ok _ _ L _ (contract_framed _ _ _ _ F (memory s) Hct) keep [] cs (px_arena p) (ps_w s) _ R) as Hl.
    apply wp_inv in Hl. destruct Hl as ([] & [ar' w'] & El & Qu & M1 & H1). cbn [fst snd] in *.
    exists cs, l1, l2, ql1, ql2, ar', w'. split; [exact L1|]. split; [exact L2|]. split; [exact Eq|].
    split; [|split; [|split; [|split]]].
    - unfold bind. unfold on_proxy at 1. rewrite G. unfold call at 1. cbn [c_w c_tab]. rewrite (last_size_ok _ _ _ _ _ _ _ Lr).
      rewrite (put_split _ _ _ _ _ _ E1 L1). cbn [c_w c_tab fst snd]. unfold p_update. cbn [ps_max ps_prox ps_tab ps_w].
      unfold on_proxy. cbn [ps_prox]. rewrite <- L1, get_mid. cbn [px_tab px_arena ps_w]. unfold call. cbn [c_w c_tab]. rewrite El.
      rewrite (put_split _ (mkPst _ (l1 ++ _ :: l2) _ _) l1 l2 _ _ eq_refl eq_refl). cbn [c_w c_tab fst snd ps_max ps_tab]. rewrite p_room_last. reflexivity.
    - apply (Qu _ snd). intros w m. reflexivity.
    - intros ->. destruct H1 as [_ R3]. apply (ar_head _ _ _ _ _ _ _ _ R3).
    - intros ->. destruct cs as [|c cs].
      + injection H1 as -> ->. apply (redrawn s P1 P2 l1 l2 S1 S2 ql1 ql2 (leak ++ live (ps_tab s)) (ps_w s)); auto; [apply same_on_refl|].
        split; [reflexivity|]. split; [reflexivity|]. cbn [px_arena pp_chunks bumps map newest]. rewrite (lr_head _ _ _ _ _ _ Lr). exact I.
      + destruct H1 as [S3 R3]. rewrite app_nil_r in *. destruct (ar_own _ _ _ _ _ _ _ _ R3) as [_ S4].
        apply (redrawn s P1 P2 l1 l2 S1 S2 ql1 ql2 (leak ++ live (ps_tab s)) w'); auto.
        split; [exact M1|]. split; [reflexivity|]. cbn [px_arena pp_chunks].
        rewrite (ar_head _ _ _ _ _ _ _ _ R3). change (newest (bumps (c :: cs))) with (bumps [set_cur c (c_base c)]).
        apply headed_chain; [apply (ar_chain _ _ _ _ _ _ _ _ R3)|]. constructor; [|constructor]. cbn [map] in Hpos. apply (Forall_inv Hpos).
    - intros ->. destruct H1 as [-> _]. apply (redrawn s P1 P2 l1 l2 S1 S2 ql1 ql2 (leak ++ live (ps_tab s)) (ps_w s)); auto; [apply same_on_refl|]. exact I.
  Qed.

  Lemma pstep_exact o s b q r s' : pinv s b -> told s q -> PST o s = ORet r s' -> exists q', PP o q = (r, q') /\ told s' q'.
  Proof.
    intros H T E. pose proof T as (Tm & Tt & Tb & D). unfold pstep in E. unfold pstep_at in E.
    assert (Hal : forall k, alive k (ps_prox s) = match get k (sh_prox q) with Some _ => true | None => false end).
    { intros k. unfold alive. pose proof (drawn_get _ _ _ k D) as X. destruct (get k (ps_prox s)), (get k (sh_prox q)); try contradiction; reflexivity. }
    destruct o as [|k|k|n|[k|] o]; cbn [pp_step].
    - (* local *)
      injection E as <- <-. eexists. split; [reflexivity|]. unfold told. cbn [ps_max ps_tab ps_w ps_prox sh_max sh_tab sh_books sh_prox].
      split; [exact Tm|]. split; [exact Tt|]. split; [exact Tb|]. apply Forall2_app; [exact D|]. constructor; [|constructor].
      cbn. rewrite Tm. auto.
    - (* drop *)
      pose proof (Hal k) as X. unfold alive in X, E. destruct (get k (ps_prox s)) as [p|] eqn:G.
      2:{ destruct (get k (sh_prox q)); [discriminate|]. injection E as <- <-. eauto. }
      destruct (finish_exact false s b q k p H T G) as (cs & l1 & l2 & ql1 & ql2 & ar' & w' & L1 & L2 & Eq & Ef & Hb & Hr & _ & Dd).
      assert (Ed : p_drop L (su_dbg su) k s = ORet tt (mkPst (Z.max (ps_max s) (p_room (bumps cs))) (l1 ++ None :: l2) (ps_tab s) w')).
      { unfold p_drop, bind in *. destruct (on_proxy k (call (last_chunk_size L) (fun _ t => t)) s) as [n s1| | |]; try discriminate Ef.
        unfold p_update in *.
        destruct (on_proxy k (call (arena_reset_leak L false) (fun _ => map (fun _ => None)))
          (mkPst (Z.max (ps_max s1) n) (ps_prox s1) (ps_tab s1) (ps_w s1))) as [u' s2| | |]; try discriminate Ef.
        injection Ef as -> ->. unfold on_proxy. cbn [ps_prox]. rewrite <- L1, get_mid. unfold call. cbn [c_w c_tab fst snd px_arena].
        rewrite (Hr eq_refl). unfold debug_assert. rewrite andb_false_r. cbn [ret fst snd].
        unfold put. cbn [ps_max ps_prox ps_tab ps_w fst snd c_w c_tab]. rewrite !set_nth_split. reflexivity. }
      unfold caught in E. rewrite Ed in E. injection E as <- <-. rewrite Eq, <- L2, get_mid, set_nth_split. cbn [pp_chunks].
      eexists. split; [reflexivity|]. unfold told. cbn [ps_max ps_tab ps_w ps_prox sh_max sh_tab sh_books sh_prox].
      rewrite Tm, Hb. auto.
    - (* reset *)
      pose proof (Hal k) as X. unfold alive in X, E. destruct (get k (ps_prox s)) as [p|] eqn:G.
      2:{ destruct (get k (sh_prox q)); [discriminate|]. injection E as <- <-. eauto. }
      destruct (finish_exact true s b q k p H T G) as (cs & l1 & l2 & ql1 & ql2 & ar' & w' & L1 & L2 & Eq & Ef & Hb & _ & Dd & _).
      unfold caught, p_reset in E. rewrite Ef in E. injection E as <- <-. rewrite Eq, <- L2, get_mid, set_nth_split. cbn [pp_chunks pp_min pp_tab].
      eexists. split; [reflexivity|]. unfold told. cbn [ps_max ps_tab ps_w ps_prox sh_max sh_tab sh_books sh_prox].
      rewrite Tm, Hb. auto.
    - (* update *)
      destruct ((0 <=? n) && (n <=? nmax)); injection E as <- <-; [|eauto]. eexists. split; [reflexivity|].
      unfold told. cbn [ps_max ps_tab ps_w ps_prox sh_max sh_tab sh_books sh_prox]. rewrite Tm. auto.
    - (* an operation of a proxy *)
      pose proof (Hal k) as X. unfold alive in X, E. destruct (get k (ps_prox s)) as [p|] eqn:G.
      2:{ destruct (get k (sh_prox q)); [discriminate|]. injection E as <- <-. eauto. }
      destruct (focus_drawn _ _ _ _ _ H T G) as (P1 & cs & P2 & l1 & l2 & S1 & S2 & ql1 & ql2 & leak & E1 & L1 & L2 & Eq & X1 & X2 & D1 & D2 & Lr & Ho).
      set (F := allc P1 ++ allc P2 ++ leak ++ live (ps_tab s)) in *.
      pose proof (lrep_arep _ _ _ _ (ptop su psmax nmax Hok) _ _ _ _ _ Lr Ho) as R.
      pose proof (contract_framed _ _ _ _ F (memory s) Hct) as Hct'.
      pose proof (own_above _ _ Ho) as Hpos. apply Forall_app in Hpos. destruct Hpos as [Hpos HposF].
      pose proof (use_exact (su_amax su) (su_smax su) psmax L (framed L own F (memory s)) Hct' Hamax (su_dbg su) (sells (su_min su) (su_strat su)) keeps snd
        (fun w m => eq_refl)) as U.
      specialize (U (fun w us l r w' O Hl Ea => proj1 (alloc_balanced su Hsu _ _ _ _ _ (proj1 O) Hl Ea))).
      assert (Hgive : forall w us u l w', framed L own F (memory s) w (u :: us) -> fits l u -> al_deallocate L (u_ptr u) l w = ORet tt w' -> snd w' = keeps (u_ptr u) l (snd w)).
      { intros w us u l w' O Hf Ea. apply (dealloc_balanced su Hsu _ _ _ _ _ (proj1 O) Hf Ea). }
      specialize (U Hgive o (mkCst (px_tab p) (px_arena p, ps_w s)) cs (snd (ps_w s)) R).
      specialize (U (cfg_of _ _ _ _ _ (pcfg su psmax nmax Hok) _ (proj2 (lr_min _ _ _ _ _ _ Lr))) eq_refl). cbv zeta in U. cbn [c_w c_tab fst snd] in U.
      unfold caught, on_proxy in E. rewrite G in E. rewrite Eq, <- L2, get_mid. rewrite Tb in U.
      destruct (step psmax (blink L (su_dbg su)) (fun _ => blink_reset L) o (mkCst (px_tab p) (px_arena p, ps_w s))) as [r0 c'|c'| |]; try contradiction.
      + destruct U as (cs' & R' & M' & U). rewrite U. injection E as <- <-. rewrite set_nth_split. eexists. split; [reflexivity|].
        rewrite (put_split _ _ _ _ _ _ E1 L1). unfold told. cbn [ps_max ps_tab ps_w ps_prox sh_max sh_tab sh_books sh_prox].
        split; [exact Tm|]. split; [exact Tt|]. split; [reflexivity|].
        destruct (ar_own _ _ _ _ _ _ _ _ R') as [O' S']. rewrite app_nil_r in O'.
        apply (redrawn s P1 P2 l1 l2 S1 S2 ql1 ql2 (leak ++ live (ps_tab s)) (snd (c_w c'))); auto.
        split; [exact M'|]. split; [reflexivity|]. cbn [px_arena pp_chunks]. rewrite (ar_head _ _ _ _ _ _ _ _ R').
        apply headed_chain; [apply (ar_chain _ _ _ _ _ _ _ _ R')|]. apply own_above in O'. apply Forall_app in O'. apply O'.
      + destruct U as (-> & Ec & Ea & (b1 & O' & S') & U). rewrite U. injection E as <- <-. rewrite set_nth_split. eexists. split; [reflexivity|].
        rewrite (put_split _ _ _ _ _ _ E1 L1). unfold told. cbn [ps_max ps_tab ps_w ps_prox sh_max sh_tab sh_books sh_prox].
        split; [exact Tm|]. split; [exact Tt|]. split; [reflexivity|].
        apply (redrawn s P1 P2 l1 l2 S1 S2 ql1 ql2 (leak ++ live (ps_tab s)) (snd (c_w c'))); auto.
        rewrite Ea, Ec. split; [reflexivity|]. split; [reflexivity|]. cbn [px_arena pp_chunks bumps map]. rewrite (lr_head _ _ _ _ _ _ Lr). exact I.
    - (* an operation on the shared allocator *)
      rewrite <- (drawn_none _ _ _ D). destruct (match o with OpReset _ => forallb is_none (ps_prox s) | _ => true end) eqn:Hn.
      2:{ injection E as <- <-. eauto. }
      destruct H as [Hx Ht (P & leak & Ho & Ee)]. unfold caught, on_shared in E.
      destruct (step (su_smax su) L (l_reset su) o (mkCst (ps_tab s) (ps_w s))) as [r0 c'| | |] eqn:Es; try discriminate.
      2:{ exfalso. pose proof (use_shared_ok (su_amax su) (su_smax su) nmax L own Hct (l_reset su) (reset_balanced su Hsu) o s b) as Us.
          assert (Hp : ProxyFacts.pinv (su_amax su) nmax L own s b) by (constructor; [exact Hx|exact Ht|eauto]).
          assert (Hk : forall k, o = OpReset k -> forallb is_none (ps_prox s) = true) by (intros k ->; exact Hn).
          specialize (Us Hp Hk). unfold wp, on_shared in Us. rewrite Es in Us. exact Us. }
      injection E as <- <-.
      pose proof (shared_exact su Hsu o (ps_tab s) (ps_w s) _ (allc P ++ leak) r0 c' Ho) as U.
      specialize (U ltac:(rewrite app_assoc; apply Permutation_app_comm) Es).
      rewrite <- Tt, <- Tb, U. cbn [p_tab p_chunks p_calls]. eexists. split; [reflexivity|].
      unfold told. cbn [ps_max ps_tab ps_w ps_prox sh_max sh_tab sh_books sh_prox].
      split; [exact Tm|]. split; [reflexivity|]. split; [apply surjective_pairing|].
      pose proof (own_above _ _ Ho) as Hpos. apply Forall_app in Hpos. destruct Hpos as [Hpos _].
      assert (S' : same_on (allc P) (memory s) (al_mem L (c_w c'))).
      { assert (Hd : (exists k, o = OpReset k) \/ forall k, o <> OpReset k) by (destruct o; try (right; discriminate); left; eauto).
        destruct Hd as [[k ->]|Hd].
        - destruct (each_none _ _ _ _ _ _ Ee Hn) as (Ep & _). rewrite Ep. intros u x [].
        - pose proof (step_any _ _ L _ (l_reset su) (contract_framed _ _ _ _ (allc P ++ leak) (memory s) Hct) o (mkCst (ps_tab s) (ps_w s)) (sp_tab b)) as Hw.
          assert (Hw' : wp (step (su_smax su) L (l_reset su) o) (mkCst (ps_tab s) (ps_w s))
            (fun r st' => hinv L (framed L own (allc P ++ leak) (memory s)) st' (sstep o (option_map b_len r) (sp_tab b)))).
          { apply Hw; [intros k Ek; destruct (Hd k Ek)|]. split; [|exact Ht]. split; [|apply same_on_refl]. cbn [c_w c_tab].
            apply (ct_perm _ _ _ _ Hct _ _ _ Ho). rewrite app_assoc. apply Permutation_app_comm. }
          unfold wp in Hw'. rewrite Es in Hw'. destruct Hw' as [[_ S'] _]. apply same_on_app in S'. apply S'. }
      apply (each_drawn _ _ _ _ _ _ _ _ Ee S' Hpos D).
  Qed.

  (** ** Histories *)
  Notation PR := (pp_run (su_min su) (su_strat su) (su_dbg su) (su_smax su) psmax nmax).
  Notation PRUN := (prun L (su_dbg su) (l_reset su) (su_smax su) psmax nmax).

  Lemma prun_exact os : forall s b q, pinv s b -> told s q ->
    exists rs s' q' b', PRUN os s = ORet rs s' /\ PR os q = (rs, q') /\ told s' q' /\ pinv s' b'.
  Proof.
    induction os as [|o os IH]; intros s b q H T; cbn [prun pp_run].
    - exists [], s, q, b. repeat (split; [reflexivity|]). auto.
    - pose proof (pstep_ok (su_amax su) (su_smax su) psmax nmax L own Hct Hamax (su_dbg su) (l_reset su) (reset_balanced su Hsu)
        (ptop su psmax nmax Hok) (pcfg su psmax nmax Hok) o s b H) as Hw.
      apply wp_inv in Hw. destruct Hw as (r & s1 & E & H1 & _).
      destruct (pstep_exact _ _ _ _ _ _ H T E) as (q1 & Eq & T1). rewrite Eq.
      destruct (IH _ _ _ H1 T1) as (rs & s2 & q2 & b2 & E2 & Eq2 & T2 & H2). rewrite Eq2.
      exists (r :: rs), s2, q2, b2. split; [|auto]. unfold bind. rewrite E, E2. reflexivity.
  Qed.

  Definition ledger_start : pst (W := AW (W := bworld) * books) := pstart (c_w (start su), ([], [])).
  Lemma ledger_start_ok : pinv ledger_start (mkSp [] []) /\ told ledger_start pp0.
  Proof.
    split; [|repeat split; constructor]. apply pstart_inv; [|pose proof Hamax; lia].
    destruct (start_inv su Hsu) as [(cs & R & Hj & Hm) _]. cbn in R, Hj, Hm.
    destruct cs as [|c cs]; [|discriminate Hj]. exists []. split; [|reflexivity]. split; [exact R|]. split; [exact Hj|exact Hm].
  Qed.

  Lemma told_pictured s s0 q b : pinv s b -> told s q -> both_shared closed s s0 -> pictured s0 q.
  Proof.
    intros [_ _ (P & leak & Ho & _)] (T1 & T2 & T3 & T4) (B1 & B2 & B3 & B4). unfold closed in B4.
    pose proof (own_above _ _ Ho) as _. destruct Ho as (cs & (R & Hh & _) & Eb). cbn [c_tab c_w] in *. rewrite live_somes in R.
    unfold pictured. cbv zeta. rewrite B1, B2, B3, B4. rewrite <- T3, Eb. cbn [fst snd].
    split; [exact T1|]. split; [exact T2|]. split; [|split; [reflexivity|exact T4]].
    rewrite (ar_head _ _ _ _ _ _ _ _ R). apply headed_chain; [apply (ar_chain _ _ _ _ _ _ _ _ R)|].
    pose proof (ar_own _ _ _ _ _ _ _ _ R) as O. rewrite app_nil_r in O.
    apply (above_own _ (su_amax su)). apply (ct_wf _ _ _ _ (su_ct su Hsu) _ _ O).
  Qed.

  Theorem proxies_on_paper os :
    let '(rs, q) := PR os pp0 in exists s, proxy_run su psmax nmax os (proxy_start su) = ORet rs s /\ pictured s q.
  Proof.
    destruct ledger_start_ok as [H T]. destruct (prun_exact os _ _ _ H T) as (rs & s' & q' & b' & E & Eq & T' & H'). rewrite Eq.
    assert (B : both_shared closed ledger_start (proxy_start su)) by (repeat split).
    pose proof (lp_run closed L (ba su) (ledger_alike su) (su_dbg su) (l_reset su) (do_reset su)
      (fun keep => stamped_like _ _) (su_smax su) psmax nmax os _ _ B) as X.
    rewrite E in X. destruct X as (s0 & E0 & B0). exists s0. split; [exact E0|]. apply (told_pictured _ _ _ _ H' T' B0).
  Qed.
End Steps.
