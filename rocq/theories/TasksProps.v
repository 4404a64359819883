(** Lemmas behind the theorems of Properties_Tasks.v. *)
From Coq Require Import Permutation.
From Verif Require Import Base BaseFacts Alloc AllocFacts Arena ArenaFacts ArenaInv ArenaOps BlinkAlloc BlinkFacts
  History HistoryFacts Frame Setup SetupFacts SetupOps SetupProps Wraps WrapsFacts WrapsProps Conc ConcFacts Cache CacheFacts CacheProps
  Tasks TasksFacts TasksWarm.

(** [x] belongs to somebody else, is one that [a] is not about, is on the way, or in the cache. *)
Definition elsewhere (t : nat) (a : wact) (s : tst) (x : wrap) : Prop :=
  (exists t' xs, t' <> t /\ nth_error (tk_own s) t' = Some xs /\ In x xs) \/
  (exists k xs, nth_error (tk_own s) t = Some xs /\ nth_error xs k = Some x /\ target a <> Some k) \/
  In x (concat (on_the_way (tk_q s))) \/ In x (queue_of (tk_q s)).

(** Everything that [x] holds is as it was. *)
Definition as_it_was (w w' : bworld) (x : wrap) : Prop :=
  chunks_at (mkWst w' [] []) x = chunks_at (mkWst w [] []) x /\ spare (bw_mem w') x = spare (bw_mem w) x /\
  forall p, In p (chunks_at (mkWst w [] []) x) ->
    exists v, u_ptr v = p /\ 0 < u_len v /\ In v (outstanding (bw_trace w)) /\ In v (outstanding (bw_trace w')) /\
      forall y, in_u y v -> bw_mem w' y = bw_mem w y.

Lemma set_moved {T} (l : list (list T)) t c c' : nth_error l t = Some c ->
  exists r, Permutation (concat l) (c ++ r) /\ Permutation (concat (set_nth t c' l)) (c' ++ r).
Proof.
  intros H. destruct (nth_split_at _ _ _ H) as (l1 & l2 & -> & <-). exists (concat (l1 ++ l2)). rewrite set_nth_split.
  split; apply concat_split.
Qed.
Lemma way_at q t p : nth_error (q_thr q) t = Some p -> nth_error (on_the_way q) t = Some (carried (qphase_of (q_pop q) p)).
Proof. intros E. unfold on_the_way. rewrite nth_error_map, E. reflexivity. Qed.
Lemma free_at t s xs : free t s = Some xs -> nth_error (q_thr (tk_q s)) t = Some QIdle /\ nth_error (tk_own s) t = Some xs.
Proof. unfold free. destruct (nth_error (q_thr (tk_q s)) t) as [[]|]; try discriminate; auto. Qed.

Section Tasks.
  Variable su : setup.
  Hypothesis Hok : setup_ok su.
  Notation amax := (su_amax su).
  Notation bown := (base_own (su_amax su) (su_bmax su)).
  Notation B := (bot su).
  Notation Hct := (su_ct su Hok).

  Lemma spare_head m c cs x : lrep su m (c :: cs) x -> spare m x = c_end c - c_cur c.
  Proof.
    intros L. unfold spare. rewrite (lr_head _ _ _ _ L). cbn [head_ptr].
    pose proof (lr_chain _ _ _ _ L) as C. cbn [chain] in C. destruct C as (_ & (H1 & H2 & _) & _). rewrite H1, H2. reflexivity.
  Qed.
  Lemma spare_lrep m m' cs x : lrep su m cs x -> lrep su m' cs x -> spare m' x = spare m x.
  Proof.
    intros L L'. destruct cs as [|c cs].
    - unfold spare. rewrite (lr_head _ _ _ _ L). reflexivity.
    - rewrite (spare_head _ _ _ _ L), (spare_head _ _ _ _ L'). reflexivity.
  Qed.

  Lemma wkept s b a r s' j x : winv su s b -> min_fine su a -> wstep su a s = ORet r s' -> target a <> Some j ->
    nth_error (ws_wraps s) j = Some x -> nth_error (ws_wraps s') j = Some x /\ as_it_was (ws_w s) (ws_w s') x.
  Proof.
    intros [css Hi] Hm E Hj Ex. pose proof (wstep_ok su Hok css s b a Hm Hi) as X. unfold wp in X. rewrite E in X.
    destruct X as (css' & Hi' & _ & K).
    pose proof Hi as (HL & Ho & _). pose proof Hi' as (HL' & Ho' & _).
    pose proof (Forall2_nth _ _ _ j HL) as L. rewrite Ex in L. destruct (nth_error css j) as [cs|] eqn:Ej; [|contradiction].
    destruct (K j x cs Hj Ex Ej) as (Ex' & Ej' & Hs). split; [exact Ex'|].
    pose proof (Forall2_nth _ _ _ j HL') as L'. rewrite Ex', Ej' in L'.
    assert (Hall : forall c0 w F, nth_error c0 j = Some cs -> bown w (allc c0 ++ F) -> exists F', bown w (map c_u cs ++ F')).
    { intros c0 w F E0 O0. destruct (nth_split_at _ _ _ E0) as (l1 & l2 & -> & _). exists (allc (l1 ++ l2) ++ F).
      apply (ct_perm _ _ _ _ Hct _ _ _ O0). rewrite app_assoc. apply Permutation_app_tail. apply allc_mid. }
    destruct (Hall css _ _ Ej Ho) as [F1 O1]. destruct (Hall css' _ _ Ej' Ho') as [F2 O2].
    assert (W1 : chunks_at (mkWst (ws_w s) [] []) x = map c_ptr cs) by apply (lrep_walk su Hok cs x (mkWst (ws_w s) [] []) F1 L O1).
    assert (W2 : chunks_at (mkWst (ws_w s') [] []) x = map c_ptr cs) by apply (lrep_walk su Hok cs x (mkWst (ws_w s') [] []) F2 L' O2).
    split; [congruence|]. split; [apply (spare_lrep _ _ cs x L L')|].
    rewrite W1. intros p Hp. apply in_map_iff in Hp. destruct Hp as (c & Ec & Hc). exists (c_u c).
    pose proof O1 as [[_ P1] _]. pose proof O2 as [[_ P2] _]. rewrite <- P1, <- P2.
    split; [exact Ec|]. split.
    - pose proof (chain_cwf _ _ c (lr_chain _ _ _ _ L) Hc) as (_ & C1 & C2). unfold c_base, c_end, c_ptr, HDR in *. lia.
    - split; [apply in_or_app; left; apply in_map; exact Hc|]. split; [apply in_or_app; left; apply in_map; exact Hc|].
      intros y Hy. apply (Hs (c_u c) y); [apply in_map; exact Hc|exact Hy].
  Qed.

  Section Steps.
  Variable vmax : Z.
  Hypothesis Hvmax : 0 <= vmax <= ISIZE_MAX.
  Notation tinv := (tinv su vmax).
  Notation tstep := (tstep su vmax).

  (** A thread and the rest. *)
  Lemma at_thread s b t xs : tinv s b -> nth_error (tk_own s) t = Some xs ->
    exists R ys, winv su (mkWst (tk_w s) (R ++ xs) (tk_tab s)) ys /\
      (forall x, In x R <-> (exists t' xs, t' <> t /\ nth_error (tk_own s) t' = Some xs /\ In x xs) \/
        In x (concat (on_the_way (tk_q s))) \/ In x (queue_of (tk_q s))).
  Proof.
    intros (Po & Pm & Pq & [H1 H2 H3 H4 H5 H6 H7 H8 H9]) Ex.
    destruct (nth_split_at _ _ _ Ex) as (l1 & l2 & El & Ek). rewrite El in H1. symmetry in H1. apply map_split in H1.
    destruct H1 as (P1 & P & P2 & -> & E1 & <- & E2).
    assert (B0 : binv su (tk_w s) (tk_tab s) (tx_tab b) ((concat (P1 ++ P2) ++ concat Pm ++ Pq) ++ P)).
    { eapply (binv_perm su Hok); [|exact H7]. etransitivity; [apply Permutation_app_tail, concat_split|].
      rewrite <- app_assoc. apply Permutation_app_comm. }
    unfold binv in B0. rewrite (map_app fst _ P) in B0. exists (map fst (concat (P1 ++ P2) ++ concat Pm ++ Pq)), (mkWs (map snd ((concat (P1 ++ P2) ++ concat Pm ++ Pq) ++ P)) (tx_tab b)).
    split; [exact B0|]. intros x. rewrite !map_app, !in_app_iff, H3, <- H5, !concat_map.
    assert (Hx : In x (concat (map (map fst) (P1 ++ P2))) <-> exists t' xs, t' <> t /\ nth_error (tk_own s) t' = Some xs /\ In x xs); [|tauto].
    rewrite map_app, E1, E2, El. rewrite in_concat. split.
    - intros (xs & Hxs & Hx). apply in_app_or in Hxs. destruct Hxs as [Hxs|Hxs]; apply In_nth_error in Hxs; destruct Hxs as [j Hj].
      + exists j, xs. assert (j < length l1)%nat by (apply nth_error_Some; congruence).
        split; [lia|]. split; [rewrite nth_error_app1 by assumption; exact Hj|exact Hx].
      + exists (length l1 + S j)%nat, xs. split; [lia|]. split; [|exact Hx]. rewrite nth_error_app2 by lia.
        replace (length l1 + S j - length l1)%nat with (S j) by lia. exact Hj.
    - intros (t' & xs & Ht & Hxs & Hx). exists xs. split; [|exact Hx]. apply in_or_app.
      destruct (Nat.lt_ge_cases t' (length l1)) as [Hlt|Hge].
      + rewrite nth_error_app1 in Hxs by exact Hlt. left. apply nth_error_In with (1 := Hxs).
      + rewrite nth_error_app2 in Hxs by exact Hge. destruct (t' - length l1)%nat as [|d] eqn:Ed; [lia|]. cbn [nth_error] in Hxs. right. apply nth_error_In with (1 := Hxs).
  Qed.

  Lemma others_kept s b t a es s' x : tinv s b -> min_fine su a -> tstep (TDo t a) s = ORet es s' -> elsewhere t a s x ->
    elsewhere t a s' x /\ tk_q s' = tk_q s /\ (forall t', t' <> t -> nth_error (tk_own s') t' = nth_error (tk_own s) t') /\
    as_it_was (tk_w s) (tk_w s') x.
  Proof.
    intros Hi Hm E Hx. cbn [Tasks.tstep] in E. destruct (free t s) as [xs|] eqn:Ef.
    2: { injection E as _ <-. split; [exact Hx|]. split; [reflexivity|]. split; [reflexivity|].
         destruct (tinv_flat su vmax s b Hi) as (b' & Hw).
         assert (Hin : In x (everything s)).
         { unfold everything. rewrite !in_app_iff. destruct Hx as [(t' & xs & _ & E1 & E2)|[(k & xs & E1 & E2 & _)|[Hx|Hx]]]; auto.
           - left. rewrite in_concat. exists xs. split; [apply nth_error_In with (1 := E1)|exact E2].
           - left. rewrite in_concat. exists xs. split; [apply nth_error_In with (1 := E1)|apply nth_error_In with (1 := E2)]. }
         apply In_nth_error in Hin. destruct Hin as [j Hj].
         apply (wkept (flat s) b' (WDirect (OpReset true)) None (flat s) j x Hw Logic.I); [reflexivity|discriminate|exact Hj]. }
    assert (Ex : nth_error (tk_own s) t = Some xs).
    { unfold free in Ef. destruct (nth_error (q_thr (tk_q s)) t) as [p|]; [|discriminate Ef]. destruct p; try discriminate Ef. exact Ef. }
    destruct (at_thread s b t xs Hi Ex) as (R & ys & Hw & HR).
    destruct (wstep su a (mkWst (tk_w s) xs (tk_tab s))) as [r w1|w1| |] eqn:E1; try discriminate E. injection E as _ <-.
    assert (E2 : wstep su (shift (length R) a) (mkWst (tk_w s) (R ++ xs) (tk_tab s)) = ORet r (behind R w1)).
    { change (mkWst (tk_w s) (R ++ xs) (tk_tab s)) with (behind R (mkWst (tk_w s) xs (tk_tab s))). rewrite wstep_behind, E1. reflexivity. }
    assert (Hxj : exists j, target (shift (length R) a) <> Some j /\ nth_error (R ++ xs) j = Some x /\
      (nth_error (R ++ ws_wraps w1) j = Some x -> elsewhere t a (mkT (ws_w w1) (set_nth t (ws_wraps w1) (tk_own s)) (tk_q s) (ws_tab w1)) x)).
    { assert (Hr : In x R -> exists j, target (shift (length R) a) <> Some j /\ nth_error (R ++ xs) j = Some x).
      { intros Hin. apply In_nth_error in Hin. destruct Hin as [j Hj]. assert (j < length R)%nat by (apply nth_error_Some; congruence).
        exists j. split; [|rewrite nth_error_app1 by assumption; exact Hj].
        intros Ht. destruct a; cbn in Ht; try discriminate Ht; injection Ht as Ht; lia. }
      destruct Hx as [Hx|[(k & xs' & E3 & E4 & E5)|Hx]].
      - destruct (Hr (proj2 (HR x) (or_introl Hx))) as (j & J1 & J2). exists j. split; [exact J1|]. split; [exact J2|].
        intros _. left. destruct Hx as (t' & xs' & Ht & E3 & E4). exists t', xs'. cbn [tk_own]. rewrite set_nth_other by congruence. auto.
      - rewrite Ex in E3. injection E3 as <-. exists (length R + k)%nat. split; [|split; [rewrite nth_shift; exact E4|]].
        + intros Ht. apply E5. destruct a; cbn in *; try discriminate Ht; injection Ht as Ht; f_equal; lia.
        + rewrite nth_shift. intros E6. right. left. exists k, (ws_wraps w1). cbn [tk_own]. split; [|auto].
          destruct (nth_split_at _ _ _ Ex) as (l1 & l2 & -> & <-). rewrite set_nth_split. apply nth_mid.
      - destruct (Hr (proj2 (HR x) (or_intror Hx))) as (j & J1 & J2). exists j. split; [exact J1|]. split; [exact J2|].
        intros _. right. right. exact Hx. }
    destruct Hxj as (j & Hj & Hjx & Hback).
    destruct (wkept _ ys _ r _ j x Hw (shift_fine su _ a Hm) E2 Hj Hjx) as [Hjx' Hw']. cbn [ws_w behind] in Hw'. cbn [ws_wraps behind] in Hjx'.
    split; [apply Hback, Hjx'|]. split; [reflexivity|]. split; [|exact Hw'].
    intros t' Ht. cbn [tk_own]. apply set_nth_other. congruence.
  Qed.

  (** The cache only moves them. *)
  Lemma cache_silent s b c es s' : tinv s b -> match c with TDo _ _ => False | _ => True end -> tstep c s = ORet es s' ->
    tk_w s' = tk_w s /\ tk_tab s' = tk_tab s /\ Permutation (everything s') (everything s).
  Proof.
    intros Hi Hc E. assert (Hf : choice_fine su c) by (destruct c; [contradiction|exact Logic.I..]).
    assert (E1 : tk_w s' = tk_w s /\ tk_tab s' = tk_tab s).
    { assert (Ho : forall c es0 s0, on_cache vmax c es0 s0 = ORet es s' -> tk_w s' = tk_w s0 /\ tk_tab s' = tk_tab s0).
      { intros c0 es0 s0 E0. unfold on_cache in E0. destruct (qstep vmax c0 (tk_q s0)); try discriminate E0. injection E0 as _ <-. auto. }
      destruct c as [t a|t k|t|t]; [contradiction| | |]; cbn [Tasks.tstep] in E.
      - destruct (free t s) as [xs|]; [|injection E as _ <-; auto]. destruct (nth_error xs k) as [x|]; [|injection E as _ <-; auto].
        destruct (wp_fate x); [apply (Ho _ _ _ E)|injection E as _ <-; auto|injection E as _ <-; auto].
      - destruct (free t s) as [xs|]; [|injection E as _ <-; auto]. apply (Ho _ _ _ E).
      - apply (Ho _ _ _ E). }
    split; [apply E1|]. split; [apply E1|]. clear E1 Hf.
    destruct Hi as (Po & Pm & Pq & [_ _ _ _ _ _ _ H8 H9]). unfold everything.
    destruct c as [t a|t k|t|t]; [contradiction| | |]; cbn [Tasks.tstep] in E.
    - destruct (free t s) as [xs|] eqn:Ef; [|injection E as _ <-; reflexivity].
      destruct (nth_error xs k) as [x|] eqn:Ek; [|injection E as _ <-; reflexivity].
      destruct (wp_fate x); [|injection E as _ <-; reflexivity|injection E as _ <-; reflexivity].
      destruct (free_at _ _ _ Ef) as [Ep Ex]. unfold on_cache in E. cbn [tk_q tk_own tk_w tk_tab] in E.
      destruct (qstep vmax (QStart t (CPush x)) (tk_q s)) as [es1 q'| | |] eqn:Eq; try discriminate E.
      destruct (start_post vmax Hvmax _ _ _ _ _ H8 Ep Eq) as (-> & _ & _ & Hq & Hw). injection E as _ <-.
      cbn [tk_q tk_own fold_left receive]. rewrite Hq, Hw. cbn [carried].
      destruct (nth_split_at _ _ _ Ek) as (u1 & u2 & -> & <-). rewrite remove_nth_split.
      destruct (set_moved _ _ _ (u1 ++ u2) Ex) as (O & O1 & O2).
      destruct (set_moved (on_the_way (tk_q s)) t [] [x] (way_at _ _ _ Ep)) as (M & M1 & M2).
      rewrite O1, O2, M1, M2. rewrite !app_nil_l. rewrite !app_assoc. apply Permutation_app_tail. apply Permutation_app_tail.
      rewrite <- !app_assoc. cbn [app]. rewrite <- !Permutation_middle. apply perm_skip. rewrite ?app_nil_r. reflexivity.
    - destruct (free t s) as [xs|] eqn:Ef; [|injection E as _ <-; reflexivity].
      destruct (free_at _ _ _ Ef) as [Ep Ex]. unfold on_cache in E.
      destruct (qstep vmax (QStart t CPop) (tk_q s)) as [es1 q'| | |] eqn:Eq; try discriminate E.
      destruct (start_post vmax Hvmax _ _ _ _ _ H8 Ep Eq) as (-> & _ & _ & Hq & Hw). injection E as _ <-.
      cbn [tk_q tk_own fold_left receive]. rewrite Hq, Hw. cbn [carried].
      rewrite (set_nth_same t [] _ (way_at _ _ _ Ep)). reflexivity.
    - unfold on_cache in E. pose proof (qstep_ok vmax Hvmax (tk_q s) (QGo t) H8) as Hs.
      destruct (qstep vmax (QGo t) (tk_q s)) as [es1 q'| | |] eqn:Eq; try discriminate E. injection E as _ <-. cbn [qgoal] in Hs. cbn [tk_q tk_own].
      unfold qstep, bind at 1, get_q in Eq. destruct (nth_error (q_thr (tk_q s)) t) as [p|] eqn:Ep.
      2: { unfold ret in Eq. injection Eq as <- <-. reflexivity. }
      destruct (qgo_one _ _ _ _ _ _ Eq) as [-> |(e & -> & Et & Hne)].
      { cbn [fold_left]. destruct (post_same vmax (tk_q s) q' t ltac:(congruence) Hs) as [Q1 Q2]. rewrite Q1, Q2. reflexivity. }
      destruct (post_one vmax _ _ t p e Ep Et Hs) as (p' & Ep' & Hf & Hq & Hw). rewrite Hw. cbn [fold_left].
      destruct e as [t0 o|t0 o r|t0 r]; [contradiction| |]; cbn in Et; subst t0; cbn [receive].
      + destruct (follows_lin _ _ _ _ _ Hf) as [F1 F2]. rewrite F2.
        destruct (set_moved (on_the_way (tk_q s)) t _ (carried (XDone r)) (way_at _ _ _ Ep)) as (M & M1 & M2).
        rewrite F1 in M1. rewrite M1, M2. apply Permutation_app_head. destruct o as [x|].
        * assert (Hr : r = None /\ queue_of q' = queue_of (tk_q s) ++ [x]).
          { inversion Hq as [|? ? ? ? ? Hq'| | | |]; subst. inversion Hq'; subst. auto. }
          destruct Hr as [-> ->]. cbn [carried app]. rewrite app_assoc, <- Permutation_cons_append. reflexivity.
        * destruct r as [x|]; cbn [carried app].
          -- assert (Hr : queue_of (tk_q s) = x :: queue_of q') by (inversion Hq as [| |? ? ? ? ? Hq'| | |]; subst; inversion Hq'; subst; reflexivity).
             rewrite Hr. apply Permutation_middle.
          -- assert (Hr : queue_of (tk_q s) = [] /\ queue_of q' = []) by (inversion Hq as [| | |? ? ? Hq'| |]; subst; inversion Hq'; subst; auto).
             destruct Hr as [-> ->]. reflexivity.
      + destruct (follows_ret _ _ _ _ Hf) as [F1 F2]. rewrite F2. cbn [carried].
        assert (Hr : queue_of q' = queue_of (tk_q s)) by (inversion Hq as [| | | | |? ? ? ? ? Hq']; subst; inversion Hq'; subst; reflexivity).
        rewrite Hr. destruct (set_moved (on_the_way (tk_q s)) t _ [] (way_at _ _ _ Ep)) as (M & M1 & M2). rewrite F1 in M1. rewrite M1, M2.
        destruct r as [x|]; cbn [carried app]; [|reflexivity].
        assert (Hx : exists xs, nth_error (tk_own s) t = Some xs).
        { destruct (nth_error (tk_own s) t) as [xs|] eqn:Ex; [eauto|]. apply nth_error_None in Ex.
          assert (t < length (q_thr (tk_q s)))%nat by (apply nth_error_Some; congruence). lia. }
        destruct Hx as (xs & Ex). rewrite (nth_error_nth _ _ _ Ex).
        destruct (set_moved _ _ _ (xs ++ [x]) Ex) as (O & O1 & O2). rewrite O1, O2.
        rewrite <- !app_assoc. cbn [app]. apply Permutation_app_head. apply Permutation_middle.
  Qed.

  (** *** Warmth *)

  (** One of a thread, with its chunks. *)
  Lemma own_rep s b t xs k x : tinv s b -> nth_error (tk_own s) t = Some xs -> nth_error xs k = Some x ->
    exists cs F, lrep su (bw_mem (tk_w s)) cs x /\ bown (tk_w s) (map c_u cs ++ F).
  Proof.
    intros Hi Ex Ek. destruct (at_thread s b t xs Hi Ex) as (R & ys & Hw & _).
    apply (winv_in su Hok _ ys (length R + k) x Hw). cbn [ws_wraps]. rewrite nth_shift. exact Ek.
  Qed.

  Lemma stays_warm s b t xs k x o : tinv s b -> free t s = Some xs -> nth_error xs k = Some x -> wp_fate x = Alive ->
    ar_root (wp_arena x) <> None -> is_reset o = false -> need o <= spare (bw_mem (tk_w s)) x ->
    exists r s' xs' x', tstep (TDo t (WUse k o)) s = ORet [EDo t (WUse k o) r] s' /\
      bw_trace (tk_w s') = bw_trace (tk_w s) /\
      free t s' = Some xs' /\ nth_error xs' k = Some x' /\ wp_fate x' = Alive /\ ar_root (wp_arena x') = ar_root (wp_arena x) /\
      spare (bw_mem (tk_w s)) x - need o <= spare (bw_mem (tk_w s')) x' /\
      ((exists l, requests su (mkCst (wp_tab x) (wp_arena x, tk_w s)) o l) -> r <> None).
  Proof.
    intros Hi Ef Ek Ha Hr Ho Hn. destruct (free_at _ _ _ Ef) as [Ep Ex]. destruct (own_rep s b t xs k x Hi Ex Ek) as (cs & F & L & Ow).
    destruct cs as [|c cs]; [rewrite (lr_head _ _ _ _ L) in Hr; contradiction|].
    pose proof (spare_head _ _ _ _ L) as Es.
    assert (Hy : roomy su F (spare (bw_mem (tk_w s)) x) (mkCst (wp_tab x) (wp_arena x, tk_w s))).
    { split; [apply (lr_min _ _ _ _ L)|]. exists c, cs. cbn [c_w c_tab fst snd]. split; [apply (lrep_arep su F _ _ _ L Ow)|lia]. }
    pose proof (warm_any su Hok F _ _ o Hy Ho Hn) as X. apply wp_inv in X.
    destruct X as (r & [tab' [ar' w']] & E & T & Hy' & Hq & _ & M). cbn [c_w c_tab fst snd] in *.
    destruct Hy' as (_ & c' & cs' & R' & Hc'). cbn [c_w c_tab fst snd] in *.
    exists r. cbn [Tasks.tstep]. rewrite Ef. unfold wstep, fate_of. cbn [ws_wraps]. rewrite Ek, Ha. cbn [usable].
    unfold on_wrap. cbn [ws_wraps ws_w]. rewrite Ek, E. cbn [c_w c_tab fst snd ws_w ws_wraps ws_tab].
    eexists _, (set_nth k (mkWrap Alive ar' tab') xs), (mkWrap Alive ar' tab'). split; [reflexivity|]. cbn [tk_w wp_fate wp_arena].
    split; [exact T|]. split.
    { unfold free. cbn [tk_q tk_own]. rewrite Ep. destruct (nth_split_at _ _ _ Ex) as (l1 & l2 & -> & <-). rewrite set_nth_split. apply nth_mid. }
    split; [destruct (nth_split_at _ _ _ Ek) as (l1 & l2 & -> & <-); rewrite set_nth_split; apply nth_mid|].
    split; [reflexivity|]. pose proof (ar_head _ _ _ _ _ _ _ _ R') as Hh. cbn [head_ptr] in Hh.
    pose proof (ar_chain _ _ _ _ _ _ _ _ R') as C. cbn [chain] in C. destruct C as (_ & (C1 & C2 & _) & _).
    cbn [bot base al_mem] in C1, C2.
    split; [exact M|]. split; [|exact Hq]. replace (spare (bw_mem w') (mkWrap Alive ar' tab')) with (c_end c' - c_cur c'); [lia|].
    unfold spare. cbn [wp_arena]. rewrite Hh, C1, C2. reflexivity.
  Qed.

  (** [reset] empties the newest chunk; nothing is asked for. *)
  Lemma reset_warms s b t xs k x : tinv s b -> free t s = Some xs -> nth_error xs k = Some x -> wp_fate x = Alive ->
    exists s' xs' x', tstep (TDo t (WUse k (OpReset true))) s = ORet [EDo t (WUse k (OpReset true)) None] s' /\
      free t s' = Some xs' /\ nth_error xs' k = Some x' /\ wp_fate x' = Alive /\ ar_root (wp_arena x') = ar_root (wp_arena x) /\
      spare (bw_mem (tk_w s)) x <= spare (bw_mem (tk_w s')) x' /\
      chunks_at (flat s') x' = firstn 1 (chunks_at (flat s) x) /\
      forall p, ar_root (wp_arena x) = Some p ->
        exists v, In v (wheld (flat s)) /\ In v (wheld (flat s')) /\ u_ptr v = p /\ 0 < u_len v /\ spare (bw_mem (tk_w s')) x' = u_len v - HEADER.
  Proof.
    intros Hi Ef Ek Ha. destruct (free_at _ _ _ Ef) as [Ep Ex]. destruct (own_rep s b t xs k x Hi Ex Ek) as (cs & F & L & Ow).
    pose proof (arena_reset_keep_ok amax (su_bmax su) B bown Hct F cs (wp_arena x) (tk_w s) _ (lrep_arep su F _ _ _ L Ow)) as X.
    apply wp_inv in X. destruct X as ([] & [ar' w'] & E & _ & M1 & H). cbn [fst snd] in *.
    cbn [Tasks.tstep]. rewrite Ef. unfold wstep, fate_of. cbn [ws_wraps]. rewrite Ek, Ha. cbn [usable].
    unfold on_wrap. cbn [ws_wraps ws_w]. rewrite Ek. unfold step, step_at, bind, call. cbn [c_w c_tab].
    unfold do_reset at 1. unfold blink_reset. rewrite E. unfold ret. cbn [c_w c_tab fst snd ws_w ws_wraps ws_tab].
    set (x' := mkWrap Alive ar' (map (fun _ => None) (wp_tab x))).
    eexists _, (set_nth k x' xs), x'. split; [reflexivity|]. unfold flat. cbn [tk_w tk_q tk_own wp_fate wp_arena x'].
    split.
    { unfold free. cbn [tk_q tk_own]. rewrite Ep. destruct (nth_split_at _ _ _ Ex) as (l1 & l2 & -> & <-). rewrite set_nth_split. apply nth_mid. }
    split; [destruct (nth_split_at _ _ _ Ek) as (l1 & l2 & -> & <-); rewrite set_nth_split; apply nth_mid|].
    split; [reflexivity|]. destruct cs as [|c cs].
    - injection H as -> ->. split; [reflexivity|]. pose proof (lr_head _ _ _ _ L) as Hh. cbn [head_ptr] in Hh. unfold spare, chunks_at, x'.
      cbn [wp_arena ws_w]. rewrite Hh. split; [lia|]. rewrite (lr_count _ _ _ _ L). split; [reflexivity|]. intros p Hp. discriminate Hp.
    - set (c1 := set_cur c (c_base c)) in *.
      assert (L' : lrep su (bw_mem w') [c1] x').
      { destruct H as [H1 H2 H3 H4 H5 H6 H7 H8]. constructor; unfold x'; cbn [wp_arena wp_tab wp_fate]; rewrite ?live_none; auto.
        - rewrite M1. apply (lr_min _ _ _ _ L).
        - discriminate. }
      pose proof (ar_own _ _ _ _ _ _ _ _ H) as O'.
      pose proof (spare_head _ _ _ _ L) as S1. pose proof (spare_head _ _ _ _ L') as S2.
      pose proof (lr_chain _ _ _ _ L) as C. cbn [chain] in C. destruct C as (Cw & _ & _).
      pose proof (lr_head _ _ _ _ L) as Hh. cbn [head_ptr] in Hh.
      assert (Hb : c_base c <= c_cur c <= c_end c) by (destruct Cw as (_ & C1 & C2); split; lia).
      split; [rewrite Hh; exact (lr_head _ _ _ _ L')|].
      split; [rewrite S1, S2; unfold c1; rewrite end_cur; cbn [c_cur set_cur]; lia|].
      split.
      { rewrite (lrep_walk su Hok [c1] x' (mkWst w' _ _) F L' O'), (lrep_walk su Hok (c :: cs) x (mkWst (tk_w s) _ _) F L Ow). reflexivity. }
      intros p Hp. rewrite Hh in Hp. injection Hp as <-. exists (c_u c). unfold wheld. cbn [ws_w].
      pose proof Ow as [[_ P1] _]. pose proof O' as [[_ P2] _]. rewrite <- P1, <- P2.
      split; [left; reflexivity|]. split; [left; reflexivity|]. split; [reflexivity|].
      rewrite S2. unfold c1. rewrite end_cur. cbn [c_cur set_cur]. unfold c_base, c_end, c_ptr, HEADER, HDR in *. lia.
  Qed.

  End Steps.
End Tasks.

(** ** In the form of Properties_Tasks.v *)
Section Whole.
  Variable su : setup.
  Variable vmax : Z.
  Variable n : nat.
  Variable cs : list tchoice.
  Hypothesis H : tasks_ok su vmax n cs.
  Let Hok : setup_ok su := proj1 H.
  Let Hvmax : 0 <= vmax <= ISIZE_MAX := proj1 (proj2 H).

  Lemma tasks_total :
    match trun su vmax cs (tstart n) with
    | ORet es s => exists b, tspecs es (tspec0 n) = Some b /\ tagrees s b
    | OPanic s => zlen (q_pop (tk_q s)) = vmax
    | _ => False
    end.
  Proof.
    pose proof (trun_ok su Hok vmax Hvmax cs (tstart n) (tspec0 n) (proj2 (proj2 (proj2 H))) (tstart_ok su vmax Hvmax n (proj1 (proj2 (proj2 H))))) as X.
    destruct (trun su vmax cs (tstart n)) as [es s|s| |]; cbn [tgood] in X; try exact X.
    destruct X as (b & E & Hi). exists b. split; [exact E|]. apply (tinv_agrees su vmax s b Hi).
  Qed.

  Section Reached.
  Variable es : list tev.
  Variable s : tst.
  Hypothesis E : trun su vmax cs (tstart n) = ORet es s.

  Lemma treached : exists b, tinv su vmax s b.
  Proof.
    pose proof (trun_ok su Hok vmax Hvmax cs (tstart n) (tspec0 n) (proj2 (proj2 (proj2 H))) (tstart_ok su vmax Hvmax n (proj1 (proj2 (proj2 H))))) as X.
    rewrite E in X. destruct X as (b & _ & Hi). eauto.
  Qed.
  Lemma tasks_flat : exists b, winv su (flat s) b.
  Proof. destruct treached as [b Hi]. apply (tinv_flat su vmax s b Hi). Qed.

  Lemma tasks_apart who1 h1 u1 who2 h2 u2 :
    wowns (flat s) who1 h1 u1 -> wowns (flat s) who2 h2 u2 -> (who1, h1) <> (who2, h2) -> disjoint_u u1 u2.
  Proof. destruct tasks_flat as [b Hi]. apply (winv_apart su Hok (flat s) b who1 h1 u1 who2 h2 u2 Hi). Qed.
  Lemma tasks_placed x h u : In x (everything s) -> get h (wp_tab x) = Some u ->
    u_ok (su_amax su) u /\ exists v, In v (wheld (flat s)) /\ inside u v /\ In (u_ptr v) (chunks_at (flat s) x).
  Proof.
    intros Hx. apply In_nth_error in Hx. destruct Hx as [k Hk]. destruct tasks_flat as [b Hi].
    apply (winv_placed su Hok (flat s) b k x h u Hi Hk).
  Qed.
  Lemma tasks_held :
    Permutation (map u_ptr (wheld (flat s))) (concat (map (chunks_at (flat s)) (everything s)) ++ map u_ptr (live (tk_tab s))) /\
    legal (su_bmax su) (bw_trace (tk_w s)).
  Proof. destruct tasks_flat as [b Hi]. apply (winv_held su Hok (flat s) b Hi). Qed.

  Lemma tasks_left : concat (on_the_way (tk_q s)) = [] ->
    (forall x, In x (concat (tk_own s)) -> wp_fate x = Dropped \/ chunks_at (flat s) x = []) ->
    Permutation (map u_ptr (wheld (flat s))) (concat (map (chunks_at (flat s)) (queue_of (tk_q s))) ++ map u_ptr (live (tk_tab s))).
  Proof.
    intros Hw Hd. rewrite (proj1 tasks_held). unfold everything. rewrite Hw, app_nil_l, map_app, concat_app.
    replace (concat (map (chunks_at (flat s)) (concat (tk_own s)))) with (@nil Z); [reflexivity|].
    symmetry. apply concat_nil_Forall. apply Forall_map. apply Forall_forall. intros x Hx.
    destruct (Hd x Hx) as [Hf|Hf]; [|exact Hf]. destruct tasks_flat as [b Hi].
    assert (Hin : In x (ws_wraps (flat s))) by (unfold flat, everything; cbn [ws_wraps]; apply in_or_app; left; exact Hx).
    apply In_nth_error in Hin. destruct Hin as [k Hk]. unfold chunks_at.
    rewrite (dropped_empty su Hok (flat s) b k x Hi Hk Hf). destruct (ar_depth (wp_arena x)); reflexivity.
  Qed.

  Lemma tasks_silent c es' s' : match c with TDo _ _ => False | _ => True end -> tstep su vmax c s = ORet es' s' ->
    tk_w s' = tk_w s /\ tk_tab s' = tk_tab s /\ Permutation (everything s') (everything s).
  Proof. destruct treached as [b Hi]. apply (cache_silent su vmax Hvmax s b c es' s' Hi). Qed.
  Lemma tasks_others t a es' s' x : min_fine su a -> tstep su vmax (TDo t a) s = ORet es' s' -> elsewhere t a s x ->
    elsewhere t a s' x /\ tk_q s' = tk_q s /\ (forall t', t' <> t -> nth_error (tk_own s') t' = nth_error (tk_own s) t') /\
    as_it_was (tk_w s) (tk_w s') x.
  Proof. destruct treached as [b Hi]. apply (others_kept su Hok vmax Hvmax s b t a es' s' x Hi). Qed.
  Lemma tasks_warm t xs k x o : free t s = Some xs -> nth_error xs k = Some x -> wp_fate x = Alive ->
    ar_root (wp_arena x) <> None -> is_reset o = false -> need o <= spare (bw_mem (tk_w s)) x ->
    exists r s' xs' x', tstep su vmax (TDo t (WUse k o)) s = ORet [EDo t (WUse k o) r] s' /\
      bw_trace (tk_w s') = bw_trace (tk_w s) /\
      free t s' = Some xs' /\ nth_error xs' k = Some x' /\ wp_fate x' = Alive /\ ar_root (wp_arena x') = ar_root (wp_arena x) /\
      spare (bw_mem (tk_w s)) x - need o <= spare (bw_mem (tk_w s')) x' /\
      ((exists l, requests su (mkCst (wp_tab x) (wp_arena x, tk_w s)) o l) -> r <> None).
  Proof. destruct treached as [b Hi]. apply (stays_warm su Hok vmax Hvmax s b t xs k x o Hi). Qed.
  Lemma tasks_reset t xs k x : free t s = Some xs -> nth_error xs k = Some x -> wp_fate x = Alive ->
    exists s' xs' x', tstep su vmax (TDo t (WUse k (OpReset true))) s = ORet [EDo t (WUse k (OpReset true)) None] s' /\
      free t s' = Some xs' /\ nth_error xs' k = Some x' /\ wp_fate x' = Alive /\ ar_root (wp_arena x') = ar_root (wp_arena x) /\
      spare (bw_mem (tk_w s)) x <= spare (bw_mem (tk_w s')) x' /\
      chunks_at (flat s') x' = firstn 1 (chunks_at (flat s) x) /\
      forall p, ar_root (wp_arena x) = Some p ->
        exists v, In v (wheld (flat s)) /\ In v (wheld (flat s')) /\ u_ptr v = p /\ 0 < u_len v /\ spare (bw_mem (tk_w s')) x' = u_len v - HEADER.
  Proof. destruct treached as [b Hi]. apply (reset_warms su Hok vmax Hvmax s b t xs k x Hi). Qed.
  End Reached.
End Whole.
