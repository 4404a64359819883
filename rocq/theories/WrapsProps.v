(** Lemmas behind the theorems of Properties_Wraps.v. *)
From Coq Require Import Permutation.
From Verif Require Import Base BaseFacts Alloc AllocFacts Arena ArenaFacts ArenaInv ArenaOps BlinkAlloc BlinkFacts
  History HistoryFacts Frame ProxyFacts Setup SetupFacts SetupOps Wraps WrapsFacts.

Lemma wrun_app su xs : forall ys s, wrun su (xs ++ ys) s =
  match wrun su xs s with
  | ORet rs s1 => match wrun su ys s1 with ORet rs' s2 => ORet (rs ++ rs') s2 | OPanic s2 => OPanic s2 | OAbort => OAbort | OUB => OUB end
  | OPanic s1 => OPanic s1 | OAbort => OAbort | OUB => OUB
  end.
Proof.
  induction xs as [|a xs IH]; intros ys s; cbn [app wrun].
  - unfold ret. destruct (wrun su ys s); reflexivity.
  - unfold bind. destruct (wstep su a s) as [r s1|s1| |]; try reflexivity. rewrite IH.
    destruct (wrun su xs s1) as [rs s2|s2| |]; try reflexivity. unfold ret. destruct (wrun su ys s2); reflexivity.
Qed.

Lemma walk_chain m cs : chain m cs -> (forall c, In c cs -> 0 < c_ptr c) -> walk m (length cs) (head_ptr cs) = map c_ptr cs.
Proof.
  induction cs as [|c cs IH]; intros H Hp; [reflexivity|]. cbn [chain] in H. destruct H as (_ & (_ & _ & H & _) & H').
  cbn [length head_ptr walk map]. rewrite H. f_equal.
  rewrite <- IH; [|exact H'|intros c' Hc'; apply Hp; right; exact Hc'].
  f_equal. destruct cs as [|c' cs]; [reflexivity|]. cbn [head_ptr ptr_opt]. unfold opt_ptr.
  specialize (Hp c' (or_intror (or_introl eq_refl))). destruct (Z.eqb_spec (c_ptr c') 0); [lia|reflexivity].
Qed.

Section Wraps.
  Variable su : setup.
  Hypothesis Hok : setup_ok su.
  Notation amax := (su_amax su).
  Notation bown := (base_own (su_amax su) (su_bmax su)).
  Notation B := (bot su).
  Notation Hct := (su_ct su Hok).
  Notation lrep := (lrep su).
  Notation winv := (winv su).

  Lemma reached_winv xs rs s : Forall (min_fine su) xs -> wrun su xs wstart = ORet rs s ->
    length rs = length xs /\ winv s (wspecs xs (map (option_map b_len) rs) wspec0).
  Proof.
    intros Hm E. pose proof (wrun_ok su Hok xs [] wstart wspec0 Hm (wstart_ok su)) as X. unfold wp in X. rewrite E in X.
    destruct X as (L & css & Hi & _). split; [exact L|exists css; exact Hi].
  Qed.
  Lemma all_run xs : Forall (min_fine su) xs -> exists rs s, wrun su xs wstart = ORet rs s.
  Proof.
    intros Hm. pose proof (wrun_ok su Hok xs [] wstart wspec0 Hm (wstart_ok su)) as X. apply wp_inv in X.
    destruct X as (rs & s & E & _). eauto.
  Qed.

  Lemma own_pos w us u : bown w us -> In u us -> 0 < u_ptr u.
  Proof.
    intros Ho Hu. destruct (ct_wf _ _ _ _ Hct _ _ Ho) as [O _]. rewrite Forall_forall in O. destruct (O u Hu) as ((G & _) & _). exact G.
  Qed.
  Lemma lrep_walk cs x s F : lrep (bw_mem (ws_w s)) cs x -> bown (ws_w s) (map c_u cs ++ F) -> chunks_at s x = map c_ptr cs.
  Proof.
    intros L Ho. unfold chunks_at. rewrite (lr_head _ _ _ _ L), (lr_count _ _ _ _ L). apply walk_chain; [apply L|].
    intros c Hc. apply (own_pos _ _ (c_u c) Ho). apply in_or_app. left. apply in_map. exact Hc.
  Qed.

  (** The chunks of one among all. *)
  Lemma winv_in s b k x : winv s b -> nth_error (ws_wraps s) k = Some x ->
    exists cs F, lrep (bw_mem (ws_w s)) cs x /\ bown (ws_w s) (map c_u cs ++ F).
  Proof.
    intros [css Hi] E. pose proof (winv_fate su css s b k Hi) as Hf. rewrite E in Hf. destruct (nth_error (wx_wraps b) k) as [[f t]|] eqn:E2; [|contradiction].
    destruct (winv_wrap su Hok css s b k x f t Hi E E2) as (cs & F & _ & _ & _ & L & Ho & _). exists cs, F. auto.
  Qed.

  (** ** Accounting *)
  Lemma winv_held s b : winv s b ->
    Permutation (map u_ptr (wheld s)) (concat (map (chunks_at s) (ws_wraps s)) ++ map u_ptr (live (ws_tab s))) /\
    legal (su_bmax su) (bw_trace (ws_w s)).
  Proof.
    intros (css & HL & Ho & _). pose proof Ho as [[_ P] Lg]. split; [|exact Lg].
    unfold wheld. rewrite <- P, map_app. apply Permutation_app_tail.
    replace (concat (map (chunks_at s) (ws_wraps s))) with (map u_ptr (allc css)); [reflexivity|].
    clear P Lg. revert Ho. generalize (live (ws_tab s)). induction HL as [|cs x css xs Hx HL IH]; intros F Ho; [reflexivity|].
    change (allc (cs :: css)) with (map c_u cs ++ allc css) in *. rewrite <- app_assoc in Ho. cbn [map concat]. rewrite map_app. f_equal.
    - rewrite (lrep_walk cs x s _ Hx Ho), map_map. reflexivity.
    - apply (IH (map c_u cs ++ F)). apply (ct_perm _ _ _ _ Hct _ _ _ Ho). apply Permutation_app_swap_app.
  Qed.

  Lemma winv_empty s b : winv s b -> (forall k x, nth_error (ws_wraps s) k = Some x -> ar_root (wp_arena x) = None) ->
    Permutation (wheld s) (live (ws_tab s)).
  Proof.
    intros (css & HL & Ho & _) Hn. destruct Ho as [[_ P] _]. unfold wheld. rewrite <- P.
    replace (allc css) with (@nil ublock); [reflexivity|]. clear P.
    induction HL as [|cs x css xs Hx HL IH]; [reflexivity|]. change (allc (cs :: css)) with (map c_u cs ++ allc css).
    rewrite <- IH by (intros k; apply (Hn (S k))). pose proof (lr_head _ _ _ _ Hx) as H1. rewrite (Hn O x eq_refl) in H1.
    destruct cs; [reflexivity|discriminate H1].
  Qed.

  (** ** Where the blocks are *)
  Lemma winv_placed s b k x h u : winv s b -> nth_error (ws_wraps s) k = Some x -> get h (wp_tab x) = Some u ->
    u_ok amax u /\ exists v, In v (wheld s) /\ inside u v /\ In (u_ptr v) (chunks_at s x).
  Proof.
    intros Hi E G. destruct (winv_in s b k x Hi E) as (cs & F & L & Ho).
    assert (Hu : In u (live (wp_tab x))) by (apply live_in; eauto).
    pose proof (lr_ok _ _ _ _ L) as O. rewrite Forall_forall in O. split; [apply O; exact Hu|].
    pose proof (lr_placed _ _ _ _ L) as P. unfold placed in P. rewrite Forall_forall in P. destruct (P u Hu) as (c & Hc & P1 & P2).
    exists (c_u c). split; [|split].
    - destruct Ho as [[_ Q] _]. unfold wheld. rewrite <- Q. apply in_or_app. left. apply in_map. exact Hc.
    - pose proof (chain_cwf _ _ c (lr_chain _ _ _ _ L) Hc) as (_ & _ & C). unfold inside, HEADER, c_base, c_end, c_ptr, HDR in *. lia.
    - rewrite (lrep_walk cs x s F L Ho). apply (in_map c_ptr) in Hc. exact Hc.
  Qed.
  Lemma winv_direct s b h u : winv s b -> get h (ws_tab s) = Some u -> In u (wheld s).
  Proof.
    intros (css & _ & Ho & _) G. destruct Ho as [[_ Q] _]. unfold wheld. rewrite <- Q. apply in_or_app. right. apply live_in. eauto.
  Qed.

  (** Chunks of different ones, and direct blocks, do not overlap. *)
  Lemma winv_apart s b who1 h1 u1 who2 h2 u2 : winv s b ->
    wowns s who1 h1 u1 -> wowns s who2 h2 u2 -> (who1, h1) <> (who2, h2) -> disjoint_u u1 u2.
  Proof.
    intros Hi.
    assert (Hdw : forall h u k h' u', wowns s None h u -> wowns s (Some k) h' u' -> disjoint_u u u').
    { intros h u k h' u' G (x & E & G'). destruct Hi as (css & HL & Ho & _).
      pose proof (Forall2_nth _ _ _ k HL) as Hk. rewrite E in Hk. destruct (nth_error css k) as [cs|] eqn:Ec; [|contradiction].
      pose proof (lr_placed _ _ _ _ Hk) as P. unfold placed in P. rewrite Forall_forall in P.
      destruct (P u') as (c & Hc & P1 & P2); [apply live_in; eauto|].
      pose proof (chain_cwf _ _ c (lr_chain _ _ _ _ Hk) Hc) as (_ & _ & C).
      destruct (ct_wf _ _ _ _ Hct _ _ Ho) as [_ D]. apply pairwise_app in D. destruct D as (_ & _ & D).
      assert (H1 : In (c_u c) (allc css)) by (apply (allc_in css cs); [apply nth_error_In with (1 := Ec)|exact Hc]).
      assert (H2 : In u (live (ws_tab s))) by (apply live_in; eauto).
      intros y Hy Hy'. apply (D _ _ H1 H2 y); [|exact Hy]. unfold in_u, c_base, c_end, c_ptr, HDR in *. lia. }
    assert (Hww : forall k1 k2 h u h' u', (k1 < k2)%nat -> wowns s (Some k1) h u -> wowns s (Some k2) h' u' -> disjoint_u u u').
    { intros k1 k2 h u h' u' Hlt (x1 & E1 & G1) (x2 & E2 & G2). destruct Hi as (css & HL & Ho & _).
      pose proof (Forall2_nth _ _ _ k1 HL) as Hk1. rewrite E1 in Hk1. destruct (nth_error css k1) as [cs1|] eqn:Ec1; [|contradiction].
      pose proof (Forall2_nth _ _ _ k2 HL) as Hk2. rewrite E2 in Hk2. destruct (nth_error css k2) as [cs2|] eqn:Ec2; [|contradiction].
      destruct (nth_split_at _ _ _ Ec1) as (l1 & l2 & -> & L1). rewrite nth_error_app2 in Ec2 by lia.
      destruct (k2 - length l1)%nat as [|d] eqn:Ed; [lia|]. cbn [nth_error] in Ec2.
      pose proof (lr_placed _ _ _ _ Hk1) as P. unfold placed in P. rewrite Forall_forall in P.
      destruct (P u) as (c1 & Hc1 & P1 & P2); [apply live_in; eauto|].
      pose proof (chain_cwf _ _ c1 (lr_chain _ _ _ _ Hk1) Hc1) as (_ & _ & C1).
      pose proof (lr_placed _ _ _ _ Hk2) as P'. unfold placed in P'. rewrite Forall_forall in P'.
      destruct (P' u') as (c2 & Hc2 & P3 & P4); [apply live_in; eauto|].
      pose proof (chain_cwf _ _ c2 (lr_chain _ _ _ _ Hk2) Hc2) as (_ & _ & C2).
      destruct (ct_wf _ _ _ _ Hct _ _ Ho) as [_ D]. apply pairwise_app in D. destruct D as (D & _ & _).
      rewrite allc_app in D. apply pairwise_app in D. destruct D as (_ & D & _).
      change (allc (cs1 :: l2)) with (map c_u cs1 ++ allc l2) in D. apply pairwise_app in D. destruct D as (_ & _ & D).
      assert (H1 : In (c_u c1) (map c_u cs1)) by (apply in_map; exact Hc1).
      assert (H2 : In (c_u c2) (allc l2)) by (apply (allc_in l2 cs2); [apply nth_error_In with (1 := Ec2)|exact Hc2]).
      intros y Hy Hy'. apply (D _ _ H1 H2 y); unfold in_u, c_base, c_end, c_ptr, HDR in *; lia. }
    intros O1 O2 Hne. destruct who1 as [k1|], who2 as [k2|].
    - destruct (Nat.lt_trichotomy k1 k2) as [H|[H|H]].
      + apply (Hww k1 k2 h1 u1 h2 u2 H O1 O2).
      + subst k2. destruct O1 as (x & E & G1), O2 as (x' & E' & G2). rewrite E in E'. injection E' as <-.
        destruct (winv_in s b k1 x Hi E) as (cs & F & L & _).
        apply (get_pairwise disjoint_u disjoint_u_sym (wp_tab x) h1 h2 u1 u2 (lr_disj _ _ _ _ L)); auto; congruence.
      + apply disjoint_u_sym. apply (Hww k2 k1 h2 u2 h1 u1 H O2 O1).
    - apply disjoint_u_sym. apply (Hdw h2 u2 k1 h1 u1 O2 O1).
    - apply (Hdw h1 u1 k2 h2 u2 O1 O2).
    - destruct Hi as (css & _ & Ho & _). destruct (ct_wf _ _ _ _ Hct _ _ Ho) as [_ D]. apply pairwise_app in D. destruct D as (_ & D & _).
      apply (get_pairwise disjoint_u disjoint_u_sym (ws_tab s) h1 h2 u1 u2 D); auto; congruence.
  Qed.

  (** ** Unwrapping *)

  Lemma unwrap_nothing k s r s' : wstep su (WUnwrap k) s = ORet r s' -> ws_w s' = ws_w s /\ ws_tab s' = ws_tab s /\
    (forall x, nth_error (ws_wraps s) k = Some x -> wp_fate x = Alive ->
      nth_error (ws_wraps s') k = Some (mkWrap Unwrapped (wp_arena x) (wp_tab x))).
  Proof.
    unfold wstep, fate_of, on_wrap. destruct (nth_error (ws_wraps s) k) as [x|] eqn:E; cbn [ret].
    - destruct (wp_fate x) eqn:Ef; intros X; injection X as <- <-; cbn [ws_w ws_tab ws_wraps c_w c_tab fst snd]; (split; [reflexivity|]; split; [reflexivity|]);
        intros x' E' Ef'; injection E' as <-; try congruence.
      destruct (nth_split_at _ _ _ E) as (l1 & l2 & -> & <-). rewrite set_nth_split. apply nth_mid.
    - intros X; injection X as <- <-. split; [reflexivity|]. split; [reflexivity|]. intros x' E'. discriminate E'.
  Qed.


  (** It stays as it is for ever, and so do its chunks. *)
  Lemma unwrapped_for_ever xs rs s ys rs' s' k x : Forall (min_fine su) (xs ++ ys) ->
    wrun su xs wstart = ORet rs s -> wrun su ys s = ORet rs' s' ->
    nth_error (ws_wraps s) k = Some x -> wp_fate x = Unwrapped ->
    nth_error (ws_wraps s') k = Some x /\ chunks_at s' x = chunks_at s x /\
    (forall a, In a (chunks_at s x) -> exists u, u_ptr u = a /\ 0 < u_len u /\ In u (wheld s) /\ In u (wheld s')).
  Proof.
    intros Hm E E' Ex Hf. apply Forall_app in Hm. destruct Hm as [Hm Hm'].
    destruct (reached_winv xs rs s Hm E) as (_ & css & Hi).
    pose proof (wrun_ok su Hok ys css s _ Hm' Hi) as X. unfold wp in X. rewrite E' in X. destruct X as (_ & css' & Hi' & St).
    destruct (St k x Ex Hf) as [Ex' Ec]. split; [exact Ex'|].
    destruct Hi as (HL & Ho & _), Hi' as (HL' & Ho' & _).
    pose proof (Forall2_nth _ _ _ k HL) as L. pose proof (Forall2_nth _ _ _ k HL') as L'. rewrite Ex in L. rewrite Ex', Ec in L'.
    destruct (nth_error css k) as [cs|] eqn:Ek; [|contradiction].
    assert (Hall : forall c0 w F, nth_error c0 k = Some cs -> bown w (allc c0 ++ F) -> exists F', bown w (map c_u cs ++ F')).
    { intros c0 w F E0 O0. destruct (nth_split_at _ _ _ E0) as (l1 & l2 & -> & _). exists (allc (l1 ++ l2) ++ F).
      apply (ct_perm _ _ _ _ Hct _ _ _ O0). rewrite app_assoc. apply Permutation_app_tail. apply allc_mid. }
    destruct (Hall css _ _ Ek Ho) as [F1 O1]. destruct (Hall css' _ _ Ec Ho') as [F2 O2].
    rewrite (lrep_walk cs x s' F2 L' O2), (lrep_walk cs x s F1 L O1). split; [reflexivity|].
    intros a Ha. apply in_map_iff in Ha. destruct Ha as (c & Ec' & Hc). exists (c_u c).
    pose proof O1 as [[_ P1] _]. pose proof O2 as [[_ P2] _]. unfold wheld. rewrite <- P1, <- P2.
    split; [exact Ec'|]. split; [|split; apply in_or_app; left; apply in_map; exact Hc].
    pose proof (chain_cwf _ _ c (lr_chain _ _ _ _ L) Hc) as (_ & C1 & C2). unfold c_base, c_end, c_ptr, HDR in *. lia.
  Qed.

  (** [reset_final] first: nothing is left behind. *)
  Lemma final_then_unwrap xs rs s k x : Forall (min_fine su) xs -> wrun su xs wstart = ORet rs s ->
    nth_error (ws_wraps s) k = Some x -> wp_fate x = Alive ->
    exists rs' s' x', wrun su [WUse k (OpReset false); WUnwrap k] s = ORet rs' s' /\
      nth_error (ws_wraps s') k = Some x' /\ wp_fate x' = Unwrapped /\ ar_root (wp_arena x') = None /\ chunks_at s' x' = [].
  Proof.
    intros Hm E Ex Hf. destruct (reached_winv xs rs s Hm E) as (_ & Hi). destruct (winv_in s _ k x Hi Ex) as (cs & F & L & Ho).
    cbn [wrun]. unfold bind at 1. unfold wstep at 1, fate_of. rewrite Ex, Hf. cbn [usable].
    unfold on_wrap. rewrite Ex. unfold step, step_at. cbn [c_tab]. unfold bind at 1. unfold call, do_reset, blink_reset_final. cbn [c_w c_tab].
    pose proof (arena_reset_final_ok amax (su_bmax su) B _ Hct F cs (wp_arena x) (ws_w s) _ (lrep_arep su F cs x (ws_w s) L Ho)) as X.
    apply wp_inv in X. destruct X as ([] & [ar' w'] & E1 & _ & _ & M & _ & R). cbn [fst snd] in *. rewrite E1.
    unfold ret at 1. cbn [c_w c_tab fst snd]. set (y := mkWrap Alive ar' (map (fun _ => None) (wp_tab x))).
    destruct (nth_split_at _ _ _ Ex) as (l1 & l2 & El & Ek). rewrite El, <- Ek, set_nth_split.
    unfold bind, ret, wstep, fate_of, on_wrap. cbn [ws_wraps ws_w ws_tab]. rewrite nth_mid. cbn [y wp_fate c_w c_tab fst snd wp_arena wp_tab].
    eexists _, _, (mkWrap Unwrapped ar' (map (fun _ => None) (wp_tab x))). split; [reflexivity|]. cbn [ws_wraps]. rewrite set_nth_split, nth_mid.
    split; [reflexivity|]. split; [reflexivity|]. split; [exact M|]. unfold chunks_at. cbn [wp_arena]. rewrite M.
    destruct (ar_depth ar'); reflexivity.
  Qed.

  (** A dropped one has no chunks either. *)
  Lemma dropped_empty s b k x : winv s b -> nth_error (ws_wraps s) k = Some x -> wp_fate x = Dropped -> ar_root (wp_arena x) = None.
  Proof.
    intros Hi E Hf. destruct (winv_in s b k x Hi E) as (cs & F & L & _). rewrite (lr_head _ _ _ _ L), (lr_gone _ _ _ _ L Hf). reflexivity.
  Qed.

  (** ** In the form of Properties_Wraps.v *)
  Lemma total xs : Forall (min_fine su) xs -> exists rs s, wrun su xs wstart = ORet rs s /\ length rs = length xs /\
    wagrees s (wspecs xs (map (option_map b_len) rs) wspec0).
  Proof.
    intros Hm. destruct (all_run xs Hm) as (rs & s & E). exists rs, s. split; [exact E|].
    destruct (reached_winv xs rs s Hm E) as (L & css & _ & _ & Hi). split; [exact L|exact Hi].
  Qed.
  Lemma all_returned xs rs s : Forall (min_fine su) xs -> wrun su xs wstart = ORet rs s ->
    (forall k x, nth_error (ws_wraps s) k = Some x -> wp_fate x = Dropped \/ chunks_at s x = []) ->
    Permutation (wheld s) (live (ws_tab s)).
  Proof.
    intros Hm E Hg. destruct (reached_winv xs rs s Hm E) as (_ & Hi). apply (winv_empty s _ Hi). intros k x Ex.
    destruct (Hg k x Ex) as [Hf|Hf]; [apply (dropped_empty s _ k x Hi Ex Hf)|].
    destruct (winv_in s _ k x Hi Ex) as (cs & F & L & Ho). rewrite (lrep_walk cs x s F L Ho) in Hf.
    rewrite (lr_head _ _ _ _ L). destruct cs; [reflexivity|discriminate Hf].
  Qed.
End Wraps.
