(** Many [BlinkAlloc]s on one underlying allocator: every history keeps the invariant. *)
From Coq Require Import Permutation.
From Verif Require Import Base BaseFacts Alloc AllocFacts Arena ArenaFacts ArenaInv ArenaOps BlinkAlloc BlinkFacts
  History HistoryFacts Frame ProxyFacts Setup SetupFacts Wraps.

(** All chunks. *)
Definition allc (css : list (list chunk)) : list ublock := concat (map (map c_u) css).
Lemma allc_app c1 c2 : allc (c1 ++ c2) = allc c1 ++ allc c2.
Proof. unfold allc. rewrite map_app, concat_app. reflexivity. Qed.
Lemma allc_mid c1 cs c2 : Permutation (allc (c1 ++ cs :: c2)) (map c_u cs ++ allc (c1 ++ c2)).
Proof. rewrite !allc_app. cbn [allc map concat]. fold (allc c2). apply Permutation_app_swap_app. Qed.
Lemma allc_in css cs c : In cs css -> In c cs -> In (c_u c) (allc css).
Proof. intros H1 H2. unfold allc. apply in_concat. exists (map c_u cs). split; [apply in_map; exact H1|apply in_map; exact H2]. Qed.

Lemma Forall2_len {T S} (R : T -> S -> Prop) l r : Forall2 R l r -> length l = length r.
Proof. induction 1; cbn; congruence. Qed.
Lemma Forall2_turn {T S} (R : T -> S -> Prop) l r : Forall2 R l r -> Forall2 (fun y x => R x y) r l.
Proof. induction 1; constructor; auto. Qed.
Lemma app_inv_len {T} (l1 l2 r1 r2 : list T) : l1 ++ l2 = r1 ++ r2 -> length l1 = length r1 -> l1 = r1 /\ l2 = r2.
Proof.
  revert r1. induction l1 as [|x l1 IH]; intros [|y r1] E L; cbn in *; try discriminate L; [auto|].
  injection E as -> E. injection L as L. destruct (IH _ E L) as [-> ->]. auto.
Qed.
Lemma nth_split_at {T} (l : list T) k x : nth_error l k = Some x -> exists l1 l2, l = l1 ++ x :: l2 /\ length l1 = k.
Proof. apply nth_error_split. Qed.
Lemma Forall2_split {T S} (R : T -> S -> Prop) l1 x l2 r : Forall2 R (l1 ++ x :: l2) r ->
  exists r1 y r2, r = r1 ++ y :: r2 /\ length r1 = length l1 /\ Forall2 R l1 r1 /\ R x y /\ Forall2 R l2 r2.
Proof.
  intros H. apply Forall2_app_inv_l in H. destruct H as (r1 & r2 & H1 & H2 & ->).
  inversion H2 as [|? y ? r3 Hy H3]; subst. exists r1, y, r3. split; [reflexivity|].
  split; [symmetry; apply (Forall2_len _ _ _ H1)|]. auto.
Qed.
Lemma nth_mid {T} (l1 : list T) x l2 : nth_error (l1 ++ x :: l2) (length l1) = Some x.
Proof. rewrite nth_error_app2 by lia. rewrite Nat.sub_diag. reflexivity. Qed.
Lemma Forall2_nth {T S} (R : T -> S -> Prop) l r k : Forall2 R l r ->
  match nth_error l k, nth_error r k with Some x, Some y => R x y | None, None => True | _, _ => False end.
Proof. intros H. revert k. induction H as [|x y l r Hxy H IH]; intros [|k]; cbn; auto. apply IH. Qed.

Lemma set_nth_other {T} k j (y : T) : forall l, k <> j -> nth_error (set_nth k y l) j = nth_error l j.
Proof.
  revert j. induction k as [|k IH]; intros j [|z l] H; try reflexivity; destruct j as [|j]; try reflexivity; [contradiction|].
  cbn [set_nth nth_error]. apply IH. congruence.
Qed.
Lemma set_nth_same {T} k (x : T) l : nth_error l k = Some x -> set_nth k x l = l.
Proof. intros H. destruct (nth_split_at _ _ _ H) as (l1 & l2 & -> & <-). apply set_nth_split. Qed.

Section Wraps.
  Variable su : setup.
  Hypothesis Hok : setup_ok su.
  Notation amax := (su_amax su).
  Notation bown := (base_own (su_amax su) (su_bmax su)).
  Notation B := (bot su).
  Notation Hct := (su_ct su Hok).

  (** The chunks [cs] are those of [x]. *)
  Record lrep (m : mem) (cs : list chunk) (x : wrap) : Prop := mkLrep {
    lr_head : ar_root (wp_arena x) = head_ptr cs;
    lr_count : ar_depth (wp_arena x) = length cs;
    lr_min : setup_ok (with_min su (ar_min (wp_arena x)));
    lr_chain : chain m cs;
    lr_placed : placed cs (live (wp_tab x));
    lr_ok : Forall (u_ok amax) (live (wp_tab x));
    lr_disj : pairwise disjoint_u (live (wp_tab x));
    lr_gone : wp_fate x = Dropped -> cs = []
  }.

  Definition winvc (css : list (list chunk)) (s : wst) (b : wspec) : Prop :=
    Forall2 (lrep (bw_mem (ws_w s))) css (ws_wraps s) /\
    bown (ws_w s) (allc css ++ live (ws_tab s)) /\ wagrees s b.
  Definition winv (s : wst) (b : wspec) : Prop := exists css, winvc css s b.

  (** What never changes: a [BlinkAlloc] that has been unwrapped, its chunks. *)
  Definition stays (css css' : list (list chunk)) (s s' : wst) : Prop :=
    forall j x, nth_error (ws_wraps s) j = Some x -> wp_fate x = Unwrapped ->
      nth_error (ws_wraps s') j = Some x /\ nth_error css' j = nth_error css j.
  Lemma stays_refl css s : stays css css s s.
  Proof. intros j x E _. auto. Qed.

  Lemma lrep_arep F cs x w : lrep (bw_mem w) cs x -> bown w (map c_u cs ++ F) ->
    arep amax B bown F cs (wp_arena x) w (live (wp_tab x)).
  Proof. intros [H1 H2 H3 H4 H5 H6 H7 _] Ho. constructor; auto. apply H3. Qed.
  Lemma lrep_framed F cs x w : lrep (bw_mem w) cs x -> bown w (map c_u cs ++ F) ->
    arep amax B (framed B bown F (bw_mem w)) [] cs (wp_arena x) w (live (wp_tab x)).
  Proof.
    intros [H1 H2 H3 H4 H5 H6 H7 _] Ho. constructor; auto; [apply H3|]. rewrite app_nil_r. split; [exact Ho|apply same_on_refl].
  Qed.
  Lemma arep_lrep F m0 cs f ar tab w : arep amax B (framed B bown F m0) [] cs ar w (live tab) ->
    setup_ok (with_min su (ar_min ar)) -> (f = Dropped -> cs = []) ->
    lrep (bw_mem w) cs (mkWrap f ar tab) /\ bown w (map c_u cs ++ F) /\ same_on F m0 (bw_mem w).
  Proof.
    intros [H1 H2 H3 H4 [H5 H5'] H6 H7 H8] Hm Hg. rewrite app_nil_r in H5. split; [constructor; auto|]. split; [exact H5|exact H5'].
  Qed.

  (** Nobody else's chunks changed. *)
  Lemma lrep_same cs x F F' w w' : lrep (bw_mem w) cs x -> bown w (map c_u cs ++ F) -> bown w' (map c_u cs ++ F') ->
    same_on (map c_u cs) (bw_mem w) (bw_mem w') ->
    lrep (bw_mem w') cs x /\ same_on (live (wp_tab x)) (bw_mem w) (bw_mem w').
  Proof.
    intros L Ho Ho' Hs.
    destruct (arep_frame amax (su_bmax su) B bown Hct F F' cs (wp_arena x) w w' (live (wp_tab x)) (lrep_arep F cs x w L Ho) Ho' Hs)
      as [R S]. split; [|exact S]. destruct L as [H1 H2 H3 H4 H5 H6 H7 H8]. constructor; auto. apply (ar_chain _ _ _ _ _ _ _ _ R).
  Qed.

  (** The same for a list of them. *)
  Lemma lreps_same css : forall xs ys F F' w w',
    Forall2 (lrep (bw_mem w)) css xs -> bown w (allc css ++ F) -> bown w' (allc css ++ F') ->
    same_on (allc css) (bw_mem w) (bw_mem w') ->
    Forall2 (fun x y => wp_fate x = fst y /\ agrees (bw_mem w) (wp_tab x) (snd y)) xs ys ->
    Forall2 (lrep (bw_mem w')) css xs /\
    Forall2 (fun x y => wp_fate x = fst y /\ agrees (bw_mem w') (wp_tab x) (snd y)) xs ys.
  Proof.
    induction css as [|cs css IH]; intros xs ys F F' w w' HL Ho Ho' Hs Ha; inversion HL as [|? x ? xs' Hx HL']; subst;
      inversion Ha as [|? y ? ys' Hy Ha']; subst; [split; constructor|].
    change (allc (cs :: css)) with (map c_u cs ++ allc css) in *. apply same_on_app in Hs. destruct Hs as [S1 S2].
    rewrite <- app_assoc in Ho, Ho'.
    destruct (lrep_same cs x _ _ w w' Hx Ho Ho' S1) as [L1 S3].
    destruct (IH xs' ys' (map c_u cs ++ F) (map c_u cs ++ F') w w' HL') as [H1 H2].
    - apply (ct_perm _ _ _ _ Hct _ _ _ Ho). apply Permutation_app_swap_app.
    - apply (ct_perm _ _ _ _ Hct _ _ _ Ho'). apply Permutation_app_swap_app.
    - exact S2.
    - exact Ha'.
    - split; constructor; auto. destruct Hy as [Y1 Y2]. split; [exact Y1|].
      apply (agrees_same (bw_mem w) _ _ _ (live (wp_tab x))); [apply incl_refl|exact S3|exact Y2].
  Qed.

  (** One of them changes. *)
  Lemma winv_wrap css s b k x f t :
    winvc css s b -> nth_error (ws_wraps s) k = Some x -> nth_error (wx_wraps b) k = Some (f, t) ->
    exists cs F, nth_error css k = Some cs /\ f = wp_fate x /\ agrees (bw_mem (ws_w s)) (wp_tab x) t /\
      lrep (bw_mem (ws_w s)) cs x /\ bown (ws_w s) (map c_u cs ++ F) /\
      (forall j cs1, j <> k -> nth_error css j = Some cs1 -> incl (map c_u cs1) F) /\
      forall cs' x' f' t' w', lrep (bw_mem w') cs' x' -> bown w' (map c_u cs' ++ F) -> same_on F (bw_mem (ws_w s)) (bw_mem w') ->
        f' = wp_fate x' -> agrees (bw_mem w') (wp_tab x') t' ->
        winvc (set_nth k cs' css) (mkWst w' (set_nth k x' (ws_wraps s)) (ws_tab s)) (mkWs (set_nth k (f', t') (wx_wraps b)) (wx_tab b)).
  Proof.
    intros (HL & Ho & Ha & Hd) E1 E2.
    destruct (nth_split_at _ _ _ E1) as (l1 & l2 & El & Ek). rewrite El in *.
    apply Forall2_turn in HL. destruct (Forall2_split _ _ _ _ _ HL) as (c1 & cs & c2 & -> & Ec & HL1 & Hx & HL2).
    destruct (Forall2_split _ _ _ _ _ Ha) as (y1 & y & y2 & Ey & Ec' & Ha1 & Hy & Ha2).
    rewrite Ey in *. rewrite <- Ek, <- Ec' in E2. rewrite nth_mid in E2. injection E2 as ->. destruct Hy as [Y1 Y2]. cbn [fst snd] in *.
    exists cs, (allc (c1 ++ c2) ++ live (ws_tab s)).
    assert (Ho' : bown (ws_w s) (map c_u cs ++ allc (c1 ++ c2) ++ live (ws_tab s))).
    { apply (ct_perm _ _ _ _ Hct _ _ _ Ho). rewrite app_assoc. apply Permutation_app_tail. apply allc_mid. }
    split; [rewrite <- Ek, <- Ec; apply nth_mid|]. split; [congruence|]. split; [exact Y2|]. split; [exact Hx|]. split; [exact Ho'|].
    split.
    { intros j cs1 Hj Ej u Hu. apply in_or_app. left. apply in_map_iff in Hu. destruct Hu as (c & <- & Hc). apply (allc_in _ cs1); [|exact Hc].
      assert (Hk : length c1 = k) by congruence. destruct (Nat.lt_ge_cases j (length c1)) as [Hlt|Hge].
      - rewrite nth_error_app1 in Ej by exact Hlt. apply in_or_app. left. apply nth_error_In with (1 := Ej).
      - rewrite nth_error_app2 in Ej by exact Hge. destruct (j - length c1)%nat as [|d] eqn:Ed; [lia|]. cbn in Ej.
        apply in_or_app. right. apply nth_error_In with (1 := Ej). }
    intros cs' x' f' t' w' L' O' S' -> A'. apply same_on_app in S'. destruct S' as [S1 S2].
    apply Forall2_turn in HL1, HL2.
    destruct (lreps_same (c1 ++ c2) (l1 ++ l2) (y1 ++ y2) (map c_u cs ++ live (ws_tab s)) (map c_u cs' ++ live (ws_tab s)) (ws_w s) w')
      as [G1 G2].
    - apply Forall2_app; assumption.
    - apply (ct_perm _ _ _ _ Hct _ _ _ Ho'). apply Permutation_app_swap_app.
    - apply (ct_perm _ _ _ _ Hct _ _ _ O'). apply Permutation_app_swap_app.
    - exact S1.
    - apply Forall2_app; assumption.
    - assert (Hlen : length c1 = length l1) by exact Ec. assert (Hlen' : length l1 = length y1) by congruence.
      apply Forall2_app_inv_l in G1. destruct G1 as (a1 & a2 & G1 & G1' & Ea).
      apply app_inv_len in Ea; [|rewrite <- (Forall2_len _ _ _ G1); congruence]. destruct Ea as [<- <-].
      apply Forall2_app_inv_l in G2. destruct G2 as (a1' & a2' & G2 & G2' & Ea).
      apply app_inv_len in Ea; [|rewrite <- (Forall2_len _ _ _ G2); congruence]. destruct Ea as [<- <-].
      assert (X1 : set_nth k x' (l1 ++ x :: l2) = l1 ++ x' :: l2) by (rewrite <- Ek; apply set_nth_split).
      assert (X2 : set_nth k (wp_fate x', t') (y1 ++ (f, t) :: y2) = y1 ++ (wp_fate x', t') :: y2) by (rewrite <- Ek, <- Ec'; apply set_nth_split).
      assert (X3 : set_nth k cs' (c1 ++ cs :: c2) = c1 ++ cs' :: c2) by (rewrite <- Ek, <- Ec; apply set_nth_split).
      rewrite X1, X2, X3. unfold winvc. cbn [ws_w ws_wraps ws_tab]. split; [apply Forall2_app; [exact G1|constructor; [exact L'|exact G1']]|].
      split.
      + apply (ct_perm _ _ _ _ Hct _ _ _ O'). rewrite app_assoc. apply Permutation_app_tail. symmetry. apply allc_mid.
      + split; cbn [ws_w ws_wraps ws_tab wx_wraps wx_tab].
        * apply Forall2_app; [exact G2|constructor; [|exact G2']]. split; [reflexivity|exact A'].
        * apply (agrees_same (bw_mem (ws_w s)) _ _ _ (live (ws_tab s))); [apply incl_refl|exact S2|exact Hd].
  Qed.

  (** *** The allocators *)

  Lemma min_cfg min : setup_ok (with_min su min) -> cfg_ok (su_dbg su) amax (su_smax su) min (su_bmax su).
  Proof. intros H. apply (su_cfg (with_min su min) H). Qed.

  (** [BlinkAlloc] while the blocks [F] keep their contents. *)
  Definition mine (F : list ublock) (m0 : mem) (min : Z) : AW (W := bworld) -> list ublock -> Prop :=
    blink_own amax B (framed B bown F m0) (fun _ _ => True) [] min.
  Lemma mine_contract F m0 min : setup_ok (with_min su min) -> contract amax (su_smax su) (ba su) (mine F m0 min).
  Proof.
    intros H. apply (blink_contract amax (su_smax su) (su_bmax su) B _ (contract_framed _ _ _ _ F m0 Hct) (su_amax_ok su Hok)).
    - apply jinv_true.
    - apply min_cfg. exact H.
  Qed.
  Lemma mine_reset F m0 min k aw us : mine F m0 min aw us -> wp (do_reset su k) aw (fun _ aw' => mine F m0 min aw' []).
  Proof.
    intros (cs & R & _ & Hm). replace (do_reset su k) with (arena_reset B k) by (destruct k; reflexivity).
    eapply wp_mono; [apply (serves_reset amax (su_bmax su) B _ (contract_framed _ _ _ _ F m0 Hct) min [] aw us k)|].
    - exists cs. split; [exact R|exact Hm].
    - intros _ aw' [_ (cs' & R' & Hm')]. exists cs'. auto.
  Qed.

  Lemma winv_fate css s b k : winvc css s b ->
    match nth_error (ws_wraps s) k, nth_error (wx_wraps b) k with
    | Some x, Some (f, t) => f = wp_fate x /\ fate_of k s = f
    | None, None => fate_of k s = Dropped
    | _, _ => False
    end.
  Proof.
    intros (_ & _ & Ha & _). pose proof (Forall2_nth _ _ _ k Ha) as H. unfold fate_of.
    destruct (nth_error (ws_wraps s) k) as [x|], (nth_error (wx_wraps b) k) as [[f t]|]; auto; try contradiction.
    destruct H as [H _]. cbn in H. auto.
  Qed.

  Lemma stays_put css s k x x' cs w t : nth_error (ws_wraps s) k = Some x -> wp_fate x <> Unwrapped ->
    stays css (set_nth k cs css) s (mkWst w (set_nth k x' (ws_wraps s)) t).
  Proof.
    intros E Hf j y Ej Hj. assert (Hkj : k <> j) by (intros ->; congruence). cbn [ws_wraps]. rewrite !set_nth_other by exact Hkj. auto.
  Qed.

  (** The others remain as they are, and so does all memory that they hold. *)
  Definition target (a : wact) : option nat := match a with WUse k _ | WUnwrap k | WDrop k => Some k | _ => None end.
  Definition kept (a : wact) (css css' : list (list chunk)) (s s' : wst) : Prop :=
    forall j x cs, target a <> Some j -> nth_error (ws_wraps s) j = Some x -> nth_error css j = Some cs ->
      nth_error (ws_wraps s') j = Some x /\ nth_error css' j = Some cs /\ same_on (map c_u cs) (bw_mem (ws_w s)) (bw_mem (ws_w s')).
  Lemma kept_refl a css s : kept a css css s s.
  Proof. intros j x cs _ E1 E2. split; [exact E1|]. split; [exact E2|apply same_on_refl]. Qed.
  Lemma kept_put a k css s cs' x' w' t' F : target a = Some k ->
    (forall j cs1, j <> k -> nth_error css j = Some cs1 -> incl (map c_u cs1) F) ->
    same_on F (bw_mem (ws_w s)) (bw_mem w') ->
    kept a css (set_nth k cs' css) s (mkWst w' (set_nth k x' (ws_wraps s)) t').
  Proof.
    intros Et Hi Hs j x cs Hj E1 E2. assert (Hkj : k <> j) by congruence. cbn [ws_wraps ws_w]. rewrite !set_nth_other by exact Hkj.
    split; [exact E1|]. split; [exact E2|]. intros u y Hu Hy. apply (Hs u y); [|exact Hy]. apply (Hi j cs); auto.
  Qed.

  (** A step from [s] does as it should. *)
  Notation good a css s b := (wp (wstep su a) s (fun r s' =>
    exists css', winvc css' s' (wspec_step a (option_map b_len r) b) /\ stays css css' s s' /\ kept a css css' s s')).

  (** Writing to a block of an unwrapped one. *)
  Lemma write_ok css s b k x t h off cells : winvc css s b -> nth_error (ws_wraps s) k = Some x -> wp_fate x = Unwrapped ->
    nth_error (wx_wraps b) k = Some (Unwrapped, t) -> good (WUse k (OpWrite h off cells)) css s b.
  Proof.
    intros Hi E1 Ef E2. unfold wp, wstep, wspec_step, fate_of. rewrite E1, E2, Ef. cbn [usable].
    destruct (winv_wrap css s b k x _ t Hi E1 E2) as (cs & F & Ec & _ & Ag & L & Ho & HF & Hput).
    unfold on_wrap. rewrite E1.
    pose proof (lr_min _ _ _ L) as Hm. pose proof (mine_contract F (bw_mem (ws_w s)) _ Hm) as Hc.
    assert (Hh : hinv (ba su) (mine F (bw_mem (ws_w s)) (ar_min (wp_arena x))) (mkCst (wp_tab x) (wp_arena x, ws_w s)) t).
    { split; [|exact Ag]. exists cs. cbn [c_w c_tab fst snd]. split; [apply lrep_framed; assumption|]. auto. }
    pose proof (step_any amax (su_smax su) (ba su) _ (do_reset su) Hc (OpWrite h off cells) _ t (fun k' _ => mine_reset F _ _ k') Hh) as X.
    apply wp_inv in X. destruct X as (r & c & E & _ & Ag'). rewrite E.
    assert (Hc' : exists w', c = mkCst (wp_tab x) (wp_arena x, w') /\ lrep (bw_mem w') cs x /\
      bown w' (map c_u cs ++ F) /\ same_on F (bw_mem (ws_w s)) (bw_mem w')).
    { unfold step, step_at in E. cbn [c_tab c_w] in E.
      assert (Hskip : forall o : option block, @ret (cst (AW (W := bworld))) _ o (mkCst (wp_tab x) (wp_arena x, ws_w s)) = ORet r c ->
        exists w', c = mkCst (wp_tab x) (wp_arena x, w') /\ lrep (bw_mem w') cs x /\
          bown w' (map c_u cs ++ F) /\ same_on F (bw_mem (ws_w s)) (bw_mem w')).
      { intros o Eo. unfold ret in Eo. injection Eo as _ <-. exists (ws_w s). split; [reflexivity|]. split; [exact L|]. split; [exact Ho|apply same_on_refl]. }
      destruct (get h (wp_tab x)) as [u|] eqn:G; [|apply (Hskip _ E)].
      destruct ((0 <=? off) && (off + Z.of_nat (length cells) <=? u_len u)) eqn:Eb; [|apply (Hskip _ E)].
      injection E as _ <-. cbn [ba blink al_set_mem al_mem fst snd].
      destruct (get_split _ _ _ G) as (t1 & t2 & Et & _).
      pose proof (lrep_framed F cs x (ws_w s) L Ho) as R.
      assert (R0 : arep amax B (framed B bown F (bw_mem (ws_w s))) [] cs (wp_arena x) (ws_w s) (u :: live (t1 ++ t2))).
      { eapply arep_perm; [|exact R]. rewrite Et. apply live_perm_mid. }
      destruct (arep_own_write amax (su_bmax su) B _ (contract_framed _ _ _ _ F (bw_mem (ws_w s)) Hct) cs (wp_arena x) (ws_w s) (live (t1 ++ t2)) [] u
        (write_cells (al_mem B (ws_w s)) (u_ptr u + off) cells) R0) as [R1 _].
      { intros y Hy. unfold write_cells. destruct ((u_ptr u + off <=? y) && (y <? u_ptr u + off + Z.of_nat (length cells))) eqn:Ey; [|reflexivity].
        unfold in_u in Hy. lia. }
      eexists. split; [reflexivity|].
      assert (R2 : arep amax B (framed B bown F (bw_mem (ws_w s))) [] cs (wp_arena x)
        (al_set_mem B (ws_w s) (write_cells (al_mem B (ws_w s)) (u_ptr u + off) cells)) (live (wp_tab x))).
      { eapply arep_perm; [|exact R1]. rewrite Et. symmetry. apply live_perm_mid. }
      destruct (arep_lrep F (bw_mem (ws_w s)) cs (wp_fate x) (wp_arena x) (wp_tab x) _ R2 Hm) as (Y1 & Y2 & Y3).
      { intros Z1. rewrite Ef in Z1. discriminate Z1. }
      destruct x as [fx ax tx]. auto. }
    destruct Hc' as (w' & -> & L' & O' & S'). cbn [c_w c_tab fst snd] in *.
    assert (Ex : mkWrap Unwrapped (wp_arena x) (wp_tab x) = x) by (destruct x; cbn in *; congruence).
    rewrite Ex. rewrite (set_nth_same k x _ E1).
    pose proof (Hput cs x Unwrapped (sstep (OpWrite h off cells) (option_map b_len r) t) w' L' O' S' (eq_sym Ef) Ag') as X.
    rewrite (set_nth_same k x _ E1) in X. rewrite (set_nth_same k cs css Ec) in X.
    exists css. split; [exact X|]. split; [intros j y Ej _; auto|].
    pose proof (kept_put (WUse k (OpWrite h off cells)) k css s cs x w' (ws_tab s) F eq_refl HF S') as K.
    rewrite (set_nth_same k x _ E1), (set_nth_same k cs css Ec) in K. exact K.
  Qed.

  Lemma use_ok css s b k o : winvc css s b -> good (WUse k o) css s b.
  Proof.
    intros Hi. pose proof (winv_fate css s b k Hi) as Hf.
    destruct (nth_error (ws_wraps s) k) as [x|] eqn:E1, (nth_error (wx_wraps b) k) as [[f t]|] eqn:E2; try contradiction.
    2: { unfold wp, wstep, wspec_step. rewrite Hf, E2. cbn [usable]. exists css. split; [exact Hi|]. split; [apply stays_refl|apply kept_refl]. }
    destruct Hf as [Ef Ef']. destruct (usable f o) eqn:Eu.
    2: { unfold wp, wstep, wspec_step. rewrite Ef', E2, Eu. exists css. split; [exact Hi|]. split; [apply stays_refl|apply kept_refl]. }
    destruct f; [|destruct o; try discriminate Eu; apply (write_ok css s b k x t); auto|destruct o; discriminate Eu].
    unfold wp, wstep, wspec_step. rewrite Ef', E2. cbn [usable].
    destruct (winv_wrap css s b k x _ t Hi E1 E2) as (cs & F & _ & _ & Ag & L & Ho & HF & Hput).
    unfold on_wrap. rewrite E1.
    pose proof (lr_min _ _ _ L) as Hm.
    pose proof (mine_contract F (bw_mem (ws_w s)) _ Hm) as Hc.
    assert (Hh : hinv (ba su) (mine F (bw_mem (ws_w s)) (ar_min (wp_arena x))) (mkCst (wp_tab x) (wp_arena x, ws_w s)) t).
    { split; [|exact Ag]. exists cs. cbn [c_w c_tab fst snd]. split; [apply lrep_framed; assumption|]. auto. }
    pose proof (step_any amax (su_smax su) (ba su) _ (do_reset su) Hc o _ t (fun k' _ => mine_reset F _ _ k') Hh) as X.
    apply wp_inv in X. destruct X as (r & c & E & (cs' & R' & _ & Hm') & Ag'). rewrite E.
    destruct c as [tab' [ar' w']]. cbn [c_w c_tab fst snd] in *.
    destruct (arep_lrep F (bw_mem (ws_w s)) cs' Alive ar' tab' w' R') as (L' & O' & S').
    - rewrite Hm'. exact Hm.
    - discriminate.
    - exists (set_nth k cs' css). split; [apply (Hput cs' _ Alive _ w' L' O' S' eq_refl Ag')|].
      split; [apply (stays_put css s k x); [exact E1|congruence]|apply (kept_put (WUse k o) k css s cs' _ w' _ F eq_refl HF S')].
  Qed.

  Lemma unwrap_ok css s b k : winvc css s b -> good (WUnwrap k) css s b.
  Proof.
    intros Hi. unfold wp, wstep, wspec_step. pose proof (winv_fate css s b k Hi) as Hf.
    assert (Hskip : exists css', winvc css' s b /\ stays css css' s s /\ kept (WUnwrap k) css css' s s)
      by (exists css; split; [exact Hi|]; split; [apply stays_refl|apply kept_refl]).
    destruct (nth_error (ws_wraps s) k) as [x|] eqn:E1, (nth_error (wx_wraps b) k) as [[f t]|] eqn:E2; try contradiction.
    2: { rewrite Hf. exact Hskip. }
    destruct Hf as [Ef Ef']. rewrite Ef'. destruct f; try exact Hskip.
    destruct (winv_wrap css s b k x _ t Hi E1 E2) as (cs & F & _ & _ & Ag & L & Ho & HF & Hput).
    unfold on_wrap. rewrite E1. unfold ret. cbn [c_w c_tab fst snd].
    exists (set_nth k cs css). split; [|split; [apply (stays_put css s k x); [exact E1|congruence]|apply (kept_put (WUnwrap k) k css s cs _ (ws_w s) _ F eq_refl HF (same_on_refl _ _))]].
    apply (Hput cs (mkWrap Unwrapped (wp_arena x) (wp_tab x)) _ _ (ws_w s)); auto; [|apply same_on_refl].
    destruct L as [H1 H2 H3 H4 H5 H6 H7 H8]. constructor; auto. discriminate.
  Qed.

  Lemma drop_ok css s b k : winvc css s b -> good (WDrop k) css s b.
  Proof.
    intros Hi. unfold wp, wstep, wspec_step. pose proof (winv_fate css s b k Hi) as Hf.
    assert (Hskip : exists css', winvc css' s b /\ stays css css' s s /\ kept (WDrop k) css css' s s)
      by (exists css; split; [exact Hi|]; split; [apply stays_refl|apply kept_refl]).
    destruct (nth_error (ws_wraps s) k) as [x|] eqn:E1, (nth_error (wx_wraps b) k) as [[f t]|] eqn:E2; try contradiction.
    2: { rewrite Hf. exact Hskip. }
    destruct Hf as [Ef Ef']. rewrite Ef'. destruct f; try exact Hskip.
    destruct (winv_wrap css s b k x _ t Hi E1 E2) as (cs & F & _ & _ & Ag & L & Ho & HF & Hput).
    unfold on_wrap. rewrite E1. unfold bind, call. cbn [c_w c_tab].
    pose proof (arena_reset_final_ok amax (su_bmax su) B _ (contract_framed _ _ _ _ F (bw_mem (ws_w s)) Hct) [] cs (wp_arena x) (ws_w s) _
      (lrep_framed F cs x _ L Ho)) as X.
    apply wp_inv in X. destruct X as ([] & [ar' w'] & E & _ & M1 & M2 & [O1 S1] & R'). cbn [fst snd] in *.
    unfold blink_drop, bind. rewrite E. unfold debug_assert. cbn [fst]. rewrite M2.
    replace (if su_dbg su && negb true then panic else ret tt) with (@ret (AW (W := bworld)) unit tt) by (rewrite andb_false_r; reflexivity).
    unfold ret. cbn [c_w c_tab fst snd].
    assert (En : live (map (fun _ : option ublock => @None ublock) (wp_tab x)) = []) by apply live_none.
    exists (set_nth k [] css). split; [|split; [apply (stays_put css s k x); [exact E1|congruence]|apply (kept_put (WDrop k) k css s [] _ w' _ F eq_refl HF S1)]].
    apply (Hput [] (mkWrap Dropped ar' (map (fun _ => None) (wp_tab x))) _ _ w'); auto.
    - destruct R' as [H1 H2 H3 H4 H5 H6 H7 H8]. constructor; cbn [wp_arena wp_tab wp_fate]; auto; rewrite ?En; auto.
      rewrite M1. apply L.
    - cbn [wp_tab]. apply (agrees_none _ _ _ _ Ag).
  Qed.

  Lemma direct_ok css s b o : winvc css s b -> good (WDirect o) css s b.
  Proof.
    intros Hi. pose proof Hi as (HL & Ho & Ha & Hd). unfold wp, wstep, wspec_step.
    destruct (plain_op o) eqn:Ep; [|exists css; split; [exact Hi|]; split; [apply stays_refl|apply kept_refl]].
    assert (Hh : hinv B (framed B bown (allc css) (bw_mem (ws_w s))) (mkCst (ws_tab s) (ws_w s)) (wx_tab b)).
    { split; [|exact Hd]. split; [|apply same_on_refl]. cbn [c_w c_tab]. apply (ct_perm _ _ _ _ Hct _ _ _ Ho). apply Permutation_app_comm. }
    assert (Hno : forall k, o = OpReset k -> forall w us, framed B bown (allc css) (bw_mem (ws_w s)) w us ->
      wp (ret tt) w (fun _ w' => framed B bown (allc css) (bw_mem (ws_w s)) w' [])) by (intros k ->; discriminate Ep).
    pose proof (step_any amax (su_bmax su) B _ (fun _ => ret tt) (contract_framed _ _ _ _ (allc css) (bw_mem (ws_w s)) Hct) o _ _ Hno Hh) as X.
    apply wp_inv in X. destruct X as (r & [tab' w'] & E & [O1 S1] & Ag). cbn [c_w c_tab] in *.
    unfold on_direct. rewrite E. cbn [c_w c_tab].
    assert (O2 : bown w' (allc css ++ live tab')) by (apply (ct_perm _ _ _ _ Hct _ _ _ O1); apply Permutation_app_comm).
    destruct (lreps_same css (ws_wraps s) (wx_wraps b) _ _ (ws_w s) w' HL Ho O2 S1 Ha) as [H1 H2].
    exists css. split; [split; [exact H1|]; split; [exact O2|]; split; [exact H2|exact Ag]|].
    split; [intros j x Ej _; auto|]. intros j x cs _ E1 E2. cbn [ws_wraps ws_w]. split; [exact E1|]. split; [exact E2|].
    intros u y Hu Hy. apply (S1 u y); [|exact Hy]. apply in_map_iff in Hu. destruct Hu as (c & <- & Hc). apply (allc_in _ cs); [apply nth_error_In with (1 := E2)|exact Hc].
  Qed.

  Lemma new_ok css s b min : setup_ok (with_min su min) -> winvc css s b -> good (WNew min) css s b.
  Proof.
    intros Hm Hi. pose proof Hi as (HL & Ho & Ha & Hd). unfold wp, wstep, wspec_step. exists (css ++ [[]]). split.
    - unfold winvc. cbn [ws_w ws_wraps ws_tab]. split; [|split; [|split; [|exact Hd]]].
      + apply Forall2_app; [exact HL|]. constructor; [|constructor]. constructor; cbn; auto; constructor.
      + rewrite allc_app. cbn [allc map concat]. rewrite app_nil_r. exact Ho.
      + cbn [ws_w ws_wraps ws_tab wx_wraps]. apply Forall2_app; [exact Ha|]. constructor; [|constructor]. split; [reflexivity|constructor].
    - split.
      + intros j x Ej _. cbn [ws_wraps].
        assert (Hj : (j < length (ws_wraps s))%nat) by (apply nth_error_Some; congruence).
        pose proof (Forall2_len _ _ _ HL) as Hlen. rewrite !nth_error_app1 by lia. auto.
      + intros j x cs _ E1 E2. cbn [ws_wraps ws_w].
        assert (Hj : (j < length (ws_wraps s))%nat) by (apply nth_error_Some; congruence).
        pose proof (Forall2_len _ _ _ HL) as Hlen. rewrite !nth_error_app1 by lia. split; [exact E1|]. split; [exact E2|apply same_on_refl].
  Qed.

  Lemma wstep_ok css s b a : min_fine su a -> winvc css s b -> good a css s b.
  Proof.
    intros Hm Hi. destruct a as [min|k o|k|k|o]; [apply new_ok|apply use_ok|apply unwrap_ok|apply drop_ok|apply direct_ok]; assumption.
  Qed.

  Lemma wrun_ok xs : forall css s b, Forall (min_fine su) xs -> winvc css s b ->
    wp (wrun su xs) s (fun rs s' => length rs = length xs /\
      exists css', winvc css' s' (wspecs xs (map (option_map b_len) rs) b) /\ stays css css' s s').
  Proof.
    induction xs as [|a xs IH]; intros css s b Hm Hi; cbn [wrun].
    - apply wp_ret. split; [reflexivity|]. exists css. split; [exact Hi|apply stays_refl].
    - inversion Hm as [|? ? Ha Hm']; subst. apply wp_bind. eapply wp_mono; [apply (wstep_ok css s b a Ha Hi)|]. intros r s1 (css1 & H1 & S1 & _).
      apply wp_bind. eapply wp_mono; [apply (IH css1 s1 _ Hm' H1)|]. intros rs s2 [L (css2 & H2 & S2)].
      apply wp_ret. cbn [length map wspecs]. split; [lia|]. exists css2. split; [exact H2|].
      intros j x Ej Hj. destruct (S1 j x Ej Hj) as [X1 X2]. destruct (S2 j x X1 Hj) as [X3 X4]. split; [exact X3|congruence].
  Qed.

  Lemma wstart_ok : winvc [] wstart wspec0.
  Proof.
    split; [constructor|]. split; [|split; constructor]. cbn. split; [|exact Logic.I]. split; [|reflexivity].
    split; [constructor|]. split; [exact Logic.I|constructor].
  Qed.
End Wraps.
