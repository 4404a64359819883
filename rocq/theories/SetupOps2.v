(** Resize, deallocate, write and reset in a reached state; runs that stay in
    one chunk. *)
From Coq Require Import Permutation.
From Verif Require Import Base BaseFacts Alloc AllocFacts Arena ArenaFacts ArenaInv ArenaOps
  BlinkAlloc BlinkFacts History HistoryFacts Setup SetupFacts SetupOps.

Section Ops.
  Variable su : setup.
  Hypothesis Hok : setup_ok su.
  Notation amax := (su_amax su).
  Notation bown := (base_own (su_amax su) (su_bmax su)).
  Notation brep := (arep (su_amax su) (bot su) (base_own (su_amax su) (su_bmax su))).
  Notation state := (cst (AW (W := bworld))).

  Lemma held_slow {B} cs c ar w us l (r : B) tr :
    brep [] (c :: cs) ar w us -> map c_u cs = outstanding tr ->
    upstream (su_strat su) (slow_req cs (su_min su) l) (Some r) tr (bw_trace w) ->
    map c_u (c :: cs) = outstanding (bw_trace w).
  Proof.
    intros R2 Hh U. pose proof (ar_own _ _ _ _ _ _ _ _ R2) as [[_ P2] _]. cbn [map app] in P2.
    unfold upstream in U. destruct (slow_req cs (su_min su) l) as [lay|]; [|destruct U; discriminate].
    destruct U as (ans & Ut & Ua & _). rewrite Ut in *. cbn [outstanding] in *.
    destruct ans as [blk|]; [|destruct Ua as [_ Ua]; discriminate (Ua eq_refl)].
    rewrite <- Hh in *. rewrite app_nil_r in P2. cbn [map].
    assert (Pe : Permutation (map c_u cs ++ [c_u c]) (map c_u cs ++ [mkU (b_ptr blk) (b_len blk) lay])).
    { rewrite <- !Permutation_cons_append. exact P2. }
    apply Permutation_app_inv_l in Pe. apply Permutation_length_1 in Pe.
    rewrite Pe. reflexivity.
  Qed.

  Lemma held_fail {B} (cs : list chunk) l tr tr' :
    map c_u cs = outstanding tr -> @upstream (su_strat su) (slow_req cs (su_min su) l) B None tr tr' ->
    map c_u cs = outstanding tr'.
  Proof.
    intros Hh U. unfold upstream in U. destruct (slow_req cs (su_min su) l) as [lay|].
    - destruct U as (ans & -> & Ua & _). destruct ans; [destruct Ua as [Ua _]; discriminate (Ua eq_refl)|exact Hh].
    - destruct U as [_ ->]. exact Hh.
  Qed.

  Lemma cst_eta (st : state) : c_w st = (fst (c_w st), snd (c_w st)).
  Proof. destruct (c_w st); reflexivity. Qed.

  (** ** resize *)

  Lemma step_resize cs st h u old new r st' :
    srep su cs st -> get h (c_tab st) = Some u -> fits old u -> req_ok (su_smax su) new ->
    do_step su (OpResize h old new) st = ORet r st' ->
    (forall h' v x, h' <> h -> get h' (c_tab st) = Some v -> in_u x v -> memory st' x = memory st x) /\
    match r with
    | None =>
        c_tab st' = c_tab st /\
        same_on (live (c_tab st)) (memory st) (memory st') /\
        fits_root cs new = false /\
        @upstream (su_strat su) (slow_req cs (su_min su) new) block None (calls st) (calls st') /\ srep su cs st'
    | Some b =>
        c_tab st' = set_nth h (Some (mku b new)) (c_tab st) /\
        good_block amax new b /\
        (forall i, 0 <= i < Z.min (l_size new) (l_size old) ->
           memory st' (b_ptr b + i) = memory st (u_ptr u + i)) /\
        ((calls st' = calls st /\ exists c n cs', cs = c :: cs' /\
             c_cur c <= n <= c_cur c + (l_size new + (l_align new - 1)) /\
             srep su (set_cur c n :: cs') st') \/
         (fits_root cs new = false /\
          upstream (su_strat su) (slow_req cs (su_min su) new) (Some b) (calls st) (calls st') /\
          exists c, c_cur c <= c_base c + (l_size new + (l_align new - 1)) /\ srep su (c :: cs) st'))
    end.
  Proof.
    intros HS G Hf Hn E. destruct (get_split _ _ _ G) as (t1 & t2 & Et & Lt).
    pose proof HS as (R & Hh & Hm).
    assert (R0 : brep [] cs (fst (c_w st)) (snd (c_w st)) (u :: live (t1 ++ t2))).
    { rewrite Et in R. apply (arep_perm _ _ _ _ _ _ _ _ _ (live_perm_mid t1 t2 u) R). }
    assert (Hcfg : cfg_ok (su_dbg su) amax (su_smax su) (ar_min (fst (c_w st))) (su_bmax su))
      by (rewrite Hm; apply su_cfg; exact Hok).
    pose proof (blink_resize_ok amax (su_smax su) (su_bmax su) (bot su) bown (su_ct su Hok)
                  (su_amax_ok su Hok) (su_dbg su) [] cs _ _ u _ old new R0 Hf Hn (cfg_ok_for Hcfg)) as H.
    rewrite step_eq in E. unfold step_at in E. rewrite G in E.
    rewrite (proj2 (fitsb_spec old u) Hf) in E. unfold req_ok in Hn. rewrite Hn in E. cbn [andb] in E.
    assert (Ec : call (blink_resize (bot su) (su_dbg su) (u_ptr u) old new)
                   (on_ok (fun u' => set_nth h (Some u')) new) st = ORet r st').
    { destruct (l_size old <=? l_size new); exact E. }
    unfold call in Ec. rewrite (cst_eta st) in Ec.
    apply wp_inv in H. destruct H as (r0 & [ar' w'] & Eb & S1 & M1 & H). rewrite Eb in Ec.
    inversion Ec; subst r0 st'. clear Ec E Eb. cbn [fst snd] in *.
    unfold memory, calls in *. cbn [c_tab c_w fst snd] in *. rewrite app_nil_r in S1. split.
    - intros h' v x N Gv Hx. apply (S1 v); [|exact Hx].
      assert (Hin : In v (live (t1 ++ t2))).
      { apply live_in. rewrite Et in Gv.
        destruct (Nat.lt_total h' h) as [L|[L|L]]; [| contradiction |].
        - exists h'. revert Gv. unfold get. rewrite !nth_error_app1 by lia. auto.
        - exists (h' - 1)%nat. revert Gv. unfold get. rewrite !nth_error_app2 by lia.
          replace (h' - length t1)%nat with (S (h' - 1 - length t1)) by lia. auto. }
      exact Hin.
    - rewrite Hm in H. destruct r as [b|].
      + destruct H as (Gd & Cp & H). cbn [on_ok]. split; [reflexivity|]. split; [exact Gd|]. split; [exact Cp|].
        assert (Hperm : Permutation (mku b new :: live (t1 ++ t2))
                          (live (set_nth h (Some (mkU (b_ptr b) (b_len b) new)) (c_tab st)))).
        { rewrite Et, <- Lt, set_nth_split. symmetry. apply live_perm_mid. }
        destruct H as [(Q & c & n & cs' & Ecs & Bn & R1)|(Fr & c & [I1 Bc] & R1)].
        * left. rewrite (quiet_trace su _ _ Q). split; [reflexivity|]. exists c, n, cs'.
          split; [exact Ecs|]. split; [exact Bn|]. split; cbn [c_tab c_w fst snd].
          -- apply (arep_perm _ _ _ _ _ _ _ _ _ Hperm R1).
          -- unfold held, calls. cbn [c_w snd]. rewrite (quiet_trace su _ _ Q). subst cs.
             split; [exact Hh|congruence].
        * right. pose proof (slow_info_upstream su _ _ _ _ _ (Some b) I1) as U.
          assert (U' : upstream (su_strat su) (slow_req cs (su_min su) new) (Some b) (bw_trace (snd (c_w st))) (bw_trace w')).
          { apply U. split; discriminate. }
          split; [exact Fr|]. split; [exact U'|]. exists c. split; [exact Bc|]. split; cbn [c_tab c_w fst snd].
          -- apply (arep_perm _ _ _ _ _ _ _ _ _ Hperm R1).
          -- split; [|congruence]. apply (held_slow cs c ar' w' _ new b _ R1 Hh U').
      + destruct H as (Fr & I1 & S2 & R1). cbn [on_ok]. split; [reflexivity|].
        assert (U : @upstream (su_strat su) (slow_req cs (su_min su) new) block None (bw_trace (snd (c_w st))) (bw_trace w')).
        { apply (slow_info_upstream su _ _ _ _ _ None I1). split; reflexivity. }
        split.
        { intros v x Hv Hx. rewrite Et in Hv.
          apply (Permutation_in v (live_perm_mid t1 t2 u)) in Hv. destruct Hv as [<-|Hv].
          - apply (S2 u); [left; reflexivity|exact Hx].
          - apply (S1 v); assumption. }
        split; [exact Fr|]. split; [exact U|]. split; cbn [c_tab c_w fst snd].
        * rewrite Et. apply (arep_perm _ _ _ _ _ _ _ _ _ (Permutation_sym (live_perm_mid t1 t2 u)) R1).
        * split; [|congruence]. apply (held_fail _ _ _ _ Hh U).
  Qed.

  (** The exact result of [resize] when there is a chunk. *)
  Lemma resize_at_root cs st h u old new :
    srep su cs st -> get h (c_tab st) = Some u -> fits old u -> req_ok (su_smax su) new ->
    exists c cs', cs = c :: cs' /\
    ((l_align new <= l_align old /\ l_size new <= l_size old ->
      do_step su (OpResize h old new) st =
      ORet (Some (mkBlock (u_ptr u) (l_size old)))
           (mkCst (set_nth h (Some (mkU (u_ptr u) (l_size old) new)) (c_tab st)) (c_w st))) /\
     (l_align new <= l_align old -> l_size old < l_size new -> c_cur c = u_ptr u + l_size old ->
      u_ptr u + l_size new <= c_end c ->
      do_step su (OpResize h old new) st =
      ORet (Some (mkBlock (u_ptr u) (l_size new)))
           (mkCst (set_nth h (Some (mkU (u_ptr u) (l_size new) new)) (c_tab st))
              (fst (c_w st), mkB (store (memory st) (c_ptr c + CURSOR) 8 (u_ptr u + l_size new)) (calls st))))).
  Proof.
    intros HS G Hf Hn. pose proof HS as (R & Hh & Hm). pose proof (get_live G) as Hin.
    pose proof (ar_placed _ _ _ _ _ _ _ _ R) as P. unfold placed in P. rewrite Forall_forall in P.
    destruct (P u Hin) as (c0 & Hc0 & P1 & P2).
    destruct cs as [|c cs']; [destruct Hc0|]. exists c, cs'. split; [reflexivity|].
    destruct (arep_chunk_ok _ _ _ _ (su_ct su Hok) _ _ _ _ _ c R (or_introl eq_refl))
      as ((_ & _ & W1) & _ & Q1 & Q8 & L1 & E1).
    pose proof (ar_chain _ _ _ _ _ _ _ _ R) as Hch. cbn [chain] in Hch.
    destruct Hch as (_ & (H1 & H2 & _) & _).
    pose proof (ar_ok _ _ _ _ _ _ _ _ R) as Ho. rewrite Forall_forall in Ho.
    destruct (Ho u Hin) as ((G1 & G2 & G3 & G4) & Hup & Hus). cbn in G1, G2, G3, G4.
    pose proof Hf as [F1 F2]. pose proof (su_amax_ok su Hok) as Ha. pose proof (su_smax_ok su Hok) as Hs.
    assert (Hov : u_ptr u + l_size old <= c_cur c \/ c_end c <= u_ptr u).
    { destruct (arep_where amax (su_bmax su) (bot su) bown (su_ct su Hok) _ _ _ _ _ _ u R Hin ltac:(lia)) as [X|X];
        unfold c_base, HDR in *; lia. }
    assert (Hstep : forall b w', chunk_resize (bot su) (su_dbg su) (c_ptr c) (u_ptr u) old new (snd (c_w st)) = ORet (Some b) w' ->
      do_step su (OpResize h old new) st =
      ORet (Some b) (mkCst (set_nth h (Some (mkU (b_ptr b) (b_len b) new)) (c_tab st)) (fst (c_w st), w'))).
    { intros b w' Ecr. rewrite step_eq. unfold step_at. rewrite G.
      rewrite (proj2 (fitsb_spec old u) Hf). unfold req_ok in Hn. rewrite Hn. cbn [andb].
      assert (Eb : blink_resize (bot su) (su_dbg su) (u_ptr u) old new (c_w st) = ORet (Some b) (fst (c_w st), w')).
      { unfold blink_resize, bind, resize_fast, with_aw. rewrite (ar_head _ _ _ _ _ _ _ _ R). cbn [head_ptr].
        unfold bind. rewrite Ecr. reflexivity. }
      destruct (l_size old <=? l_size new); unfold call; cbn [al_grow al_shrink ba blink]; rewrite Eb; reflexivity. }
    assert (Heq' := chunk_resize_eq (su_smax su) (bot su) (su_dbg su) (c_ptr c) (u_ptr u) old new
                     (c_cur c) (c_end c) (snd (c_w st)) Hn Hs
                     ltac:(unfold c_base, HDR in *; lia) ltac:(lia) ltac:(lia) ltac:(lia) Hov H1 H2).
    split.
    - intros [Ha1 Hs1]. replace ((l_align new <=? l_align old) && (l_size new <=? l_size old)) with true in Heq' by lia.
      rewrite (Hstep _ _ Heq'). cbn [b_ptr b_len]. rewrite <- cst_eta. reflexivity.
    - intros Ha1 Hs1 Hc He.
      replace ((l_align new <=? l_align old) && (l_size new <=? l_size old)) with false in Heq' by lia.
      replace ((l_align new <=? l_align old) && (c_cur c =? u_ptr u + l_size old)) with true in Heq' by lia.
      replace (u_ptr u + l_size new <=? c_end c) with true in Heq' by lia.
      rewrite (Hstep _ _ Heq'). reflexivity.
  Qed.

  (** ** write, deallocate *)

  Lemma step_dealloc cs st h u l r st' :
    srep su cs st -> get h (c_tab st) = Some u -> fits l u ->
    do_step su (OpDealloc h l) st = ORet r st' ->
    c_tab st' = set_nth h None (c_tab st) /\ fst (c_w st') = fst (c_w st) /\
    calls st' = calls st /\ (forall x, memory st' x = memory st x) /\ srep su cs st'.
  Proof.
    intros HS G Hf E. destruct (get_split _ _ _ G) as (t1 & t2 & Et & Lt).
    pose proof HS as (R & Hh & Hm).
    assert (R0 : brep [] cs (fst (c_w st)) (snd (c_w st)) (u :: live (t1 ++ t2))).
    { rewrite Et in R. apply (arep_perm _ _ _ _ _ _ _ _ _ (live_perm_mid t1 t2 u) R). }
    assert (Hsz : 0 <= l_size l <= u_len u).
    { pose proof (ar_ok _ _ _ _ _ _ _ _ R0) as Ho. inversion Ho as [|? ? Hu _]; subst.
      destruct Hu as (_ & _ & Hu). destruct Hf as [_ F]. lia. }
    pose proof (blink_dealloc_nop su Hok cs _ _ u _ (l_size l) R0 Hsz) as H1.
    pose proof (blink_deallocate_ok amax (su_bmax su) (bot su) bown (su_ct su Hok) (su_amax_ok su Hok) [] cs
                  _ _ u _ (l_size l) R0 Hsz) as H2.
    pose proof (wp_conj _ _ _ _ H1 H2) as H. clear H1 H2.
    apply wp_inv in H. destruct H as (v & [ar' w'] & Ec & (A1 & A2 & A3) & (_ & _ & _ & R1)).
    rewrite step_eq in E. unfold step_at in E. rewrite G, (proj2 (fitsb_spec l u) Hf) in E.
    unfold bind, call in E. cbn [al_deallocate ba blink] in E. rewrite (cst_eta st) in E.
    rewrite Ec in E. cbn [ret] in E. inversion E; subst r st'. clear E. cbn [fst snd] in *. subst ar'.
    unfold memory, calls. cbn [c_tab c_w fst snd].
    split; [reflexivity|]. split; [reflexivity|]. split; [exact A2|]. split; [exact A3|].
    split; cbn [c_tab c_w fst snd].
    - rewrite Et, <- Lt, set_nth_split. rewrite live_app. cbn [live]. rewrite <- live_app.
      apply (arep_drop _ _ _ _ _ _ _ _ _ R1).
    - unfold held, calls. cbn [c_w snd]. rewrite A2. split; assumption.
  Qed.

  Lemma step_write cs st h off bs r st' :
    srep su cs st -> do_step su (OpWrite h off bs) st = ORet r st' ->
    c_tab st' = c_tab st /\ fst (c_w st') = fst (c_w st) /\ calls st' = calls st /\
    (forall x, (forall u, get h (c_tab st) = Some u -> ~ in_u x u) -> memory st' x = memory st x) /\
    srep su cs st'.
  Proof.
    intros HS E. rewrite step_eq in E. unfold step_at in E.
    destruct (get h (c_tab st)) as [u|] eqn:G.
    2: { inversion E; subst. auto. }
    destruct ((0 <=? off) && (off + Z.of_nat (length bs) <=? u_len u)) eqn:Eb.
    2: { inversion E; subst. auto. }
    apply andb_true_iff in Eb. destruct Eb as [B1 B2].
    inversion E; subst r st'. clear E. unfold memory, calls. cbn [c_tab c_w fst snd].
    split; [reflexivity|]. split; [reflexivity|]. split; [reflexivity|].
    assert (Hw : forall x, (forall u0, Some u = Some u0 -> ~ in_u x u0) ->
      write_cells (bw_mem (snd (c_w st))) (u_ptr u + off) bs x = bw_mem (snd (c_w st)) x).
    { intros x Hx. specialize (Hx u eq_refl). unfold in_u in Hx. apply write_cells_other. lia. }
    split; [exact Hw|]. destruct HS as (R & Hh & Hm). split; cbn [c_tab c_w fst snd]; [|split; assumption].
    apply (arep_write_us _ _ _ _ (su_ct su Hok) _ _ _ _ _ _ R).
    intros x Hx. apply Hw. intros u0 Eu. inversion Eu; subst u0. apply Hx. apply (get_live G).
  Qed.

  (** ** reset *)

  Lemma step_reset_keep cs st r st' :
    srep su cs st -> do_step su (OpReset true) st = ORet r st' ->
    c_tab st' = map (fun _ => None) (c_tab st) /\ held st' = firstn 1 (held st) /\
    srep su (match cs with [] => [] | c :: _ => [set_cur c (c_base c)] end) st'.
  Proof.
    intros (R & Hh & Hm) E. rewrite step_eq in E. unfold step_at, bind, call in E.
    pose proof (reset_keep_ok su Hok cs _ _ _ R Hh) as H. rewrite <- cst_eta in H.
    apply wp_inv in H. destruct H as (v & aw' & Ec & R1 & H1 & M1). rewrite Ec in E.
    cbn [ret] in E. inversion E; subst r st'. clear E. cbn [c_tab c_w].
    split; [reflexivity|]. unfold held, calls in *. cbn [c_w]. rewrite H1. rewrite <- Hh.
    split; [destruct cs; reflexivity|]. split; cbn [c_tab c_w].
    - rewrite live_none. exact R1.
    - unfold held, calls. cbn [c_w]. rewrite H1. split; [destruct cs; reflexivity|congruence].
  Qed.

  Lemma step_reset_final cs st r st' :
    srep su cs st -> do_step su (OpReset false) st = ORet r st' ->
    c_tab st' = map (fun _ => None) (c_tab st) /\ held st' = [] /\
    ar_root (fst (c_w st')) = None /\ srep su [] st'.
  Proof.
    intros (R & Hh & Hm) E. rewrite step_eq in E. unfold step_at, bind, call in E.
    pose proof (reset_final_ok su Hok cs _ _ _ R) as H. rewrite <- cst_eta in H.
    apply wp_inv in H. destruct H as (v & aw' & Ec & R1 & H1 & H2 & M1). rewrite Ec in E.
    cbn [ret] in E. inversion E; subst r st'. clear E. cbn [c_tab c_w].
    split; [reflexivity|]. unfold held, calls in *. cbn [c_w]. split; [exact H1|]. split; [exact H2|].
    split; cbn [c_tab c_w].
    - rewrite live_none. exact R1.
    - unfold held, calls. cbn [c_w]. rewrite H1. split; [reflexivity|congruence].
  Qed.

  (** Dropping the allocator: src/local.rs 93-105. *)
  Lemma drop_ok cs st : srep su cs st ->
    wp (blink_drop (bot su) (su_dbg su)) (c_w st) (fun _ aw' => outstanding (bw_trace (snd aw')) = []).
  Proof.
    intros (R & Hh & Hm). unfold blink_drop. apply wp_bind.
    rewrite (cst_eta st). eapply wp_mono; [apply (reset_final_ok su Hok cs _ _ _ R)|].
    intros _ [ar' w'] (_ & H1 & H2 & _). cbn [fst snd] in *.
    unfold wp. cbn [fst snd]. rewrite H2. unfold debug_assert. destruct (su_dbg su); cbn; exact H1.
  Qed.
End Ops.
