(** [grow_zeroed] in a reached state; what no operation but a reset can do; runs
    that stay within the retained chunk. *)
From Coq Require Import Permutation.
From Verif Require Import Base BaseFacts Alloc AllocFacts Arena ArenaFacts ArenaInv ArenaOps
  BlinkAlloc BlinkFacts History HistoryFacts Setup SetupFacts SetupOps SetupOps2.

Section Ops.
  Variable su : setup.
  Hypothesis Hok : setup_ok su.
  Notation amax := (su_amax su).
  Notation bown := (base_own (su_amax su) (su_bmax su)).
  Notation brep := (arep (su_amax su) (bot su) (base_own (su_amax su) (su_bmax su))).
  Notation state := (cst (AW (W := bworld))).

  Lemma live_other h h' (t : list (option ublock)) t1 t2 u v :
    t = t1 ++ Some u :: t2 -> length t1 = h -> h' <> h -> get h' t = Some v -> In v (live (t1 ++ t2)).
  Proof.
    intros Et Lt N Gv. apply live_in. rewrite Et in Gv.
    destruct (Nat.lt_total h' h) as [L|[L|L]]; [| contradiction |].
    - exists h'. revert Gv. unfold get. rewrite !nth_error_app1 by lia. auto.
    - exists (h' - 1)%nat. revert Gv. unfold get. rewrite !nth_error_app2 by lia.
      replace (h' - length t1)%nat with (S (h' - 1 - length t1)) by lia. auto.
  Qed.

  Lemma alloc_min cs st l : srep su cs st -> req_ok (su_smax su) l ->
    exists r aw', blink_allocate (bot su) (su_dbg su) l (c_w st) = ORet r aw' /\
      ar_min (fst aw') = su_min su.
  Proof.
    intros (R & Hh & Hm) Hl.
    assert (Hcfg : cfg_ok (su_dbg su) amax (su_smax su) (ar_min (fst (c_w st))) (su_bmax su))
      by (rewrite Hm; apply su_cfg; exact Hok).
    pose proof (blink_allocate_ok amax (su_smax su) (su_bmax su) (bot su) bown (su_ct su Hok)
                  (su_amax_ok su Hok) (su_dbg su) [] cs _ _ _ l R Hl (cfg_ok_for Hcfg)) as H.
    rewrite <- (cst_eta st) in H. apply wp_inv in H. destruct H as (r & aw' & E & _ & M & _).
    exists r, aw'. split; [exact E|]. congruence.
  Qed.

  (** The part of [grow_zeroed] after the allocation. *)
  Lemma grow_zeroed_rest cs ar w u us b old new :
    brep [] cs ar w (mku b new :: u :: us) -> fits old u -> l_size old <= l_size new ->
    l_size new <= b_len b ->
    wp (mcopy (ba su) (u_ptr u) (b_ptr b) (l_size old) ;;;
        al_deallocate (ba su) (u_ptr u) old ;;; ret (Some b)) (ar, w) (fun r aw' =>
      r = Some b /\ fst aw' = ar /\ bw_trace (snd aw') = bw_trace w /\
      same_on us (bw_mem w) (bw_mem (snd aw')) /\
      (forall i, 0 <= i < l_size old -> bw_mem (snd aw') (b_ptr b + i) = bw_mem w (u_ptr u + i)) /\
      (forall i, l_size old <= i < b_len b -> bw_mem (snd aw') (b_ptr b + i) = bw_mem w (b_ptr b + i)) /\
      brep [] cs (fst aw') (snd aw') (mku b new :: us)).
  Proof.
    intros R Hf Hs Hb.
    pose proof (ar_disj _ _ _ _ _ _ _ _ R) as (D1 & D2 & _).
    pose proof (ar_ok _ _ _ _ _ _ _ _ R) as Ho. inversion Ho as [|? ? Hn Ho1]; subst.
    inversion Ho1 as [|? ? Hu _]; subst.
    destruct Hu as (_ & _ & Hu). pose proof Hf as [_ F].
    rewrite Forall_forall in D1, D2.
    assert (Hd : l_size old = 0 \/ u_ptr u + l_size old <= b_ptr b \/ b_ptr b + l_size old <= u_ptr u).
    { pose proof (D1 u (or_introl eq_refl)) as D. unfold disjoint_u, in_u in D. cbn in D.
      destruct (Z.eq_dec (l_size old) 0); [auto|]. right.
      pose proof (D (Z.max (u_ptr u) (b_ptr b))) as D'. lia. }
    set (m2 := copy (bw_mem w) (u_ptr u) (b_ptr b) (l_size old)).
    assert (Hm2 : forall x, ~ in_u x (mku b new) -> m2 x = bw_mem w x).
    { intros x Hx. apply copy_other. unfold in_u in Hx. cbn in Hx. lia. }
    apply wp_bind. unfold wp at 1, mcopy.
    replace ((l_size old =? 0) || (u_ptr u + l_size old <=? b_ptr b) || (b_ptr b + l_size old <=? u_ptr u))
      with true by lia.
    cbn [ba blink al_mem al_set_mem fst snd bot base].
    assert (R2 : brep [] cs ar (mkB m2 (bw_trace w)) (mku b new :: u :: us)).
    { apply (arep_write_us _ _ _ _ (su_ct su Hok) _ _ _ _ _ m2 R).
      intros x Hx. apply Hm2. apply Hx. left; reflexivity. }
    apply (arep_perm _ _ _ _ _ _ _ _ _ (perm_swap u (mku b new) us)) in R2.
    pose proof (blink_dealloc_nop su Hok cs _ _ u _ (l_size old) R2 ltac:(lia)) as H1.
    pose proof (blink_deallocate_ok amax (su_bmax su) (bot su) bown (su_ct su Hok) (su_amax_ok su Hok) [] cs
                  _ _ u _ (l_size old) R2 ltac:(lia)) as H2.
    pose proof (wp_conj _ _ _ _ H1 H2) as H. clear H1 H2.
    apply wp_bind. cbn [al_deallocate ba blink].
    eapply wp_mono; [exact H|]. intros a [ar' w'] ((A1 & A2 & A3) & (_ & _ & _ & R3)). cbn [fst snd] in *.
    apply wp_ret. cbn [fst snd]. subst ar'. split; [reflexivity|]. split; [reflexivity|]. split; [exact A2|].
    cbn [bw_mem] in A3. split.
    { intros v x Hv Hx. rewrite A3. apply Hm2. intros Hx2. apply (D1 v (or_intror Hv) x Hx2 Hx). }
    split.
    { intros i Hi. rewrite A3. unfold m2. rewrite copy_in by lia. f_equal. lia. }
    split.
    { intros i Hi. rewrite A3. apply copy_other. lia. }
    apply (arep_drop _ _ _ _ _ _ _ _ _ R3).
  Qed.

  Lemma step_grow_zeroed cs st h u old new r st' :
    srep su cs st -> get h (c_tab st) = Some u -> fits old u -> req_ok (su_smax su) new ->
    l_size old <= l_size new ->
    do_step su (OpGrowZeroed h old new) st = ORet r st' ->
    (forall h' v x, h' <> h -> get h' (c_tab st) = Some v -> in_u x v -> memory st' x = memory st x) /\
    match r with
    | None =>
        c_tab st' = c_tab st /\
        same_on (live (c_tab st)) (memory st) (memory st') /\
        fits_root cs new = false /\
        @upstream (su_strat su) (slow_req cs (su_min su) new) block None (calls st) (calls st') /\ srep su cs st'
    | Some b =>
        c_tab st' = set_nth h (Some (mku b new)) (c_tab st) /\
        good_block amax new b /\
        (forall i, 0 <= i < l_size old -> memory st' (b_ptr b + i) = memory st (u_ptr u + i)) /\
        (forall i, l_size old <= i < b_len b -> memory st' (b_ptr b + i) = Byte 0) /\
        ((calls st' = calls st /\ exists c n cs', cs = c :: cs' /\
             c_cur c <= n <= c_cur c + (l_size new + (l_align new - 1)) /\
             srep su (set_cur c n :: cs') st') \/
         (fits_root cs new = false /\
          upstream (su_strat su) (slow_req cs (su_min su) new) (Some b) (calls st) (calls st') /\
          exists c, c_cur c <= c_base c + (l_size new + (l_align new - 1)) /\ srep su (c :: cs) st'))
    end.
  Proof.
    intros HS G Hf Hn Hs E. destruct (get_split _ _ _ G) as (t1 & t2 & Et & Lt).
    pose proof HS as (R & Hh & Hm).
    pose proof (alloc_any_call_ok su Hok cs st new true HS Hn) as H. apply wp_inv in H.
    destruct H as (r0 & [ar1 w1] & Ea & S1 & Hz & H). cbn [fst snd] in *. specialize (Hz eq_refl).
    rewrite step_eq in E. unfold step_at in E. rewrite G in E.
    rewrite (proj2 (fitsb_spec old u) Hf) in E. unfold req_ok in Hn. rewrite Hn in E.
    replace (l_size old <=? l_size new) with true in E by lia. cbn [andb] in E.
    unfold call, al_grow_zeroed, bind at 1 in E. rewrite Ea in E.
    assert (Hmin : forall cs1 us1, brep [] cs1 ar1 w1 us1 -> True) by auto. clear Hmin.
    destruct r0 as [b|].
    2: { inversion E; subst r st'. clear E. unfold memory, calls in *. cbn [c_tab c_w fst snd on_ok] in *.
         split.
         - intros h' v x N Gv Hx. apply (S1 v); [apply (get_live Gv)|exact Hx].
         - split; [reflexivity|]. split; [exact S1|].
           destruct (fits_root cs new).
           { destruct H as (_ & c & cs' & b & _ & E2 & _). discriminate. }
           split; [reflexivity|]. destruct H as [U R1]. split; [exact U|].
           split; cbn [c_tab c_w fst snd]; [exact R1|]. split; [apply (held_fail su _ _ _ _ Hh U)|].
           (* the arena is unchanged *)
           cbn in Ea. unfold al_allocate_zeroed, bind in Ea. cbn [al_allocate ba blink] in Ea.
           destruct (alloc_min cs st new HS Hn) as (r2 & aw2 & E3 & M3).
           rewrite E3 in Ea. destruct r2; [discriminate|]. inversion Ea; subst. exact M3. }
    assert (Hmin : ar_min ar1 = su_min su).
    { unfold al_allocate_zeroed, bind in Ea. cbn [al_allocate ba blink] in Ea.
      destruct (alloc_min cs st new HS Hn) as (r2 & aw2 & E3 & M3).
      rewrite E3 in Ea. destruct r2 as [b2|]; [|discriminate].
      unfold mfill in Ea. cbn in Ea. inversion Ea; subst. exact M3. }
    assert (Hperm : forall v, Permutation (v :: live (t1 ++ t2)) (live (set_nth h (Some v) (c_tab st)))).
    { intros v. rewrite Et, <- Lt, set_nth_split. symmetry. apply live_perm_mid. }
    assert (Hpl : Permutation (live (c_tab st)) (u :: live (t1 ++ t2))).
    { rewrite Et. apply live_perm_mid. }
    assert (HR : exists cs1, brep [] cs1 ar1 w1 (mku b new :: u :: live (t1 ++ t2)) /\ b_len b = l_size new /\
       ((bw_trace w1 = calls st /\ exists c cs', cs = c :: cs' /\
           b_ptr b = round_up (c_cur c) (l_align new) /\ cs1 = set_cur c (b_ptr b + l_size new) :: cs') \/
        (fits_root cs new = false /\
         upstream (su_strat su) (slow_req cs (su_min su) new) (Some b) (calls st) (bw_trace w1) /\ exists c, c_cur c <= c_base c + (l_size new + (l_align new - 1)) /\ cs1 = c :: cs))).
    { destruct (fits_root cs new).
      - destruct H as (T & c & cs' & b' & E1 & E2 & E3 & R1). injection E2 as E2'. rewrite <- E2' in *.
        exists (set_cur c (b_ptr b + l_size new) :: cs').
        split; [apply (arep_perm _ _ _ _ _ _ _ _ _ (perm_skip _ Hpl) R1)|].
        rewrite E3. split; [reflexivity|]. left. split; [exact T|]. exists c, cs'. auto.
      - destruct H as (U & E1 & c & E2 & E3 & R1). exists (c :: cs).
        split; [apply (arep_perm _ _ _ _ _ _ _ _ _ (perm_skip _ Hpl) R1)|].
        split; [exact E1|]. right. split; [reflexivity|]. split; [exact U|]. exists c. split; [lia|reflexivity]. }
    destruct HR as (cs1 & R1 & Lb & Hcase).
    assert (Hg : good_block amax new b).
    { pose proof (ar_ok _ _ _ _ _ _ _ _ R1) as Ho. inversion Ho as [|? ? Hb _]; subst. apply Hb. }
    pose proof (grow_zeroed_rest cs1 ar1 w1 u _ b old new R1 Hf Hs ltac:(lia)) as Hw.
    apply wp_inv in Hw. destruct Hw as (r2 & [ar2 w2] & E2 & -> & A1 & A2 & A3 & A4 & A5 & R2).
    rewrite E2 in E. inversion E; subst r st'. clear E E2. cbn [fst snd] in *. subst ar2.
    unfold memory, calls in *. cbn [c_tab c_w fst snd on_ok] in *. split.
    { intros h' v x N Gv Hx. rewrite (A3 v x); [|apply (live_other h h' _ _ _ u v Et Lt N Gv)|exact Hx].
      apply (S1 v); [apply (get_live Gv)|exact Hx]. }
    split; [reflexivity|]. split; [exact Hg|]. split.
    { intros i Hi. rewrite (A4 i Hi). apply (S1 u); [apply (get_live G)|].
      destruct Hf as [_ F]. unfold in_u. lia. }
    split.
    { intros i Hi. rewrite (A5 i Hi). apply Hz.
      assert (0 <= l_size old).
      { pose proof (ar_ok _ _ _ _ _ _ _ _ R) as Ho. rewrite Forall_forall in Ho.
        destruct (Ho u (get_live G)) as (_ & _ & Hu). destruct Hf as [_ F]. lia. }
      lia. }
    rewrite A2. destruct Hcase as [(T & c & cs' & Ecs & Eb & E1)|(Fr & U & c & Bc & E1)].
    - left. split; [exact T|]. exists c, (b_ptr b + l_size new), cs'. split; [exact Ecs|].
      destruct (req_ok_facts _ _ Hn) as (k & _ & _ & Hpos & _ & _).
      pose proof (round_up_spec (c_cur c) (l_align new) Hpos) as [Br _].
      assert (0 <= l_size new) by (destruct (req_ok_facts _ _ Hn) as (? & _ & _ & _ & X & _); exact X).
      split; [lia|]. subst cs1. split; cbn [c_tab c_w fst snd].
      + apply (arep_perm _ _ _ _ _ _ _ _ _ (Hperm (mku b new)) R2).
      + unfold held, calls. cbn [c_w snd]. rewrite A2, T. subst cs. split; [exact Hh|exact Hmin].
    - right. split; [exact Fr|]. split; [exact U|]. exists c. split; [exact Bc|]. subst cs1.
      split; cbn [c_tab c_w fst snd].
      + apply (arep_perm _ _ _ _ _ _ _ _ _ (Hperm (mku b new)) R2).
      + split; [|exact Hmin]. unfold held, calls. cbn [c_w snd].
        rewrite <- A2 in U. apply (held_slow su cs c ar1 w2 _ new b _ R2 Hh U).
  Qed.
End Ops.
