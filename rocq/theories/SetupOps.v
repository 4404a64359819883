(** What single operations of [BlinkAlloc] do in a reached state. *)
From Coq Require Import Permutation.
From Verif Require Import Base BaseFacts Alloc AllocFacts Arena ArenaFacts ArenaInv ArenaOps
  BlinkAlloc BlinkFacts History HistoryFacts Setup SetupFacts.

(** The effect of the slow path on the calls [tr] to the bottom allocator with
    strategy [S], for the chunk layout [req] it asks for. *)
Definition upstream (S : strategy) (req : option Layout) {B} (r : option B) (tr tr' : list uevent) : Prop :=
  match req with
  | None => r = None /\ tr' = tr
  | Some lay => exists ans, tr' = EvAlloc lay ans :: tr /\ (r = None <-> ans = None) /\
                  ans = st_alloc S tr lay
  end.

Lemma get_app_l {T} h (t t' : list (option T)) u : get h t = Some u -> get h (t ++ t') = Some u.
Proof.
  unfold get. intros H. destruct (nth_error t h) eqn:E; [|discriminate].
  rewrite nth_error_app1; [rewrite E; exact H|]. apply nth_error_Some. congruence.
Qed.

Lemma get_last {T} (t : list (option T)) u : get (length t) (t ++ [Some u]) = Some u.
Proof. apply get_mid. Qed.

Lemma set_nth_length {T} h (x : T) t : length (set_nth h x t) = length t.
Proof. revert h. induction t as [|y t IH]; intros [|h]; cbn; auto. Qed.

Lemma get_set_nth {T} h h' (x : option T) t :
  (h < length t)%nat -> get h' (set_nth h x t) = if Nat.eqb h h' then x else get h' t.
Proof.
  revert h h'. induction t as [|y t IH]; intros h h' L; cbn in L; [lia|].
  destruct h as [|h], h' as [|h']; cbn; try reflexivity.
  - destruct x; reflexivity.
  - apply IH. lia.
Qed.

Lemma get_len {T} h (t : list (option T)) u : get h t = Some u -> (h < length t)%nat.
Proof.
  unfold get. intros H. apply nth_error_Some. destruct (nth_error t h); congruence.
Qed.

Section Ops.
  Variable su : setup.
  Hypothesis Hok : setup_ok su.
  Notation amax := (su_amax su).
  Notation bown := (base_own (su_amax su) (su_bmax su)).
  Notation brep := (arep (su_amax su) (bot su) (base_own (su_amax su) (su_bmax su))).
  Notation state := (cst (AW (W := bworld))).

  (** The representation of a state, with the chunk list made explicit. *)
  Definition srep (cs : list chunk) (st : state) : Prop :=
    brep [] cs (fst (c_w st)) (snd (c_w st)) (live (c_tab st)) /\
    map c_u cs = held st /\ ar_min (fst (c_w st)) = su_min su.

  Lemma reached_srep ops st : reached su ops st -> exists cs, srep cs st.
  Proof. apply (reached_rep su Hok). Qed.

  Lemma srep_at cs st h u : srep cs st -> get h (c_tab st) = Some u ->
    exists us, brep [] cs (fst (c_w st)) (snd (c_w st)) (u :: us) /\
      Permutation (live (c_tab st)) (u :: us).
  Proof.
    intros (R & _ & _) G. destruct (get_split _ _ _ G) as (t1 & t2 & Et & _).
    exists (live (t1 ++ t2)). rewrite Et in *. split; [|apply live_perm_mid].
    apply (arep_perm _ _ _ _ _ _ _ _ _ (live_perm_mid t1 t2 u) R).
  Qed.

  Lemma slow_info_upstream {B} (cs : list chunk) l w (r : option chunk) w' (r' : option B) :
    slow_info (bot su) cs (su_min su) l w r w' -> (r' = None <-> r = None) ->
    upstream (su_strat su) (slow_req cs (su_min su) l) r' (bw_trace w) (bw_trace w').
  Proof.
    intros H E. unfold upstream. destruct r as [c|]; cbn [slow_info] in H.
    - destruct H as (-> & w1 & Ea & Q). exists (Some (ublk (c_u c))).
      rewrite (quiet_trace su _ _ Q). cbn in Ea. unfold base_allocate in Ea.
      destruct (negb (req_okb (su_bmax su) (u_layout (c_u c)))); [discriminate|].
      inversion Ea as [[E1 E2]]. cbn. rewrite E1. split; [reflexivity|]. split; [|reflexivity].
      split; intros X; [pose proof (proj1 E X) as X'; discriminate X'|discriminate X].
    - destruct H as [(-> & ->)|(lay & -> & Ea)].
      + split; [apply E; reflexivity|reflexivity].
      + cbn in Ea. unfold base_allocate in Ea.
        destruct (negb (req_okb (su_bmax su) lay)); [discriminate|].
        inversion Ea as [[E1 E2]]. cbn. exists None. rewrite E1. split; [reflexivity|]. split; [|reflexivity].
        split; intros _; [reflexivity|apply E; reflexivity].
  Qed.

  (** ** allocate *)

  Lemma alloc_call_ok cs st l :
    srep cs st -> req_ok (su_smax su) l ->
    wp (al_allocate (ba su) l) (c_w st) (fun r aw' =>
      same_on (live (c_tab st)) (memory st) (bw_mem (snd aw')) /\
      if fits_root cs l
      then bw_trace (snd aw') = calls st /\
           exists c cs' b, cs = c :: cs' /\ r = Some b /\
             b = mkBlock (round_up (c_cur c) (l_align l)) (l_size l) /\
             brep [] (set_cur c (b_ptr b + l_size l) :: cs') (fst aw') (snd aw')
               (mku b l :: live (c_tab st))
      else upstream (su_strat su) (slow_req cs (su_min su) l) r (calls st) (bw_trace (snd aw')) /\
           match r with
           | None => brep [] cs (fst aw') (snd aw') (live (c_tab st))
           | Some b => b_len b = l_size l /\
               exists c, c_cur c = b_ptr b + l_size l /\ c_base c <= b_ptr b <= c_base c + (l_align l - 1) /\
                 brep [] (c :: cs) (fst aw') (snd aw') (mku b l :: live (c_tab st))
           end).
  Proof.
    intros (R & Hh & Hm) Hl.
    assert (Hcfg : cfg_ok (su_dbg su) amax (su_smax su) (ar_min (fst (c_w st))) (su_bmax su))
      by (rewrite Hm; apply su_cfg; exact Hok).
    pose proof (blink_allocate_ok amax (su_smax su) (su_bmax su) (bot su) bown (su_ct su Hok)
                  (su_amax_ok su Hok) (su_dbg su) [] cs _ _ _ l R Hl (cfg_ok_for Hcfg)) as H.
    unfold ba. cbn [al_allocate blink].
    replace (c_w st) with (fst (c_w st), snd (c_w st)) by (destruct (c_w st); reflexivity).
    eapply wp_mono; [exact H|]. clear H. intros r [ar' w'] (S1 & M1 & H). cbn [fst snd] in *.
    rewrite app_nil_r in S1. split; [exact S1|]. rewrite Hm in H.
    destruct (fits_root cs l).
    - destruct H as (Q & c & cs' & b & E1 & E2 & E3 & _ & R1).
      split; [apply (quiet_trace su); exact Q|]. exists c, cs', b. auto.
    - destruct r as [b|].
      + destruct H as (_ & E1 & c & I1 & E2 & E3 & R1). split.
        * apply (slow_info_upstream _ _ _ _ _ (Some b) I1). split; discriminate.
        * split; [exact E1|]. exists c. split; [exact E2|]. split; [|exact R1].
          rewrite E3. destruct (req_ok_facts _ _ Hl) as (k & _ & _ & Hpos & _ & _).
          pose proof (round_up_spec (c_base c) (l_align l) Hpos) as [Br _]. lia.
      + destruct H as (I1 & R1). split; [|exact R1].
        apply (slow_info_upstream _ _ _ _ _ None I1). split; reflexivity.
  Qed.

  (** Zeroing afterwards only writes the new block. *)
  Lemma brep_fill ar w cs u us :
    brep [] cs ar w (u :: us) ->
    let m' := fill (bw_mem w) (u_ptr u) (u_len u) (Byte 0) in
    brep [] cs ar (mkB m' (bw_trace w)) (u :: us) /\ same_on us (bw_mem w) m'.
  Proof.
    intros R m'. split.
    - apply (arep_write_us _ _ _ _ (su_ct su Hok) _ _ _ _ _ m' R).
      intros x Hx. apply fill_other. specialize (Hx u (or_introl eq_refl)). unfold in_u in Hx. lia.
    - intros v x Hv Hx. apply fill_other. pose proof (ar_disj _ _ _ _ _ _ _ _ R) as [D _].
      rewrite Forall_forall in D. specialize (D v Hv x). unfold in_u in *. lia.
  Qed.

  (** [allocate] and [allocate_zeroed]. *)
  Lemma alloc_any_call_ok cs st l (z : bool) :
    srep cs st -> req_ok (su_smax su) l ->
    wp (if z then al_allocate_zeroed (ba su) l else al_allocate (ba su) l) (c_w st) (fun r aw' =>
      same_on (live (c_tab st)) (memory st) (bw_mem (snd aw')) /\
      (z = true -> match r with
                   | Some b => forall i, 0 <= i < b_len b -> bw_mem (snd aw') (b_ptr b + i) = Byte 0
                   | None => True end) /\
      if fits_root cs l
      then bw_trace (snd aw') = calls st /\
           exists c cs' b, cs = c :: cs' /\ r = Some b /\
             b = mkBlock (round_up (c_cur c) (l_align l)) (l_size l) /\
             brep [] (set_cur c (b_ptr b + l_size l) :: cs') (fst aw') (snd aw')
               (mku b l :: live (c_tab st))
      else upstream (su_strat su) (slow_req cs (su_min su) l) r (calls st) (bw_trace (snd aw')) /\
           match r with
           | None => brep [] cs (fst aw') (snd aw') (live (c_tab st))
           | Some b => b_len b = l_size l /\
               exists c, c_cur c = b_ptr b + l_size l /\ c_base c <= b_ptr b <= c_base c + (l_align l - 1) /\
                 brep [] (c :: cs) (fst aw') (snd aw') (mku b l :: live (c_tab st))
           end).
  Proof.
    intros HS Hl. destruct z.
    2: { eapply wp_mono; [apply (alloc_call_ok cs st l HS Hl)|]. intros r aw' [H1 H2].
         split; [exact H1|]. split; [discriminate|exact H2]. }
    unfold al_allocate_zeroed. apply wp_bind.
    eapply wp_mono; [apply (alloc_call_ok cs st l HS Hl)|]. intros r [ar w1] [S1 H]. cbn [fst snd] in *.
    destruct r as [b|].
    2: { apply wp_ret. cbn [fst snd]. split; [exact S1|]. split; [auto|exact H]. }
    apply wp_bind, wp_mfill. apply wp_ret. cbn [fst snd ba blink al_set_mem bot base al_mem bw_mem bw_trace].
    assert (Hfill : forall cs1, brep [] cs1 ar w1 (mku b l :: live (c_tab st)) ->
      brep [] cs1 ar (mkB (fill (bw_mem w1) (b_ptr b) (b_len b) (Byte 0)) (bw_trace w1)) (mku b l :: live (c_tab st)) /\
      same_on (live (c_tab st)) (bw_mem w1) (fill (bw_mem w1) (b_ptr b) (b_len b) (Byte 0))).
    { intros cs1 R1. apply (brep_fill ar w1 cs1 (mku b l) _ R1). }
    assert (Hz : forall i, 0 <= i < b_len b -> fill (bw_mem w1) (b_ptr b) (b_len b) (Byte 0) (b_ptr b + i) = Byte 0).
    { intros i Hi. apply fill_in. lia. }
    destruct (fits_root cs l).
    - destruct H as (T & c & cs' & b' & E1 & E2 & E3 & R1). injection E2 as E2'. rewrite <- E2' in *. clear b' E2'.
      destruct (Hfill _ R1) as [R2 S2]. split; [eapply same_on_trans; [exact S1|exact S2]|].
      split; [auto|]. split; [exact T|]. exists c, cs', b. auto.
    - destruct H as (U & E1 & c & E2 & E3 & R1). destruct (Hfill _ R1) as [R2 S2].
      split; [eapply same_on_trans; [exact S1|exact S2]|].
      split; [auto|]. split; [exact U|]. split; [exact E1|]. exists c. auto.
  Qed.

  Lemma step_alloc cs st l z r st' :
    srep cs st -> req_ok (su_smax su) l -> do_step su (OpAlloc l z) st = ORet r st' ->
    same_on (live (c_tab st)) (memory st) (memory st') /\
    (z = true -> match r with
                 | Some b => forall i, 0 <= i < b_len b -> memory st' (b_ptr b + i) = Byte 0
                 | None => True end) /\
    c_tab st' = c_tab st ++ (match r with Some b => [Some (mku b l)] | None => [] end) /\
    if fits_root cs l
    then calls st' = calls st /\
         exists c cs' b, cs = c :: cs' /\ r = Some b /\
           b = mkBlock (round_up (c_cur c) (l_align l)) (l_size l) /\
           srep (set_cur c (b_ptr b + l_size l) :: cs') st'
    else upstream (su_strat su) (slow_req cs (su_min su) l) r (calls st) (calls st') /\
         match r with
         | None => srep cs st'
         | Some b => b_len b = l_size l /\
             exists c, c_cur c = b_ptr b + l_size l /\ c_base c <= b_ptr b <= c_base c + (l_align l - 1) /\ srep (c :: cs) st'
         end.
  Proof.
    intros HS Hl E.
    assert (Hop : exists s, hinv (ba su) (sown su) st' s).
    { destruct HS as (R & Hh & Hm).
      assert (Hi : hinv (ba su) (sown su) st (map (option_map (fun u => mkS (u_layout u) (u_len u) (fun _ => None))) (c_tab st))).
      { split; [exists cs; split; [exact R|]; split; assumption|].
        clear. induction (c_tab st) as [|[u|] t IH]; cbn; constructor; auto; cbn; auto.
        split; [reflexivity|]. split; [reflexivity|]. cbn. discriminate. }
      pose proof (step_ok amax (su_smax su) (ba su) (sown su) (do_reset su) (ba_contract su Hok)
                    (ba_reset su Hok) (OpAlloc l z) st _ Hi) as H.
      pose proof (wp_elim _ _ _ _ _ H E) as H'. cbv beta in H'. eauto. }
    destruct Hop as (s & (cs1 & R1 & Hh1 & Hm1) & _).
    rewrite step_eq in E. unfold step_at in E. unfold req_ok in Hl. rewrite Hl in E.
    pose proof (alloc_any_call_ok cs st l z HS Hl) as H. apply wp_inv in H.
    destruct H as (r0 & aw' & Ec & S1 & Hz & H).
    unfold call in E. rewrite Ec in E. inversion E; subst r0 st'. clear E.
    assert (Et : on_ok (fun u t => t ++ [Some u]) l r (c_tab st) =
                 c_tab st ++ (match r with Some b => [Some (mku b l)] | None => [] end)).
    { destruct r; cbn; [reflexivity|symmetry; apply app_nil_r]. }
    cbn [c_tab c_w] in *. unfold memory, calls in *. cbn [c_tab c_w] in *.
    split; [exact S1|]. split; [exact Hz|]. split; [exact Et|].
    assert (Hperm : forall b, Permutation (mku b l :: live (c_tab st)) (live (c_tab st ++ [Some (mku b l)]))).
    { intros b. rewrite live_app. cbn. apply Permutation_cons_append. }
    destruct (fits_root cs l).
    - destruct H as (T & c & cs' & b & E1 & E2 & E3 & R2). split; [exact T|].
      exists c, cs', b. split; [exact E1|]. split; [exact E2|]. split; [exact E3|].
      subst r cs. split; cbn [c_tab c_w on_ok].
      + apply (arep_perm _ _ _ _ _ _ _ _ _ (Hperm b) R2).
      + split; [|exact Hm1]. unfold held, calls. cbn [c_w]. rewrite T. destruct HS as (_ & Hh & _). exact Hh.
    - destruct H as (U & H). split; [exact U|]. destruct r as [b|].
      + destruct H as (E1 & c & E2 & E3 & R2). split; [exact E1|]. exists c. split; [exact E2|].
        split; [exact E3|]. split; cbn [c_tab c_w on_ok].
        * apply (arep_perm _ _ _ _ _ _ _ _ _ (Hperm b) R2).
        * split; [|exact Hm1].
          (* the two chunk lists are the same since both start at the root *)
          pose proof (ar_own _ _ _ _ _ _ _ _ R2) as [[_ P2] _]. cbn [map app] in P2.
          destruct HS as (_ & Hh & _). unfold held, calls in *. cbn [c_w] in *.
          unfold upstream in U. destruct (slow_req cs (su_min su) l) as [lay|]; [|destruct U; discriminate].
          destruct U as (ans & Ut & Ua & _). rewrite Ut in *. cbn [outstanding] in *.
          destruct ans as [blk|]; [|destruct Ua as [_ Ua]; discriminate (Ua eq_refl)].
          rewrite <- Hh in *. rewrite app_nil_r in P2. cbn [map].
          assert (Pe : Permutation (map c_u cs ++ [c_u c]) (map c_u cs ++ [mkU (b_ptr blk) (b_len blk) lay])).
          { rewrite <- !Permutation_cons_append. exact P2. }
          apply Permutation_app_inv_l in Pe. apply Permutation_length_1 in Pe.
          rewrite Pe. reflexivity.
      + split; cbn [c_tab c_w on_ok]; [exact H|]. split; [|exact Hm1].
        destruct HS as (_ & Hh & _). unfold held, calls in *. cbn [c_w] in *.
        unfold upstream in U. destruct (slow_req cs (su_min su) l) as [lay|].
        * destruct U as (ans & Ut & Ua & _). rewrite Ut. destruct ans; [|exact Hh].
          destruct Ua as [Ua _]. discriminate (Ua eq_refl).
        * destruct U as [_ Ut]. rewrite Ut. exact Hh.
  Qed.
End Ops.
