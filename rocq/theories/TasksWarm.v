(** A [BlinkAlloc] whose newest chunk has room does not call the underlying allocator, wherever the
    other blocks of the underlying allocator went. *)
From Coq Require Import Permutation.
From Verif Require Import Base BaseFacts Alloc AllocFacts Arena ArenaFacts ArenaInv ArenaOps BlinkAlloc BlinkFacts
  History HistoryFacts Frame Setup SetupFacts SetupOps SetupProps Wraps WrapsFacts Cache Tasks.

Section Warm.
  Variable su : setup.
  Hypothesis Hok : setup_ok su.
  Notation amax := (su_amax su).
  Notation bown := (base_own (su_amax su) (su_bmax su)).
  Notation B := (bot su).
  Notation Hct := (su_ct su Hok).
  Notation brep := (arep (su_amax su) (bot su) (base_own (su_amax su) (su_bmax su))).
  Notation state := (cst (AW (W := bworld))).
  Notation pstep := (step (su_smax su) (ba su) (do_reset su)).

  (** [n] more bytes are available in the newest chunk. *)
  Definition roomy (F : list ublock) (n : Z) (st : state) : Prop :=
    setup_ok (with_min su (ar_min (fst (c_w st)))) /\
    exists c cs, brep F (c :: cs) (fst (c_w st)) (snd (c_w st)) (live (c_tab st)) /\ c_cur c + n <= c_end c.

  Notation same_calls st st' := (bw_trace (snd (c_w st')) = bw_trace (snd (c_w st))).
  (** The outcome of an operation that needs [d] of the [n] bytes. *)
  Definition served (F : list ublock) (n d : Z) (st : state) (asked : Prop) (r : option block) (st' : state) : Prop :=
    same_calls st st' /\ roomy F (n - d) st' /\ (asked -> r <> None) /\ ar_min (fst (c_w st')) = ar_min (fst (c_w st)) /\
    ar_root (fst (c_w st')) = ar_root (fst (c_w st)).

  Lemma roomy_fits c l n : req_ok (su_smax su) l -> c_end c <= USIZE_MAX -> c_cur c + n <= c_end c -> l_size l + (l_align l - 1) <= n ->
    room (c_cur c) (c_end c) l = true.
  Proof.
    intros Hl He Hc Hn. unfold room. destruct (req_ok_facts _ _ Hl) as (k & _ & _ & Hpos & Hsz & _).
    pose proof (round_up_spec (c_cur c) (l_align l) Hpos) as [Br _]. lia.
  Qed.
  Lemma chunk_end F c cs ar w us : brep F (c :: cs) ar w us -> c_end c <= USIZE_MAX.
  Proof.
    intros R. destruct (arep_chunk_ok _ _ _ _ Hct _ _ _ _ _ c R (or_introl eq_refl)) as (_ & _ & _ & _ & _ & Q2).
    pose proof (su_amax_ok su Hok). lia.
  Qed.
  Lemma end_cur c n : c_end (set_cur c n) = c_end c.
  Proof. reflexivity. Qed.

  Lemma min_for F c cs ar w us l : setup_ok (with_min su (ar_min ar)) -> brep F (c :: cs) ar w us ->
    cfg_for (su_dbg su) amax (su_smax su) (ar_min ar) (su_bmax su) (ar_root ar) l.
  Proof. intros Hm _. apply cfg_ok_for. apply (min_cfg su). exact Hm. Qed.

  (** [allocate], [allocate_zeroed]. *)
  Lemma warm_alloc F c cs ar w us l (z : bool) n : setup_ok (with_min su (ar_min ar)) -> brep F (c :: cs) ar w us ->
    req_ok (su_smax su) l -> c_cur c + n <= c_end c -> l_size l + (l_align l - 1) <= n ->
    wp (if z then al_allocate_zeroed (ba su) l else al_allocate (ba su) l) (ar, w) (fun r aw' =>
      bw_trace (snd aw') = bw_trace w /\ ar_min (fst aw') = ar_min ar /\
      exists b n', r = Some b /\ b_len b = l_size l /\ c_cur c <= n' <= c_cur c + (l_size l + (l_align l - 1)) /\
        brep F (set_cur c n' :: cs) (fst aw') (snd aw') (mku b l :: us)).
  Proof.
    intros Hm R Hl Hc Hn.
    assert (H : wp (al_allocate (ba su) l) (ar, w) (fun r aw' =>
      bw_trace (snd aw') = bw_trace w /\ ar_min (fst aw') = ar_min ar /\
      exists b n', r = Some b /\ b_len b = l_size l /\ c_cur c <= n' <= c_cur c + (l_size l + (l_align l - 1)) /\
        brep F (set_cur c n' :: cs) (fst aw') (snd aw') (mku b l :: us))).
    { unfold ba. cbn [al_allocate blink].
      eapply wp_mono; [apply (blink_allocate_ok amax (su_smax su) (su_bmax su) B bown Hct (su_amax_ok su Hok) (su_dbg su) F (c :: cs) ar w us l R Hl
        (min_for _ _ _ _ _ _ l Hm R))|].
      intros r aw' (_ & M1 & H). cbn [fits_root] in H.
      rewrite (roomy_fits c l n Hl (chunk_end _ _ _ _ _ _ R) Hc Hn) in H.
      destruct H as (Q & c' & cs' & b & Ec & -> & Eb & _ & R1). injection Ec as <- <-.
      split; [apply (quiet_trace su); exact Q|]. split; [exact M1|]. exists b, (b_ptr b + l_size l).
      split; [reflexivity|]. split; [rewrite Eb; reflexivity|]. split; [|exact R1].
      destruct (req_ok_facts _ _ Hl) as (k & _ & _ & Hpos & Hsz & _).
      pose proof (round_up_spec (c_cur c) (l_align l) Hpos) as [Br _]. rewrite Eb. cbn [b_ptr]. lia. }
    destruct z; [|exact H]. unfold al_allocate_zeroed. apply wp_bind. eapply wp_mono; [exact H|].
    intros r [ar' w'] (T & M1 & b & n' & -> & Hb & Bn & R1). cbn [fst snd] in *. apply wp_bind, wp_mfill. apply wp_ret. cbn [fst snd].
    destruct (arep_own_write amax (su_bmax su) B bown Hct _ _ _ _ _ _ (fill (bw_mem w') (b_ptr b) (b_len b) (Byte 0)) R1) as [R2 _].
    { intros x Hx. apply fill_other. unfold in_u, mku in Hx. cbn in Hx. lia. }
    split; [exact T|]. split; [exact M1|]. exists b, n'. split; [reflexivity|]. split; [exact Hb|]. split; [exact Bn|exact R2].
  Qed.

  Lemma warm_resize F c cs ar w u us old new n : setup_ok (with_min su (ar_min ar)) -> brep F (c :: cs) ar w (u :: us) ->
    fits old u -> req_ok (su_smax su) new -> c_cur c + n <= c_end c -> l_size new + (l_align new - 1) <= n ->
    wp (blink_resize B (su_dbg su) (u_ptr u) old new) (ar, w) (fun r aw' =>
      bw_trace (snd aw') = bw_trace w /\ ar_min (fst aw') = ar_min ar /\
      exists b n', r = Some b /\ c_cur c <= n' <= c_cur c + (l_size new + (l_align new - 1)) /\
        brep F (set_cur c n' :: cs) (fst aw') (snd aw') (mku b new :: us)).
  Proof.
    intros Hm R Hf Hl Hc Hn.
    eapply wp_mono; [apply (blink_resize_ok amax (su_smax su) (su_bmax su) B bown Hct (su_amax_ok su Hok) (su_dbg su) F (c :: cs) ar w u us old new R Hf Hl
      (min_for _ _ _ _ _ _ new Hm R))|].
    intros r aw' (_ & M1 & H). cbn [fits_root] in H.
    rewrite (roomy_fits c new n Hl (chunk_end _ _ _ _ _ _ R) Hc Hn) in H.
    destruct r as [b|]; [|destruct H as (H & _); discriminate H].
    destruct H as (_ & _ & [(Q & c' & n' & cs' & Ec & Bn & R1)|(H & _)]); [|discriminate H].
    injection Ec as <- <-. split; [apply (quiet_trace su); exact Q|]. split; [exact M1|]. exists b, n'. auto.
  Qed.

  (** The block of a handle. *)
  Lemma at_handle F c cs ar w (t : list (option ublock)) h u : brep F (c :: cs) ar w (live t) -> get h t = Some u ->
    exists us, brep F (c :: cs) ar w (u :: us) /\
      (forall v, Permutation (v :: us) (live (set_nth h (Some v) t))) /\ Permutation us (live (set_nth h None t)).
  Proof.
    intros R G. destruct (get_split _ _ _ G) as (t1 & t2 & Et & <-). exists (live (t1 ++ t2)).
    subst t. split; [apply (arep_perm _ _ _ _ _ _ _ _ _ (live_perm_mid t1 t2 u) R)|].
    split.
    - intros v. rewrite set_nth_split. symmetry. apply live_perm_mid.
    - rewrite set_nth_split, !live_app. reflexivity.
  Qed.

  Lemma roomy_less F n n' st : n' <= n -> roomy F n st -> roomy F n' st.
  Proof. intros H (Hm & c & cs & R & Hc). split; [exact Hm|]. exists c, cs. split; [exact R|lia]. Qed.

  Lemma warm_any F n st o : roomy F n st -> is_reset o = false -> need o <= n ->
    wp (pstep o) st (served F n (need o) st (exists l, requests su st o l)).
  Proof.
    intros Hr Ho Hn. pose proof (need_nonneg o) as Hn0.
    assert (Hskip : (forall l, ~ requests su st o l) -> served F n (need o) st (exists l, requests su st o l) None st).
    { intros Hq. split; [reflexivity|]. split; [apply (roomy_less F n); [lia|exact Hr]|].
      split; [intros (l & Hl); destruct (Hq l Hl)|split; reflexivity]. }
    destruct Hr as (Hm & c & cs & R & Hc). destruct st as [t [ar w]]. cbn [c_tab c_w fst snd] in *.
    change (wp (pstep o) {| c_tab := t; c_w := (ar, w) |}) with (wp (step_at (su_smax su) (ba su) (do_reset su) o t) {| c_tab := t; c_w := (ar, w) |}).
    unfold step_at.
    destruct o as [l z|h off bs|h l|h old new|h old new|k]; cbn [is_reset] in Ho; try discriminate Ho; cbn [need requests c_tab] in *.
    - (* allocate *)
      destruct (req_okb (su_smax su) l) eqn:El.
      2: { apply wp_ret, Hskip. intros l' [<- H]. unfold req_ok in H. congruence. }
      destruct (req_ok_facts _ _ El) as (k & _ & _ & Hpos & Hsz & _).
      assert (Hn' : l_size l + (l_align l - 1) <= n) by lia.
      pose proof (warm_alloc F c cs ar w _ l z n Hm R El Hc Hn') as H. apply wp_inv in H.
      destruct H as (r & [ar' w'] & E & T & M1 & b & n' & -> & Hb & Bn & R1). cbn [fst snd] in *.
      unfold wp, call. cbn [c_w c_tab]. rewrite E. unfold served. cbn [c_w c_tab fst snd on_ok].
      split; [exact T|]. split; [|split; [intros _; discriminate|split; [exact M1|rewrite (ar_head _ _ _ _ _ _ _ _ R1), (ar_head _ _ _ _ _ _ _ _ R); reflexivity]]].
      split; [cbn [c_w fst]; rewrite M1; exact Hm|]. exists (set_cur c n'), cs. cbn [c_w c_tab fst snd]. rewrite end_cur. cbn [c_cur set_cur]. split; [|lia].
      eapply arep_perm; [|exact R1]. rewrite live_app. cbn. apply Permutation_cons_append.
    - (* write *)
      destruct (get h t) as [u|] eqn:G; [|apply wp_ret, Hskip; intros l H; exact H].
      destruct ((0 <=? off) && (off + Z.of_nat (length bs) <=? u_len u)) eqn:Eb; [|apply wp_ret, Hskip; intros l H; exact H].
      destruct (at_handle _ _ _ _ _ _ _ _ R G) as (us & R1 & P1 & _).
      destruct (arep_own_write amax (su_bmax su) B bown Hct _ _ _ _ _ _ (write_cells (bw_mem w) (u_ptr u + off) bs) R1) as [R2 _].
      { intros y Hy. unfold write_cells. destruct ((u_ptr u + off <=? y) && (y <? u_ptr u + off + Z.of_nat (length bs))) eqn:Ey; [|reflexivity].
        unfold in_u in Hy. lia. }
      unfold wp, served. cbn [c_w c_tab fst snd ba blink al_set_mem al_mem bot base bw_trace bw_mem].
      split; [reflexivity|]. split; [|split; [intros (l & []) |split; reflexivity]].
      split; [exact Hm|]. exists c, cs. cbn [c_w c_tab fst snd]. split; [|lia].
      eapply arep_perm; [|exact R2]. etransitivity; [apply P1|].
      assert (E : set_nth h (Some u) t = t).
      { destruct (get_split _ _ _ G) as (t1 & t2 & -> & <-). apply set_nth_split. }
      rewrite E. reflexivity.
    - (* deallocate *)
      destruct (get h t) as [u|] eqn:G; [|apply wp_ret, Hskip; intros l' H; exact H].
      destruct (fitsb l u) eqn:Ef; [|apply wp_ret, Hskip; intros l' H; exact H]. apply fitsb_spec in Ef.
      destruct (at_handle _ _ _ _ _ _ _ _ R G) as (us & R1 & _ & P1).
      assert (Hsz : 0 <= l_size l <= u_len u).
      { pose proof (ar_ok _ _ _ _ _ _ _ _ R1) as O. apply Forall_inv in O. destruct Ef as [_ Hf]. destruct O as ((_ & _ & _ & O) & O').
        lia. }
      pose proof (blink_deallocate_ok amax (su_bmax su) B bown Hct (su_amax_ok su Hok) F (c :: cs) ar w u us (l_size l) R1 Hsz) as H.
      apply wp_inv in H. destruct H as ([] & [ar' w'] & E & E1 & Q & _ & R2). cbn [fst snd] in *. subst ar'.
      unfold wp, bind, call, ba. cbn [c_w c_tab al_deallocate blink]. rewrite E. unfold ret, served. cbn [c_w c_tab fst snd].
      split; [apply (quiet_trace su); exact Q|]. split; [|split; [intros (l' & []) |split; reflexivity]].
      split; [exact Hm|]. exists c, cs. cbn [c_w c_tab fst snd]. split; [|lia].
      eapply arep_perm; [exact P1|]. apply (arep_drop _ _ _ _ _ _ _ _ _ R2).
    - (* resize *)
      destruct (get h t) as [u|] eqn:G; [|apply wp_ret, Hskip; intros l' (_ & _ & u & H & _); congruence].
      destruct (fitsb old u && req_okb (su_smax su) new) eqn:Ef.
      2: { apply wp_ret, Hskip. intros l' (<- & Hl & u' & Hu & Hf). injection Hu as <-. apply fitsb_spec in Hf. unfold req_ok in Hl. rewrite Hf, Hl in Ef. discriminate Ef. }
      apply andb_true_iff in Ef. destruct Ef as [Ef El]. apply fitsb_spec in Ef.
      destruct (at_handle _ _ _ _ _ _ _ _ R G) as (us & R1 & P1 & _).
      destruct (req_ok_facts _ _ El) as (k & _ & _ & Hpos & Hsz & _).
      assert (Hn' : l_size new + (l_align new - 1) <= n) by lia.
      pose proof (warm_resize F c cs ar w u us old new n Hm R1 Ef El Hc Hn') as H. apply wp_inv in H.
      destruct H as (r & [ar' w'] & E & T & M1 & b & n' & -> & Bn & R2). cbn [fst snd] in *.
      unfold wp, call, ba. cbn [c_w c_tab].
      replace ((if l_size old <=? l_size new then al_grow (blink B (su_dbg su)) (u_ptr u) old new
                else al_shrink (blink B (su_dbg su)) (u_ptr u) old new) (ar, w)) with (blink_resize B (su_dbg su) (u_ptr u) old new (ar, w))
        by (destruct (l_size old <=? l_size new); reflexivity).
      rewrite E. unfold served. cbn [c_w c_tab fst snd on_ok].
      split; [exact T|]. split; [|split; [intros _; discriminate|split; [exact M1|rewrite (ar_head _ _ _ _ _ _ _ _ R2), (ar_head _ _ _ _ _ _ _ _ R1); reflexivity]]].
      split; [cbn [c_w fst]; rewrite M1; exact Hm|]. exists (set_cur c n'), cs. cbn [c_w c_tab fst snd]. rewrite end_cur. cbn [c_cur set_cur]. split; [|lia].
      eapply arep_perm; [|exact R2]. apply P1.
    - (* grow, zeroed *)
      destruct (get h t) as [u|] eqn:G; [|apply wp_ret, Hskip; intros l' (_ & _ & _ & u & H & _); congruence].
      destruct (fitsb old u && req_okb (su_smax su) new && (l_size old <=? l_size new)) eqn:Ef.
      2: { apply wp_ret, Hskip. intros l' (<- & Hl & Hle & u' & Hu & Hf). injection Hu as <-. apply fitsb_spec in Hf. unfold req_ok in Hl. rewrite Hf, Hl in Ef.
           cbn [andb] in Ef. lia. }
      apply andb_true_iff in Ef. destruct Ef as [Ef Hle]. apply andb_true_iff in Ef. destruct Ef as [Ef El]. apply fitsb_spec in Ef.
      destruct (at_handle _ _ _ _ _ _ _ _ R G) as (us & R1 & P1 & _).
      destruct (req_ok_facts _ _ El) as (k & _ & _ & Hpos & Hsz & _).
      assert (Hn' : l_size new + (l_align new - 1) <= n) by lia.
      pose proof (warm_alloc F c cs ar w _ new true n Hm R1 El Hc Hn') as H. cbv iota in H.
      assert (X : wp (al_grow_zeroed (ba su) (u_ptr u) old new) (ar, w) (fun r aw' =>
        bw_trace (snd aw') = bw_trace w /\ ar_min (fst aw') = ar_min ar /\
        exists b n', r = Some b /\ c_cur c <= n' <= c_cur c + (l_size new + (l_align new - 1)) /\
          brep F (set_cur c n' :: cs) (fst aw') (snd aw') (mku b new :: us))).
      { unfold al_grow_zeroed. apply wp_bind. eapply wp_mono; [exact H|].
        intros r [ar' w'] (T & M1 & b & n' & -> & Hb & Bn & R2). cbn [fst snd] in *.
        pose proof (ar_disj _ _ _ _ _ _ _ _ R2) as [D _]. apply Forall_inv in D.
        assert (Hf : 0 <= l_size old <= u_len u).
        { pose proof (ar_ok _ _ _ _ _ _ _ _ R1) as O. apply Forall_inv in O. destruct Ef as [_ Hf]. destruct O as ((_ & _ & _ & O) & O').
          lia. }
        apply wp_bind, wp_mcopy; [| lia |].
        { destruct (Z.leb_spec (l_size old) 0) as [Hz|Hz]; [lia|].
          destruct (Z.leb_spec (u_ptr u + l_size old) (b_ptr b)) as [Hz1|Hz1]; [lia|].
          destruct (Z.leb_spec (b_ptr b + l_size old) (u_ptr u)) as [Hz2|Hz2]; [lia|].
          exfalso. destruct (Z.leb_spec (u_ptr u) (b_ptr b)) as [Hz3|Hz3].
          - apply (D (b_ptr b)); unfold in_u, mku; cbn; lia.
          - apply (D (u_ptr u)); unfold in_u, mku; cbn; lia. }
        destruct (arep_own_write amax (su_bmax su) B bown Hct _ _ _ _ _ _ (copy (bw_mem w') (u_ptr u) (b_ptr b) (l_size old)) R2) as [R3 _].
        { intros x Hx. apply copy_other. unfold in_u, mku in Hx. cbn in Hx. lia. }
        cbn [ba blink al_set_mem al_mem fst snd al_deallocate].
        assert (R4 : brep F (set_cur c n' :: cs) ar' (al_set_mem B w' (copy (bw_mem w') (u_ptr u) (b_ptr b) (l_size old))) (u :: mku b new :: us)).
        { eapply arep_perm; [apply perm_swap|]. exact R3. }
        apply wp_bind. eapply wp_mono; [apply (blink_deallocate_ok amax (su_bmax su) B bown Hct (su_amax_ok su Hok) F _ ar' _ u (mku b new :: us) (l_size old) R4 Hf)|].
        intros _ [ar2 w2] (E1 & Q & _ & R5). cbn [fst snd] in *. subst ar2. apply wp_ret. cbn [fst snd].
        split; [rewrite (quiet_trace su _ _ Q); exact T|]. split; [exact M1|]. exists b, n'. split; [reflexivity|]. split; [exact Bn|].
        apply (arep_drop _ _ _ _ _ _ _ _ _ R5). }
      apply wp_inv in X. destruct X as (r & [ar' w'] & E & T & M1 & b & n' & -> & Bn & R2). cbn [fst snd] in *.
      unfold wp, call. cbn [c_w c_tab]. rewrite E. unfold served. cbn [c_w c_tab fst snd on_ok].
      split; [exact T|]. split; [|split; [intros _; discriminate|split; [exact M1|rewrite (ar_head _ _ _ _ _ _ _ _ R2), (ar_head _ _ _ _ _ _ _ _ R1); reflexivity]]].
      split; [cbn [c_w fst]; rewrite M1; exact Hm|]. exists (set_cur c n'), cs. cbn [c_w c_tab fst snd]. rewrite end_cur. cbn [c_cur set_cur]. split; [|lia].
      eapply arep_perm; [|exact R2]. apply P1.
  Qed.
End Warm.
