(** [BlinkAlloc] over an allocator that meets the contract meets the contract;
    effects of reset, final reset and drop. *)
From Coq Require Import Permutation.
From Verif Require Import Base BaseFacts Alloc AllocFacts Arena ArenaFacts ArenaInv ArenaOps BlinkAlloc.

Lemma wp_with_aw {W B} (f : Arena -> M W (B * Arena)) (aw : AW (W := W)) (Q : B -> AW -> Prop) :
  wp (f (fst aw)) (snd aw) (fun r w' => Q (fst r) (snd r, w')) -> wp (with_aw f) aw Q.
Proof. unfold wp, with_aw. destruct (f (fst aw) (snd aw)) as [[b ar'] w'| | |]; auto. Qed.

Section Blink.
  Context {W : Type} (amax smax smax' : Z) (A : Allocator W) (own : W -> list ublock -> Prop).
  Hypothesis Hct : contract amax smax' A own.
  Hypothesis Hamax : 0 <= amax <= USIZE_MAX.
  Variable dbg : bool.
  Notation arep := (arep amax A own).

  (** The root chunk can serve the request. *)
  Definition fits_root (cs : list chunk) (l : Layout) : bool :=
    match cs with [] => false | c :: _ => room (c_cur c) (c_end c) l end.

  Lemma blink_allocate_ok ext cs ar w us l :
    arep ext cs ar w us -> req_ok smax l -> cfg_for dbg amax smax (ar_min ar) smax' (ar_root ar) l ->
    wp (blink_allocate A dbg l) (ar, w) (fun r aw' =>
      same_on (us ++ ext) (al_mem A w) (al_mem A (snd aw')) /\
      ar_min (fst aw') = ar_min ar /\
      if fits_root cs l
      then quiet A w (snd aw') /\
           exists c cs' b, cs = c :: cs' /\ r = Some b /\
             b = mkBlock (round_up (c_cur c) (l_align l)) (l_size l) /\ good_block amax l b /\
             arep ext (set_cur c (b_ptr b + l_size l) :: cs') (fst aw') (snd aw') (mku b l :: us)
      else match r with
           | None => slow_info A cs (ar_min ar) l w None (snd aw') /\
                     arep ext cs (fst aw') (snd aw') us
           | Some b => good_block amax l b /\ b_len b = l_size l /\
               exists c, slow_info A cs (ar_min ar) l w (Some c) (snd aw') /\ c_cur c = b_ptr b + l_size l /\
                 b_ptr b = round_up (c_base c) (l_align l) /\
                 arep ext (c :: cs) (fst aw') (snd aw') (mku b l :: us)
           end).
  Proof.
    intros R Hl Hcfg. assert (Hs : smax <= USIZE_MAX) by apply Hcfg.
    unfold blink_allocate. apply wp_bind.
    assert (Hslow : fits_root cs l = false ->
      wp (arena_alloc_slow A dbg l) (ar, w) (fun r aw' =>
      same_on (us ++ ext) (al_mem A w) (al_mem A (snd aw')) /\
      ar_min (fst aw') = ar_min ar /\
           match r with
           | None => slow_info A cs (ar_min ar) l w None (snd aw') /\
                     arep ext cs (fst aw') (snd aw') us
           | Some b => good_block amax l b /\ b_len b = l_size l /\
               exists c, slow_info A cs (ar_min ar) l w (Some c) (snd aw') /\ c_cur c = b_ptr b + l_size l /\
                 b_ptr b = round_up (c_base c) (l_align l) /\
                 arep ext (c :: cs) (fst aw') (snd aw') (mku b l :: us)
           end)).
    { intros _. unfold arena_alloc_slow. apply wp_with_aw. cbn [fst snd]. apply wp_bind.
      eapply wp_mono; [apply (alloc_slow_ok amax smax smax' A own Hct Hamax dbg ext cs ar w us l R Hl Hcfg)|].
      intros r w1 (S1 & R1). destruct r as [[b p]|]; apply wp_ret; cbn [fst snd].
      - split; [exact S1|]. split; [reflexivity|].
        destruct R1 as (X1 & X2 & c & X0 & X3 & X4 & X5 & X6). split; [exact X1|]. split; [exact X2|].
        exists c. split; [exact X0|]. split; [exact X4|]. split; [exact X5|exact X6].
      - split; [exact S1|]. split; [reflexivity|]. exact R1. }
    unfold alloc_fast. apply wp_with_aw. cbn [fst snd].
    rewrite (ar_head _ _ _ _ _ _ _ _ R).
    destruct cs as [|c cs']; cbn [head_ptr fits_root] in *.
    - apply wp_ret. cbn [fst snd]. eapply wp_mono; [apply (Hslow eq_refl)|].
      intros r aw' H. exact H.
    - pose proof (chunk_alloc_ok amax smax smax' A own Hct Hamax dbg _ _ _ _ _ _ l R Hl Hs) as Hca.
      cbv zeta in Hca. apply wp_bind.
      destruct (room (c_cur c) (c_end c) l) eqn:Rm.
      + destruct Hca as (E & Hg & R2 & S2). eapply wp_intro; [exact E|]. apply wp_ret. cbn [fst snd].
        apply wp_ret. cbn [fst snd]. split; [exact S2|]. split; [reflexivity|].
        split; [apply quiet_set|].
        exists c, cs', (mkBlock (round_up (c_cur c) (l_align l)) (l_size l)).
        split; [reflexivity|]. split; [reflexivity|]. split; [reflexivity|].
        split; [exact Hg|exact R2].
      + eapply wp_intro; [exact Hca|]. apply wp_ret. cbn [fst snd].
        eapply wp_mono; [apply (Hslow eq_refl)|]. intros r aw' H. exact H.
  Qed.

  Lemma blink_resize_ok ext cs ar w u us old new :
    arep ext cs ar w (u :: us) -> fits old u -> req_ok smax new ->
    cfg_for dbg amax smax (ar_min ar) smax' (ar_root ar) new ->
    wp (blink_resize A dbg (u_ptr u) old new) (ar, w) (fun r aw' =>
      same_on (us ++ ext) (al_mem A w) (al_mem A (snd aw')) /\
      ar_min (fst aw') = ar_min ar /\
      match r with
      | None => fits_root cs new = false /\ slow_info A cs (ar_min ar) new w None (snd aw') /\
                same_on [u] (al_mem A w) (al_mem A (snd aw')) /\
                arep ext cs (fst aw') (snd aw') (u :: us)
      | Some b =>
          good_block amax new b /\
          (forall i, 0 <= i < Z.min (l_size new) (l_size old) ->
            al_mem A (snd aw') (b_ptr b + i) = al_mem A w (u_ptr u + i)) /\
          ((quiet A w (snd aw') /\ exists c n cs', cs = c :: cs' /\
              c_cur c <= n <= c_cur c + (l_size new + (l_align new - 1)) /\
              arep ext (set_cur c n :: cs') (fst aw') (snd aw') (mku b new :: us)) \/
           fits_root cs new = false /\
           exists c, (slow_info A cs (ar_min ar) new w (Some c) (snd aw') /\ c_cur c <= c_base c + (l_size new + (l_align new - 1))) /\
             arep ext (c :: cs) (fst aw') (snd aw') (mku b new :: us))
      end).
  Proof.
    intros R Hf Hn Hcfg. assert (Hs : smax <= USIZE_MAX) by apply Hcfg.
    unfold blink_resize. apply wp_bind.
    assert (Hslow : fits_root cs new = false ->
      wp (arena_resize_slow A dbg (u_ptr u) old new) (ar, w) (fun r aw' =>
      same_on (us ++ ext) (al_mem A w) (al_mem A (snd aw')) /\
      ar_min (fst aw') = ar_min ar /\
      match r with
      | None => fits_root cs new = false /\ slow_info A cs (ar_min ar) new w None (snd aw') /\
                same_on [u] (al_mem A w) (al_mem A (snd aw')) /\
                arep ext cs (fst aw') (snd aw') (u :: us)
      | Some b =>
          good_block amax new b /\
          (forall i, 0 <= i < Z.min (l_size new) (l_size old) ->
            al_mem A (snd aw') (b_ptr b + i) = al_mem A w (u_ptr u + i)) /\
          ((quiet A w (snd aw') /\ exists c n cs', cs = c :: cs' /\
              c_cur c <= n <= c_cur c + (l_size new + (l_align new - 1)) /\
              arep ext (set_cur c n :: cs') (fst aw') (snd aw') (mku b new :: us)) \/
           fits_root cs new = false /\
           exists c, (slow_info A cs (ar_min ar) new w (Some c) (snd aw') /\ c_cur c <= c_base c + (l_size new + (l_align new - 1))) /\
             arep ext (c :: cs) (fst aw') (snd aw') (mku b new :: us))
      end)).
    { intros Hfr. unfold arena_resize_slow. apply wp_with_aw. cbn [fst snd]. apply wp_bind.
      eapply wp_mono; [apply (resize_slow_ok amax smax smax' A own Hct Hamax dbg ext cs ar w u us old new R Hf Hn Hcfg)|].
      intros r w1 (S1 & R1). destruct r as [[b p]|]; apply wp_ret; cbn [fst snd].
      - destruct R1 as (X1 & X2 & (c & X0 & X3 & X4 & X5) & X6).
        split; [exact S1|]. split; [reflexivity|]. split; [exact X1|]. split; [exact X6|].
        right. split; [exact Hfr|]. exists c. split; [split; [exact X0|]|exact X5].
        destruct X4 as [X4 X7]. destruct (req_ok_facts _ _ Hn) as (k & _ & _ & Hpos & _ & _).
        pose proof (round_up_spec (c_base c) (l_align new) Hpos) as [Br _]. lia.
      - split; [exact S1|]. split; [reflexivity|]. split; [exact Hfr|exact R1]. }
    unfold resize_fast. apply wp_with_aw. cbn [fst snd].
    rewrite (ar_head _ _ _ _ _ _ _ _ R).
    destruct cs as [|c cs']; cbn [head_ptr] in *.
    - apply wp_ret. cbn [fst snd]. apply Hslow. reflexivity.
    - apply wp_bind.
      eapply wp_mono; [apply (chunk_resize_ok amax smax smax' A own Hct Hamax dbg _ _ _ _ _ _ _ old new R Hf Hn Hs)|].
      intros r w1 (Q1 & S1 & R1). apply wp_ret. cbn [fst snd].
      destruct r as [b|].
      + destruct R1 as (X1 & (n & X2) & X3). apply wp_ret. cbn [fst snd].
        split; [exact S1|]. split; [reflexivity|]. split; [exact X1|]. split; [exact X3|].
        left. split; [exact Q1|]. exists c, n, cs'. split; [reflexivity|exact X2].
      + destruct R1 as [-> Rm]. apply Hslow. exact Rm.
  Qed.

  Lemma blink_deallocate_ok ext cs ar w u us size :
    arep ext cs ar w (u :: us) -> 0 <= size <= u_len u ->
    wp (blink_deallocate A (u_ptr u) size) (ar, w) (fun _ aw' =>
      fst aw' = ar /\ quiet A w (snd aw') /\
      same_on ((u :: us) ++ ext) (al_mem A w) (al_mem A (snd aw')) /\
      arep ext cs ar (snd aw') (u :: us)).
  Proof.
    intros R Hsz. unfold blink_deallocate, dealloc. apply wp_with_aw. cbn [fst snd].
    apply wp_bind. unfold arena_dealloc. rewrite (ar_head _ _ _ _ _ _ _ _ R).
    destruct cs as [|c cs']; cbn [head_ptr].
    - apply wp_ret. apply wp_ret. cbn [fst snd]. split; [reflexivity|].
      split; [apply quiet_refl|]. split; [apply same_on_refl|exact R].
    - eapply wp_mono; [apply (chunk_dealloc_ok amax smax' A own Hct Hamax _ _ _ _ _ _ _ _ R Hsz)|].
      intros _ w1 (Q1 & S1 & R1). apply wp_ret. cbn [fst snd].
      split; [reflexivity|]. split; [exact Q1|]. split; [exact S1|exact R1].
  Qed.

  (** A fact [J] about the state of the underlying allocator and the blocks the
      arena obtained from it, which may be carried along by the invariant. *)
  Record jinv (J : list ublock -> W -> Prop) : Prop := {
    j_quiet : forall us w w', J us w -> quiet A w w' -> J us w';
    j_alloc : forall us w w' l r, J us w -> al_allocate A l w = ORet r w' ->
      J (match r with Some b => mku b l :: us | None => us end) w'
  }.

  Lemma jinv_true : jinv (fun _ _ => True).
  Proof. constructor; auto. Qed.

  (** Ownership for the contract of [blink]: [min] is the configured minimum
      chunk size, [ext] the blocks of the underlying allocator that are not ours. *)
  Definition blink_own (J : list ublock -> W -> Prop) (ext : list ublock) (min : Z)
    (aw : AW (W := W)) (us : list ublock) : Prop :=
    exists cs, arep ext cs (fst aw) (snd aw) us /\ J (map c_u cs) (snd aw) /\
               ar_min (fst aw) = min.

  (** A weaker demand on [J]: it need only survive requests for chunks, which leave
      room for the header and the minimum. *)
  Record jfor (min : Z) (J : list ublock -> W -> Prop) : Prop := {
    jf_quiet : forall us w w', J us w -> quiet A w w' -> J us w';
    jf_alloc : forall us w w' l r, J us w -> HDR + min <= l_size l -> al_allocate A l w = ORet r w' ->
      (forall b, r = Some b -> l_size l <= b_len b) ->
      J (match r with Some b => mku b l :: us | None => us end) w'
  }.
  Lemma jinv_for min J : jinv J -> jfor min J.
  Proof. intros [H1 H2]. constructor; [exact H1|]. intros us w w' l r Hu _ E _. apply (H2 _ _ _ _ _ Hu E). Qed.

  Lemma slow_req_min cs min l lay : 0 <= min -> 0 <= sum_caps (tl cs) -> req_ok smax l ->
    slow_req cs min l = Some lay -> HDR + min <= l_size lay.
  Proof.
    intros Hmin Hsum Hl. unfold slow_req.
    assert (Hc : match cum_of cs with Some c => 0 <= c | None => True end) by (destruct cs; cbn in *; lia).
    rewrite (next_chunk_size_raw _ _ _ smax Hmin Hc Hl).
    destruct (chunk_raw_facts (cum_of cs) min l smax Hmin Hc Hl) as (F1 & F2 & _).
    set (raw := chunk_raw (cum_of cs) min l) in *.
    destruct (Z.leb_spec raw USIZE_MAX) as [L|]; [|discriminate].
    destruct (chunk_round_spec raw) as (R1 & R2 & R3); [unfold HDR in *; lia|].
    destruct (align_up (chunk_round raw) HDR_ALIGN) as [s'|] eqn:E; [|discriminate].
    intros E2; inversion E2; subst lay; cbn [l_size].
    assert (Hr0 : 0 <= chunk_round raw) by (unfold HDR in *; lia).
    destruct (align_up8 _ _ Hr0 E) as (B & _). lia.
  Qed.

  Lemma arep_caps_tl ext cs ar w us : arep ext cs ar w us -> 0 <= sum_caps (tl cs).
  Proof.
    intros R. apply sum_caps_len. rewrite Forall_forall. intros c Hc.
    apply (arep_chunk_ok _ _ _ _ Hct _ _ _ _ _ c R). destruct cs; [destruct Hc|right; exact Hc].
  Qed.

  Lemma slow_info_jf J ext ar us us' ext' ar' cs l w r w' :
    jfor (ar_min ar) J -> J (map c_u cs) w -> arep ext cs ar w us -> req_ok smax l -> slow_info A cs (ar_min ar) l w r w' ->
    (forall c, r = Some c -> arep ext' (c :: cs) ar' w' us') ->
    J (map c_u (match r with Some c => c :: cs | None => cs end)) w'.
  Proof.
    intros HJ Hw R Hl. pose proof (ar_min_ok _ _ _ _ _ _ _ _ R) as Hm. pose proof (arep_caps_tl _ _ _ _ _ R) as Ht.
    destruct r as [c|]; cbn [slow_info].
    - intros (Er & w1 & E & Q) Hc. apply (jf_quiet _ _ HJ _ w1); [|exact Q].
      assert (Hlen : l_size (u_layout (c_u c)) <= u_len (c_u c)).
      { destruct (arep_chunk_ok _ _ _ _ Hct _ _ _ _ _ c (Hc c eq_refl) (or_introl eq_refl)) as (_ & ((_ & _ & G & _) & _) & _). exact G. }
      apply (jf_alloc _ _ HJ _ _ _ _ _ Hw) in E.
      + cbn in *. unfold mku in E. cbn in E. destruct (c_u c); exact E.
      + apply (slow_req_min cs (ar_min ar) l); auto; lia.
      + intros b Eb. injection Eb as <-. exact Hlen.
    - intros [(_ & ->)|(lay & Er & E)] _; [exact Hw|].
      apply (jf_alloc _ _ HJ _ _ _ _ _ Hw) in E; [exact E| |discriminate].
      apply (slow_req_min cs (ar_min ar) l); auto; lia.
  Qed.

  Theorem blink_contract_lax J ext min :
    jfor min J -> cfg_lax dbg amax smax min smax' -> (forall us w, J us w -> dbg = true -> 1 <= min \/ us <> []) ->
    contract amax smax (blink A dbg) (blink_own J ext min).
  Proof.
    intros HJ Hlax Hne.
    assert (Hcfg : forall cs ar w us l, arep ext cs ar w us -> J (map c_u cs) w -> cfg_for dbg amax smax min smax' (ar_root ar) l).
    { intros cs ar w us l R Hj. apply (cfg_lax_for Hlax). intros Ed. destruct (Hne _ _ Hj Ed) as [?|Hn]; [left; assumption|].
      right; right; right. rewrite (ar_head _ _ _ _ _ _ _ _ R). destruct cs; [contradiction|discriminate]. }
    assert (Hres : forall aw us u old new, blink_own J ext min aw (u :: us) -> fits old u ->
      req_ok smax new ->
      wp (blink_resize A dbg (u_ptr u) old new) aw (fun r w' =>
      same_on us (al_mem A (snd aw)) (al_mem A (snd w')) /\
      match r with
      | None => same_on [u] (al_mem A (snd aw)) (al_mem A (snd w')) /\ blink_own J ext min w' (u :: us)
      | Some b =>
          good_block amax new b /\ blink_own J ext min w' (mkU (b_ptr b) (b_len b) new :: us) /\
          forall i, 0 <= i < Z.min (l_size new) (l_size old) ->
            al_mem A (snd w') (b_ptr b + i) = al_mem A (snd aw) (u_ptr u + i)
      end)).
    { intros [ar w] us u old new (cs & R & Hj & Hm) Hf Hn. cbn in R, Hm, Hj. subst min.
      eapply wp_mono; [apply (blink_resize_ok ext cs ar w u us old new R Hf Hn (Hcfg _ _ _ _ _ R Hj))|].
      intros r [ar' w'] (S1 & M1 & H). cbn [fst snd] in *. apply same_on_app in S1. split; [apply S1|].
      destruct r as [b|].
      + destruct H as (Hg & Hcp & H). split; [exact Hg|]. split; [|exact Hcp].
        destruct H as [(Q & c & n & cs' & -> & _ & R1)|(_ & c & [I1 _] & R1)].
        * exists (set_cur c n :: cs'). split; [exact R1|]. split; [|exact M1].
          apply (jf_quiet _ _ HJ _ w); assumption.
        * exists (c :: cs). split; [exact R1|]. split; [|exact M1].
          eapply (slow_info_jf J _ _ _ _ _ _ _ _ _ (Some c) _ HJ Hj R Hn I1). intros c0 Ec; injection Ec as <-; exact R1.
      + destruct H as (_ & I1 & S2 & R1). split; [exact S2|]. exists cs. split; [exact R1|].
        split; [|exact M1]. apply (slow_info_jf J _ _ _ us ext ar _ _ _ None _ HJ Hj R Hn I1). discriminate. }
    constructor.
    - intros [ar w] us us' (cs & R & Hj & Hm) P. exists cs. split; [|split; assumption].
      apply (arep_perm _ _ _ _ _ _ _ _ _ P R).
    - intros [ar w] us (cs & R & _). split; [apply (ar_ok _ _ _ _ _ _ _ _ R)|apply (ar_disj _ _ _ _ _ _ _ _ R)].
    - intros [ar w] m. cbn. apply (ct_mem _ _ _ _ Hct).
    - intros [ar w] us m (cs & R & Hj & Hm) H. exists cs. cbn in *.
      split; [apply (arep_write_us _ _ _ _ Hct _ _ _ _ _ m R H)|]. split; [|exact Hm].
      apply (jf_quiet _ _ HJ _ w); [exact Hj|]. apply quiet_set.
    - intros [ar w] us l (cs & R & Hj & Hm) Hl. cbn in R, Hm, Hj. subst min. cbn.
      eapply wp_mono; [apply (blink_allocate_ok ext cs ar w us l R Hl (Hcfg _ _ _ _ _ R Hj))|].
      intros r [ar' w'] (S1 & M1 & H). cbn [fst snd] in *.
      apply same_on_app in S1. split; [apply S1|].
      destruct (fits_root cs l).
      + destruct H as (Q & c & cs' & b & -> & -> & Eb & Hg & R1).
        split; [exact Hg|]. exists (set_cur c (b_ptr b + l_size l) :: cs').
        split; [exact R1|]. split; [|exact M1]. apply (jf_quiet _ _ HJ _ w); assumption.
      + destruct r as [b|].
        * destruct H as (Hg & _ & c & I1 & _ & _ & R1). split; [exact Hg|].
          exists (c :: cs). split; [exact R1|]. split; [|exact M1].
          eapply (slow_info_jf J _ _ _ _ _ _ _ _ _ (Some c) _ HJ Hj R Hl I1). intros c0 Ec; injection Ec as <-; exact R1.
        * destruct H as [I1 R1]. exists cs. split; [exact R1|]. split; [|exact M1].
          apply (slow_info_jf J _ _ _ us ext ar _ _ _ None _ HJ Hj R Hl I1). discriminate.
    - intros [ar w] us u l (cs & R & Hj & Hm) [F1 F2]. cbn in R, Hm, Hj. cbn.
      assert (0 <= l_size (u_layout u)).
      { pose proof (ar_ok _ _ _ _ _ _ _ _ R) as Hok. inversion Hok as [|? ? Hu _]; subst. apply Hu. }
      eapply wp_mono; [apply (blink_deallocate_ok ext cs ar w u us (l_size l) R); lia|].
      intros _ [ar' w'] (E & Q & S1 & R1). cbn [fst snd] in *. subst ar'.
      apply same_on_app in S1. destruct S1 as [S1 _]. apply same_on_cons in S1.
      split; [apply S1|]. exists cs. cbn [fst snd].
      split; [apply (arep_drop _ _ _ _ _ _ _ _ _ R1)|]. split; [|exact Hm].
      apply (jf_quiet _ _ HJ _ w); assumption.
    - intros aw us u old new Ho Hf Hn Hle.
      eapply wp_mono; [apply (Hres aw us u old new Ho Hf Hn)|].
      intros [b|] w'; [|auto]. intros (S1 & G & O & C). split; [exact S1|]. split; [exact G|].
      split; [exact O|]. intros i Hi. apply C. lia.
    - intros aw us u old new Ho Hf Hn Hle.
      eapply wp_mono; [apply (Hres aw us u old new Ho Hf Hn)|].
      intros [b|] w'; [|auto]. intros (S1 & G & O & C). split; [exact S1|]. split; [exact G|].
      split; [exact O|]. intros i Hi. apply C. lia.
  Qed.

  Theorem blink_contract J ext min :
    jinv J -> cfg_ok dbg amax smax min smax' ->
    contract amax smax (blink A dbg) (blink_own J ext min).
  Proof.
    intros HJ Hcfg. apply blink_contract_lax; [apply jinv_for; exact HJ|apply (cfg_ok_lax Hcfg)|].
    intros us w _ ->. left. destruct Hcfg as (_ & _ & [[? _]|[? _]]); [discriminate|assumption].
  Qed.

  (** ** Reset *)

  Lemma arena_reset_keep_ok ext cs ar w us :
    arep ext cs ar w us ->
    wp (arena_reset A true) (ar, w) (fun _ aw' =>
      same_on ext (al_mem A w) (al_mem A (snd aw')) /\ ar_min (fst aw') = ar_min ar /\
      match cs with
      | [] => aw' = (ar, w)
      | c :: _ => arep ext [set_cur c (c_base c)] (fst aw') (snd aw') []
      end).
  Proof.
    intros R. unfold arena_reset. apply wp_with_aw. cbn [fst snd].
    rewrite (ar_head _ _ _ _ _ _ _ _ R).
    destruct cs as [|c cs']; cbn [head_ptr].
    - apply wp_ret. cbn [fst snd]. split; [apply same_on_refl|]. split; reflexivity.
    - apply wp_bind.
      eapply wp_mono; [apply (chunk_reset_ok amax smax' A own Hct _ _ _ _ _ _ R)|].
      intros prev w1 (-> & Q1 & Hch & R1 & S1). apply wp_bind.
      pose proof (ar_own _ _ _ _ _ _ _ _ R1) as Ho1. cbn [map app] in Ho1.
      assert (Ho1' : own w1 (map c_u cs' ++ c_u (set_cur c (c_base c)) :: ext)).
      { apply (ct_perm _ _ _ _ Hct _ _ _ Ho1). apply Permutation_middle. }
      eapply wp_mono; [apply (free_chain_ok amax smax' A own Hct cs' (ar_depth ar) w1 _ Hch Ho1')|].
      { rewrite (ar_count _ _ _ _ _ _ _ _ R). cbn. lia. }
      intros _ w2 [Ho2 S2]. apply wp_ret. cbn [fst snd].
      apply same_on_cons in S2. destruct S2 as [S2a S2b]. apply same_on_app in S1.
      split; [eapply same_on_trans; [apply S1|exact S2b]|]. split; [reflexivity|].
      pose proof R1 as [X1 X2 X3 X4 X5 X6 X7 X8].
      constructor; auto.
      apply (chain_same_on (al_mem A w1) _ _ [] ); [|  |exact X4].
      + cbn [map app]. exact S2a.
      + intros c0 [<-|[]]. destruct (arep_chunk_ok _ _ _ _ Hct _ _ _ _ _ c R (or_introl eq_refl))
          as (_ & _ & _ & _ & L1 & _). exact L1.
  Qed.

  Lemma arena_reset_final_ok ext cs ar w us :
    arep ext cs ar w us ->
    wp (arena_reset A false) (ar, w) (fun _ aw' =>
      same_on ext (al_mem A w) (al_mem A (snd aw')) /\
      ar_min (fst aw') = ar_min ar /\ ar_root (fst aw') = None /\
      own (snd aw') ext /\ arep ext [] (fst aw') (snd aw') []).
  Proof.
    intros R. unfold arena_reset. apply wp_with_aw. cbn [fst snd]. apply wp_bind.
    rewrite (ar_head _ _ _ _ _ _ _ _ R).
    eapply wp_mono; [apply (free_chain_ok amax smax' A own Hct cs (ar_depth ar) w ext)|].
    - apply (ar_chain _ _ _ _ _ _ _ _ R).
    - apply (ar_own _ _ _ _ _ _ _ _ R).
    - rewrite (ar_count _ _ _ _ _ _ _ _ R). lia.
    - intros _ w1 [Ho S1]. apply wp_ret. cbn [fst snd].
      split; [exact S1|]. split; [reflexivity|]. split; [reflexivity|]. split; [exact Ho|].
      constructor; cbn; auto; try constructor.
      + apply (ar_min_ok _ _ _ _ _ _ _ _ R).
      + apply (ar_min_ok _ _ _ _ _ _ _ _ R).
  Qed.

  Lemma arena_reset_leak_ok keep ext cs ar w us :
    arep ext cs ar w us ->
    wp (arena_reset_leak A keep) (ar, w) (fun _ aw' =>
      quiet A w (snd aw') /\ ar_min (fst aw') = ar_min ar /\
      if keep
      then match cs with
           | [] => aw' = (ar, w)
           | c :: cs' =>
               same_on (map c_u cs' ++ ext) (al_mem A w) (al_mem A (snd aw')) /\
               arep (map c_u cs' ++ ext) [set_cur c (c_base c)] (fst aw') (snd aw') []
           end
      else snd aw' = w /\ arep (map c_u cs ++ ext) [] (fst aw') (snd aw') []).
  Proof.
    intros R. unfold arena_reset_leak. apply wp_with_aw. cbn [fst snd].
    destruct keep.
    - rewrite (ar_head _ _ _ _ _ _ _ _ R). destruct cs as [|c cs']; cbn [head_ptr].
      + apply wp_ret. cbn [fst snd]. split; [apply quiet_refl|]. split; reflexivity.
      + apply wp_bind.
        eapply wp_mono; [apply (chunk_reset_ok amax smax' A own Hct _ _ _ _ _ _ R)|].
        intros prev w1 (-> & Q1 & Hch & R1 & S1). apply wp_ret. cbn [fst snd].
        split; [exact Q1|]. split; [reflexivity|]. split; [exact S1|exact R1].
    - apply wp_ret. cbn [fst snd]. split; [apply quiet_refl|]. split; [reflexivity|].
      split; [reflexivity|]. destruct R as [R1 R2 R3 R4 R5 R6 R7 R8].
      constructor; cbn; auto; constructor.
  Qed.
End Blink.

(** A fresh arena over an allocator whose blocks all belong to others. *)
Lemma arep_new {W} amax smax' (A : Allocator W) own ext w min :
  contract amax smax' A own -> own w ext -> 0 <= min <= USIZE_MAX ->
  arep amax A own ext [] (arena_with_chunk_size min) w [].
Proof.
  intros Hct Ho Hm. constructor; cbn; auto; constructor.
Qed.
