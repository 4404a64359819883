(** An arena among other users of the same underlying allocator: what its
    operations, and those of the others, leave alone. *)
From Coq Require Import Permutation.
From Verif Require Import Base BaseFacts Alloc AllocFacts Arena ArenaFacts ArenaInv ArenaOps BlinkAlloc BlinkFacts
  History HistoryFacts.

Section Frame.
  Context {W : Type} (amax smax smax' : Z) (A : Allocator W) (own : W -> list ublock -> Prop).
  Hypothesis Hct : contract amax smax' A own.
  Hypothesis Hamax : 0 <= amax <= USIZE_MAX.
  Variable dbg : bool.
  Notation arep := (arep amax A own).

  (** The arena serves the blocks [us]; [ext] belongs to others. *)
  Definition serves (min : Z) (ext : list ublock) (aw : AW (W := W)) (us : list ublock) : Prop :=
    exists cs, arep ext cs (fst aw) (snd aw) us /\ ar_min (fst aw) = min.
  Notation amem aw := (al_mem A (snd aw)).

  Lemma serves_perm min ext ext' us us' aw : Permutation ext ext' -> Permutation us us' ->
    serves min ext aw us -> serves min ext' aw us'.
  Proof.
    intros P1 P2 (cs & R & Hm). exists cs. split; [|exact Hm].
    apply (arep_perm _ _ _ _ _ _ _ _ _ P2). apply (arep_ext_perm _ _ _ _ Hct _ _ _ _ _ _ P1). exact R.
  Qed.

  Lemma serves_wf min ext us aw : serves min ext aw us ->
    Forall (u_ok amax) (us ++ ext) /\ pairwise disjoint_u (us ++ ext).
  Proof.
    intros (cs & R & _). destruct (ct_wf _ _ _ _ Hct _ _ (ar_own _ _ _ _ _ _ _ _ R)) as [O D].
    apply Forall_app in O. apply pairwise_app in D. destruct D as (_ & D2 & D3). split.
    - apply Forall_app. split; [apply (ar_ok _ _ _ _ _ _ _ _ R)|apply O].
    - apply pairwise_app. split; [apply (ar_disj _ _ _ _ _ _ _ _ R)|]. split; [exact D2|].
      intros u v Hu Hv x Hx Hx'. pose proof (ar_placed _ _ _ _ _ _ _ _ R) as P. unfold placed in P. rewrite Forall_forall in P.
      destruct (P u Hu) as (c & Hc & P1 & P2).
      destruct (arep_chunk_ok _ _ _ _ Hct _ _ _ _ _ c R Hc) as ((_ & _ & W1) & _).
      apply (arep_ext_not _ _ _ _ Hct _ _ _ _ _ c v x R Hc Hv Hx').
      unfold in_u in Hx. unfold c_base, HDR in *. lia.
  Qed.

  (** Others may do what they want outside the chunks. *)
  Lemma arep_frame ext ext' cs ar w w' us :
    arep ext cs ar w us -> own w' (map c_u cs ++ ext') -> same_on (map c_u cs) (al_mem A w) (al_mem A w') ->
    arep ext' cs ar w' us /\ same_on us (al_mem A w) (al_mem A w').
  Proof.
    intros R Ho Hs. split.
    - destruct R as [R1 R2 R3 R4 R5 R6 R7 R8] eqn:ER. constructor; auto.
      apply (chain_same_on (al_mem A w) _ _ []); [rewrite app_nil_r; exact Hs| |exact R4].
      intros c Hc. apply (arep_chunk_ok _ _ _ _ Hct _ _ _ _ _ c R Hc).
    - assert (Hs2 : same_on (map c_u cs ++ []) (al_mem A w) (al_mem A w')) by (rewrite app_nil_r; exact Hs).
      intros u x Hu Hx. pose proof (ar_placed _ _ _ _ _ _ _ _ R) as P. unfold placed in P. rewrite Forall_forall in P.
      destruct (P u Hu) as (c & Hc & P1 & P2).
      destruct (arep_chunk_ok _ _ _ _ Hct _ _ _ _ _ c R Hc) as ((_ & _ & W1) & _).
      apply (Hs (c_u c)); [apply in_map; exact Hc|]. unfold in_u in *. unfold c_base, c_end, c_ptr, HDR in *. lia.
  Qed.

  Lemma arep_own_write cs ar w us ext u m :
    arep ext cs ar w (u :: us) -> (forall x, ~ in_u x u -> m x = al_mem A w x) ->
    arep ext cs ar (al_set_mem A w m) (u :: us) /\ same_on (us ++ ext) (al_mem A w) m.
  Proof.
    intros R H. destruct (arep_write_us _ _ _ _ Hct _ _ _ _ _ m R) as [R2 S2].
    - intros x Hx. apply H. apply Hx. left; reflexivity.
    - split; [exact R2|]. apply same_on_app. split; [|exact S2].
      intros v x Hv Hx. apply H. intros Hu. pose proof (ar_disj _ _ _ _ _ _ _ _ R) as [D _].
      rewrite Forall_forall in D. apply (D v Hv x Hu Hx).
  Qed.

  Lemma serves_write min ext aw u us m :
    serves min ext aw (u :: us) -> (forall x, ~ in_u x u -> m x = amem aw x) ->
    serves min ext (fst aw, al_set_mem A (snd aw) m) (u :: us) /\ same_on (us ++ ext) (amem aw) m.
  Proof.
    intros (cs & R & Hm) H. destruct (arep_own_write _ _ _ _ _ _ m R H) as [R2 S2].
    split; [exists cs; split; [exact R2|exact Hm]|exact S2].
  Qed.
  (** Writing to a block of somebody else. *)
  Lemma serves_write_ext min ext aw u us m :
    serves min (u :: ext) aw us -> (forall x, ~ in_u x u -> m x = amem aw x) ->
    serves min (u :: ext) (fst aw, al_set_mem A (snd aw) m) us /\ same_on (us ++ ext) (amem aw) m.
  Proof.
    intros (cs & R & Hm) H. pose proof (ar_own _ _ _ _ _ _ _ _ R) as Ho.
    pose proof (arep_disj _ _ _ _ Hct _ _ _ _ _ R) as D. apply pairwise_app in D. destruct D as (_ & [D2 _] & D3).
    assert (S1 : same_on (map c_u cs) (al_mem A (snd aw)) m).
    { intros v x Hv Hx. apply H. intros Hu. apply (D3 v u Hv (or_introl eq_refl) x Hx Hu). }
    assert (Ho2 : own (al_set_mem A (snd aw) m) (map c_u cs ++ u :: ext)).
    { apply (ct_write _ _ _ _ Hct); [exact Ho|]. intros x Hx. apply H. apply Hx. apply in_or_app. right; left; reflexivity. }
    destruct (arep_frame _ (u :: ext) _ _ _ (al_set_mem A (snd aw) m) _ R Ho2) as [R2 S2].
    { rewrite (ct_mem _ _ _ _ Hct). exact S1. }
    rewrite (ct_mem _ _ _ _ Hct) in S2. split; [exists cs; split; [exact R2|exact Hm]|].
    apply same_on_app. split; [exact S2|]. intros v x Hv Hx. apply H. intros Hu.
    rewrite Forall_forall in D2. apply (D2 v Hv x Hu Hx).
  Qed.

  Lemma serves_alloc min ext aw us l (z : bool) :
    cfg_for dbg amax smax min smax' (ar_root (fst aw)) l -> serves min ext aw us -> req_ok smax l ->
    wp (if z then al_allocate_zeroed (blink A dbg) l else al_allocate (blink A dbg) l) aw (fun r aw' =>
      same_on (us ++ ext) (amem aw) (amem aw') /\
      match r with
      | None => serves min ext aw' us
      | Some b => good_block amax l b /\ b_len b = l_size l /\ serves min ext aw' (mku b l :: us) /\
          (z = true -> forall i, 0 <= i < b_len b -> amem aw' (b_ptr b + i) = Byte 0)
      end).
  Proof.
    intros Hcfg (cs & R & Hm) Hl.
    assert (H : wp (al_allocate (blink A dbg) l) aw (fun r aw' =>
      same_on (us ++ ext) (amem aw) (amem aw') /\
      match r with
      | None => serves min ext aw' us
      | Some b => good_block amax l b /\ b_len b = l_size l /\ serves min ext aw' (mku b l :: us)
      end)).
    { destruct aw as [ar w]. cbn [fst snd] in *. subst min. cbn [blink al_allocate].
      eapply wp_mono; [apply (blink_allocate_ok amax smax smax' A own Hct Hamax dbg ext cs ar w us l R Hl Hcfg)|].
      intros r [ar' w'] (S1 & M1 & H). cbn [fst snd] in *. split; [exact S1|]. destruct (fits_root cs l).
      - destruct H as (_ & c & cs' & b & -> & -> & Eb & Hg & R1). split; [exact Hg|]. split; [rewrite Eb; reflexivity|].
        exists (set_cur c (b_ptr b + l_size l) :: cs'). split; [exact R1|exact M1].
      - destruct r as [b|].
        + destruct H as (Hg & Hb & c & _ & _ & _ & R1). split; [exact Hg|]. split; [exact Hb|]. exists (c :: cs). split; [exact R1|exact M1].
        + destruct H as [_ R1]. exists cs. split; [exact R1|exact M1]. }
    destruct z.
    - unfold al_allocate_zeroed. apply wp_bind. eapply wp_mono; [exact H|]. intros [b|] aw1 (S1 & R1).
      + destruct R1 as (G & Hb & O1). apply wp_bind, wp_mfill. apply wp_ret.
        destruct (serves_write min ext aw1 (mku b l) us (fill (amem aw1) (b_ptr b) (b_len b) (Byte 0)) O1) as [O2 S2].
        { intros x Hx. apply fill_other. unfold in_u, mku in Hx. cbn in Hx. lia. }
        cbn [blink al_set_mem al_mem fst snd] in *. rewrite (ct_mem _ _ _ _ Hct).
        split; [eapply same_on_trans; eassumption|]. split; [exact G|]. split; [exact Hb|]. split; [exact O2|].
        intros _ i Hi. apply fill_in. lia.
      + apply wp_ret. split; assumption.
    - eapply wp_mono; [exact H|]. intros [b|] aw1 (S1 & R1); [|split; assumption].
      destruct R1 as (G & Hb & O1). split; [exact S1|]. split; [exact G|]. split; [exact Hb|]. split; [exact O1|discriminate].
  Qed.

  Lemma serves_dealloc min ext aw u us size :
    serves min ext aw (u :: us) -> 0 <= size <= u_len u ->
    wp (blink_deallocate A (u_ptr u) size) aw (fun _ aw' =>
      same_on (us ++ ext) (amem aw) (amem aw') /\ serves min ext aw' us).
  Proof.
    intros (cs & R & Hm) Hs. destruct aw as [ar w]. cbn [fst snd] in *.
    eapply wp_mono; [apply (blink_deallocate_ok amax smax' A own Hct Hamax ext cs ar w u us size R Hs)|].
    intros _ [ar' w'] (E & _ & S1 & R1). cbn [fst snd] in *. subst ar'. cbn [app] in S1. apply same_on_cons in S1.
    split; [apply S1|]. exists cs. split; [apply (arep_drop _ _ _ _ _ _ _ _ _ R1)|exact Hm].
  Qed.

  Lemma serves_resize min ext aw u us old new :
    cfg_lax dbg amax smax min smax' -> serves min ext aw (u :: us) -> fits old u -> req_ok smax new ->
    wp (blink_resize A dbg (u_ptr u) old new) aw (fun r aw' =>
      same_on (us ++ ext) (amem aw) (amem aw') /\
      match r with
      | None => same_on [u] (amem aw) (amem aw') /\ serves min ext aw' (u :: us)
      | Some b => good_block amax new b /\ serves min ext aw' (mku b new :: us) /\
          forall i, 0 <= i < Z.min (l_size new) (l_size old) -> amem aw' (b_ptr b + i) = amem aw (u_ptr u + i)
      end).
  Proof.
    intros Hcfg (cs & R & Hm) Hf Hn. destruct aw as [ar w]. cbn [fst snd] in *. subst min.
    assert (Hcfg' : cfg_for dbg amax smax (ar_min ar) smax' (ar_root ar) new).
    { apply (cfg_lax_for Hcfg). intros _. right; right; right. rewrite (ar_head _ _ _ _ _ _ _ _ R).
      pose proof (ar_placed _ _ _ _ _ _ _ _ R) as P. unfold placed in P. apply Forall_inv in P.
      destruct P as (c & Hc & _). destruct cs; [destruct Hc|discriminate]. }
    eapply wp_mono; [apply (blink_resize_ok amax smax smax' A own Hct Hamax dbg ext cs ar w u us old new R Hf Hn Hcfg')|].
    intros r [ar' w'] (S1 & M1 & H). cbn [fst snd] in *. split; [exact S1|]. destruct r as [b|].
    - destruct H as (G & C & H). split; [exact G|]. split; [|exact C].
      destruct H as [(_ & c & n & cs' & -> & _ & R1)|(_ & c & _ & R1)]; eexists; (split; [exact R1|exact M1]).
    - destruct H as (_ & _ & S2 & R1). split; [exact S2|]. exists cs. split; [exact R1|exact M1].
  Qed.

  Lemma serves_reset min ext aw us (keep : bool) :
    serves min ext aw us ->
    wp (arena_reset A keep) aw (fun _ aw' => same_on ext (amem aw) (amem aw') /\ serves min ext aw' []).
  Proof.
    intros (cs & R & Hm). destruct aw as [ar w]. cbn [fst snd] in *. destruct keep.
    - eapply wp_mono; [apply (arena_reset_keep_ok amax smax' A own Hct ext cs ar w us R)|].
      intros _ [ar' w'] (S1 & M1 & H). cbn [fst snd] in *. split; [exact S1|]. destruct cs as [|c cs].
      + injection H as -> ->. exists []. split; [|exact Hm]. destruct R as [R1 R2 R3 R4 R5 R6 R7 R8]. constructor; auto; constructor.
      + eexists. split; [exact H|cbn [fst]; congruence].
    - eapply wp_mono; [apply (arena_reset_final_ok amax smax' A own Hct ext cs ar w us R)|].
      intros _ [ar' w'] (S1 & M1 & _ & _ & H). cbn [fst snd] in *. split; [exact S1|]. exists []. split; [exact H|cbn [fst]; congruence].
  Qed.

  (** ** Operations of the others *)

  Lemma wp_inner {B} (m : M W B) aw (Q : B -> AW (W := W) -> Prop) :
    wp m (snd aw) (fun b w' => Q b (fst aw, w')) -> wp (inner m) aw Q.
  Proof. intros H. apply wp_with_aw. apply wp_bind. eapply wp_mono; [exact H|]. intros b w' Hb. apply wp_ret. exact Hb. Qed.

  Lemma others_alloc min ext aw us l (z : bool) :
    serves min ext aw us -> req_ok smax' l ->
    wp (inner (if z then al_allocate_zeroed A l else al_allocate A l)) aw (fun r aw' =>
      same_on (us ++ ext) (amem aw) (amem aw') /\
      match r with
      | None => serves min ext aw' us
      | Some b => good_block amax l b /\ serves min (mku b l :: ext) aw' us /\
          (z = true -> forall i, 0 <= i < b_len b -> amem aw' (b_ptr b + i) = Byte 0)
      end).
  Proof.
    intros (cs & R & Hm) Hl. apply wp_inner.
    eapply wp_mono; [apply (allocate_any_ok amax smax' A own Hct _ _ l z (ar_own _ _ _ _ _ _ _ _ R) Hl)|].
    intros r w' (S1 & H). cbn [fst snd]. apply same_on_app in S1. destruct S1 as [S1 S2]. destruct r as [b|].
    - destruct H as (G & O & Hz).
      destruct (arep_frame _ (mku b l :: ext) _ _ _ w' _ R) as [R2 S3]; [|exact S1|].
      { apply (ct_perm _ _ _ _ Hct _ _ _ O). apply Permutation_middle. }
      split; [apply same_on_app; auto|]. split; [exact G|]. split; [exists cs; split; [exact R2|exact Hm]|exact Hz].
    - destruct (arep_frame _ ext _ _ _ w' _ R H S1) as [R2 S3].
      split; [apply same_on_app; auto|]. exists cs. split; [exact R2|exact Hm].
  Qed.

  Lemma others_dealloc min ext aw u us l :
    serves min (u :: ext) aw us -> fits l u ->
    wp (inner (al_deallocate A (u_ptr u) l)) aw (fun _ aw' =>
      same_on (us ++ ext) (amem aw) (amem aw') /\ serves min ext aw' us).
  Proof.
    intros (cs & R & Hm) Hf. apply wp_inner.
    assert (Ho : own (snd aw) (u :: map c_u cs ++ ext)).
    { apply (ct_perm _ _ _ _ Hct _ _ _ (ar_own _ _ _ _ _ _ _ _ R)). symmetry. apply Permutation_middle. }
    eapply wp_mono; [apply (ct_deallocate _ _ _ _ Hct _ _ u l Ho Hf)|].
    intros _ w' (S1 & O). cbn [fst snd]. apply same_on_app in S1. destruct S1 as [S1 S2].
    destruct (arep_frame _ ext _ _ _ w' _ R O S1) as [R2 S3].
    split; [apply same_on_app; auto|]. exists cs. split; [exact R2|exact Hm].
  Qed.

  (** [m] resizes the block [u] of somebody else, as [grow] and [shrink] do. *)
  Definition resizes (m : M W (option block)) (u : ublock) (old new : Layout) : Prop :=
    forall w us, own w (u :: us) ->
    wp m w (fun r w' =>
      same_on us (al_mem A w) (al_mem A w') /\
      match r with
      | None => same_on [u] (al_mem A w) (al_mem A w') /\ own w' (u :: us)
      | Some b => good_block amax new b /\ own w' (mkU (b_ptr b) (b_len b) new :: us) /\
          forall i, 0 <= i < Z.min (l_size old) (l_size new) -> al_mem A w' (b_ptr b + i) = al_mem A w (u_ptr u + i)
      end).

  Lemma others_resize min ext aw u us m old new :
    serves min (u :: ext) aw us -> resizes m u old new ->
    wp (inner m) aw (fun r aw' =>
      same_on (us ++ ext) (amem aw) (amem aw') /\
      match r with
      | None => same_on [u] (amem aw) (amem aw') /\ serves min (u :: ext) aw' us
      | Some b => good_block amax new b /\ serves min (mku b new :: ext) aw' us /\
          forall i, 0 <= i < Z.min (l_size old) (l_size new) -> amem aw' (b_ptr b + i) = amem aw (u_ptr u + i)
      end).
  Proof.
    intros (cs & R & Hm) Hr. apply wp_inner.
    assert (Ho : own (snd aw) (u :: map c_u cs ++ ext)).
    { apply (ct_perm _ _ _ _ Hct _ _ _ (ar_own _ _ _ _ _ _ _ _ R)). symmetry. apply Permutation_middle. }
    eapply wp_mono; [apply (Hr _ _ Ho)|].
    intros r w' (S1 & H). cbn [fst snd]. apply same_on_app in S1. destruct S1 as [S1 S2]. destruct r as [b|].
    - destruct H as (G & O & Hz).
      destruct (arep_frame _ (mku b new :: ext) _ _ _ w' _ R) as [R2 S3]; [|exact S1|].
      { apply (ct_perm _ _ _ _ Hct _ _ _ O). apply Permutation_middle. }
      split; [apply same_on_app; auto|]. split; [exact G|]. split; [exists cs; split; [exact R2|exact Hm]|exact Hz].
    - destruct H as [S3 O].
      destruct (arep_frame _ (u :: ext) _ _ _ w' _ R) as [R2 S4]; [|exact S1|].
      { apply (ct_perm _ _ _ _ Hct _ _ _ O). apply Permutation_middle. }
      split; [apply same_on_app; auto|]. split; [exact S3|]. exists cs. split; [exact R2|exact Hm].
  Qed.
End Frame.
