(** Ownership that also remembers what is known about memory. *)
From Coq Require Import Permutation.
From Verif Require Import Base BaseFacts Alloc AllocFacts Arena ArenaFacts ArenaInv ArenaOps BlinkAlloc BlinkFacts
  History HistoryFacts Setup SetupFacts Stray.

Section Stray.
  Variables amax bmax : Z.
  Variable S : strategy.
  Hypothesis Hmax : amax <= bmax.
  Hypothesis Hhon : honest amax S.
  Variable w0 : bworld.

  Notation A := (base bmax S).
  Notation bown := (base_own amax bmax).
  Notation kn := (known (bw_mem w0) (outstanding (bw_trace w0))).

  Definition lore (w : bworld) : Prop :=
    exists new, bw_trace w = new ++ bw_trace w0 /\
      (forall x c, kn new x = Some c -> bw_mem w x = c) /\
      (forall u x, In u (outstanding (bw_trace w)) -> in_u x u -> kn new x = None).

  Definition kown (w : bworld) (us : list ublock) : Prop := bown w us /\ lore w.

  Lemma lore_no_stray w : lore w -> no_stray w0 w.
  Proof. intros (new & H1 & H2 & _). exists new. auto. Qed.

  Lemma lies_in u x : in_u x u -> lies (u_ptr u) (u_len u) x = true.
  Proof. unfold in_u, lies. lia. Qed.
  Lemma lies_not p n x : ~ (p <= x < p + n) -> lies p n x = false.
  Proof. unfold lies. lia. Qed.

  Lemma lore_start : lore w0.
  Proof.
    exists []. split; [reflexivity|]. split.
    - intros x c H. cbn in H. destruct (existsb _ _); [discriminate H|]. congruence.
    - intros u x Hu Hx. cbn. replace (existsb _ _) with true; [reflexivity|]. symmetry. apply existsb_exists.
      exists u. split; [exact Hu|apply lies_in; exact Hx].
  Qed.

  Lemma lore_write w us m : kown w us ->
    (forall x, (forall u, In u us -> ~ in_u x u) -> m x = bw_mem w x) -> lore (mkB m (bw_trace w)).
  Proof.
    intros [[[_ P] _] (new & H1 & H2 & H3)] Hm. exists new. split; [exact H1|]. split; [|exact H3].
    intros x c H. cbn. rewrite Hm; [apply H2; exact H|]. intros u Hu Hx.
    rewrite (H3 u x) in H; [discriminate H|rewrite <- P; exact Hu|exact Hx].
  Qed.

  Lemma lore_allocate w us l r w' : kown w us -> al_allocate A l w = ORet r w' -> lore w'.
  Proof.
    intros [Ho (new & H1 & H2 & H3)] E. cbn in E. unfold base_allocate in E.
    destruct (negb (req_okb bmax l)); [discriminate E|]. inversion E; subst r w'. clear E.
    exists (EvAlloc l (st_alloc S (bw_trace w) l) :: new). cbn [bw_trace bw_mem]. split; [cbn; congruence|].
    destruct (st_alloc S (bw_trace w) l) as [b|]; cbn [known outstanding].
    - split.
      + intros x c H. unfold lies in H. destruct ((b_ptr b <=? x) && (x <? b_ptr b + b_len b)) eqn:El; [discriminate H|].
        rewrite fill_other by lia. apply H2. exact H.
      + intros u x [<-|Hu] Hx; [rewrite (lies_in _ _ Hx : lies (b_ptr b) (b_len b) x = true); reflexivity|].
        rewrite (H3 u x Hu Hx). destruct (lies _ _ _); reflexivity.
    - split; [exact H2|exact H3].
  Qed.

  (** What remains allocated is apart from what is freed. *)
  Lemma left_apart w us u l us' : bown w (u :: us) -> fits l u ->
    remove_fit (u_ptr u) l (outstanding (bw_trace w)) = Some us' ->
    forall v x, In v us' -> in_u x v -> lies (u_ptr u) (l_size l) x = false.
  Proof.
    intros [Hown _] Hf E v x Hv Hx.
    destruct (base_own_remove amax w u us l Hown Hf) as (us2 & E2 & PP). rewrite E in E2.
    assert (us' = us2) by congruence. subst us2.
    destruct Hown as [(_ & W2 & _) _]. destruct W2 as [W2 _]. rewrite Forall_forall in W2.
    assert (Hv2 : In v us) by (rewrite PP; exact Hv).
    apply lies_not. intros Hl. apply (W2 v Hv2 x); [|exact Hx]. destruct Hf as [_ Hf]. unfold in_u. lia.
  Qed.

  Lemma lore_deallocate w us u l r w' : kown w (u :: us) -> fits l u ->
    al_deallocate A (u_ptr u) l w = ORet r w' -> lore w'.
  Proof.
    intros [Ho (new & H1 & H2 & H3)] Hf E. cbn in E. unfold base_deallocate in E.
    destruct (negb (req_okb bmax l)); [discriminate E|].
    destruct (remove_fit (u_ptr u) l (outstanding (bw_trace w))) as [us'|] eqn:Er; [|discriminate E].
    inversion E; subst r w'. clear E. exists (EvDealloc (u_ptr u) l :: new). cbn [bw_trace bw_mem].
    split; [cbn; congruence|]. cbn [known outstanding]. rewrite Er. split.
    - intros x c H. unfold lies in H. destruct ((u_ptr u <=? x) && (x <? u_ptr u + l_size l)) eqn:El.
      + inversion H; subst c. unfold fill. rewrite El. reflexivity.
      + unfold fill. rewrite El. apply H2. exact H.
    - intros v x Hv Hx. rewrite (left_apart w us u l us' Ho Hf Er v x Hv Hx). apply (H3 v x); [|exact Hx].
      destruct (remove_fit_some _ _ _ _ Er) as (v' & _ & _ & P). rewrite P. right. exact Hv.
  Qed.

  Lemma lore_resize w us u old new n r w' : kown w (u :: us) -> fits old u ->
    base_resize bmax S (u_ptr u) old new n w = ORet r w' -> lore w'.
  Proof.
    intros [Ho (nw & H1 & H2 & H3)] Hf E. unfold base_resize in E.
    destruct (negb (req_okb bmax old && req_okb bmax new)); [discriminate E|].
    destruct (remove_fit (u_ptr u) old (outstanding (bw_trace w))) as [us'|] eqn:Er; [|discriminate E].
    set (rr := st_resize S (bw_trace w) (u_ptr u) old new) in *.
    inversion E; subst r w'. clear E. exists (EvResize (u_ptr u) old new rr :: nw). cbn [bw_trace bw_mem].
    split; [cbn; congruence|]. clearbody rr. destruct rr as [b|]; cbn [known outstanding].
    - rewrite Er. split.
      + intros x c H. unfold lies in H. destruct ((b_ptr b <=? x) && (x <? b_ptr b + b_len b)) eqn:Eb; [discriminate H|].
        destruct ((u_ptr u <=? x) && (x <? u_ptr u + l_size old)) eqn:El.
        * inversion H; subst c. unfold fill. rewrite El. reflexivity.
        * unfold fill. rewrite El. apply H2. exact H.
      + intros v x [<-|Hv] Hx; [rewrite (lies_in _ _ Hx : lies (b_ptr b) (b_len b) x = true); reflexivity|].
        destruct (lies (b_ptr b) (b_len b) x); [reflexivity|].
        rewrite (left_apart w us u old us' Ho Hf Er v x Hv Hx). apply (H3 v x); [|exact Hx].
        destruct (remove_fit_some _ _ _ _ Er) as (v' & _ & _ & P). rewrite P. right. exact Hv.
    - split; [exact H2|exact H3].
  Qed.

  Let Hct := base_contract amax bmax S Hmax Hhon.

  Lemma kown_contract : contract amax bmax A kown.
  Proof.
    constructor.
    - intros w us us' [H1 H2] P. split; [apply (ct_perm _ _ _ _ Hct w us us' H1 P)|exact H2].
    - intros w us [H _]. apply (ct_wf _ _ _ _ Hct w us H).
    - reflexivity.
    - intros w us m H Hm. split; [apply (ct_write _ _ _ _ Hct w us m (proj1 H) Hm)|].
      apply (lore_write w us m H Hm).
    - intros w us l H Hl. pose proof (ct_allocate _ _ _ _ Hct w us l (proj1 H) Hl) as X.
      destruct (wp_inv _ _ _ X) as (r & w' & E & Y1 & Y2). apply (wp_intro _ _ _ _ _ E).
      pose proof (lore_allocate w us l r w' H E) as L. split; [exact Y1|].
      destruct r as [b|]; [destruct Y2 as [Y2 Y3]; split; [exact Y2|]|]; split; assumption.
    - intros w us u l H Hf. pose proof (ct_deallocate _ _ _ _ Hct w us u l (proj1 H) Hf) as X.
      destruct (wp_inv _ _ _ X) as (r & w' & E & Y1 & Y2). apply (wp_intro _ _ _ _ _ E).
      split; [exact Y1|]. split; [exact Y2|]. apply (lore_deallocate w us u l r w' H Hf E).
    - intros w us u old new H Hf Hn Hle. pose proof (ct_grow _ _ _ _ Hct w us u old new (proj1 H) Hf Hn Hle) as X.
      destruct (wp_inv _ _ _ X) as (r & w' & E & Y1 & Y2). apply (wp_intro _ _ _ _ _ E).
      cbn in E. unfold base_grow in E. replace (l_size old <=? l_size new) with true in E by lia.
      pose proof (lore_resize w us u old new _ r w' H Hf E) as L. split; [exact Y1|].
      destruct r as [b|]; [destruct Y2 as (Y2 & Y3 & Y4); split; [exact Y2|]; split; [split; assumption|exact Y4]|].
      destruct Y2 as [Y2 Y3]. split; [exact Y2|]. split; assumption.
    - intros w us u old new H Hf Hn Hle. pose proof (ct_shrink _ _ _ _ Hct w us u old new (proj1 H) Hf Hn Hle) as X.
      destruct (wp_inv _ _ _ X) as (r & w' & E & Y1 & Y2). apply (wp_intro _ _ _ _ _ E).
      cbn in E. unfold base_shrink in E. replace (l_size new <=? l_size old) with true in E by lia.
      pose proof (lore_resize w us u old new _ r w' H Hf E) as L. split; [exact Y1|].
      destruct r as [b|]; [destruct Y2 as (Y2 & Y3 & Y4); split; [exact Y2|]; split; [split; assumption|exact Y4]|].
      destruct Y2 as [Y2 Y3]. split; [exact Y2|]. split; assumption.
  Qed.
End Stray.
