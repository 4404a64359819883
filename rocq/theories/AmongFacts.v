(** Others at work do not break the contract of the allocator, and nobody breaks theirs. *)
From Coq Require Import Permutation.
From Verif Require Import Base BaseFacts Alloc AllocFacts History HistoryFacts Blink BlinkInv BlinkIter BlinkEnv BlinkProps Among.

Section Framed.
  Context {W : Type} (amax smax : Z) (A : Allocator W) (own : W -> list ublock -> Prop).
  Hypothesis Hct : contract amax smax A own.

  (** The contract for one part of the blocks, while the rest stays as it is. *)
  Definition fown (us : list ublock) (m0 : mem) (w : W) (hs : list ublock) : Prop :=
    own w (us ++ hs) /\ same_on us m0 (al_mem A w).

  Lemma own_mid w us hs u : own w (us ++ u :: hs) -> own w (u :: us ++ hs).
  Proof. intros H. apply (ct_perm _ _ _ _ Hct _ _ _ H). symmetry. apply Permutation_middle. Qed.
  Lemma own_mid' w us hs u : own w (u :: us ++ hs) -> own w (us ++ u :: hs).
  Proof. intros H. apply (ct_perm _ _ _ _ Hct _ _ _ H). apply Permutation_middle. Qed.

  Lemma fown_contract us m0 : contract amax smax A (fown us m0).
  Proof.
    constructor.
    - intros w hs hs' [Ho S] P. split; [|exact S]. apply (ct_perm _ _ _ _ Hct _ _ _ Ho). apply Permutation_app_head. exact P.
    - intros w hs [Ho S]. destruct (ct_wf _ _ _ _ Hct _ _ Ho) as [H1 H2]. apply Forall_app in H1. apply AllocFacts.pairwise_app in H2.
      split; [apply H1|apply H2].
    - apply (ct_mem _ _ _ _ Hct).
    - intros w hs m [Ho S] H. split.
      + apply (ct_write _ _ _ _ Hct); [exact Ho|]. intros x Hx. apply H. intros u Hu. apply Hx. apply in_or_app. right. exact Hu.
      + rewrite (ct_mem _ _ _ _ Hct). eapply same_on_trans; [exact S|]. intros u x Hu Hx. apply H. intros v Hv Hx'.
        destruct (ct_wf _ _ _ _ Hct _ _ Ho) as [_ D]. apply AllocFacts.pairwise_app in D. destruct D as (_ & _ & D). exact (D u v Hu Hv x Hx Hx').
    - intros w hs l [Ho S] Hl. eapply wp_mono; [apply (ct_allocate _ _ _ _ Hct w _ l Ho Hl)|].
      intros r w' [S1 R]. apply same_on_app in S1. destruct S1 as [S1 S2]. split; [exact S2|].
      assert (S' : same_on us m0 (al_mem A w')) by (eapply same_on_trans; eassumption).
      destruct r as [b|]; [|split; assumption]. destruct R as [G O]. split; [exact G|]. split; [|exact S']. apply own_mid'. exact O.
    - intros w hs u l [Ho S] Hf. eapply wp_mono; [apply (ct_deallocate _ _ _ _ Hct w _ u l (own_mid _ _ _ _ Ho) Hf)|].
      intros _ w' [S1 O]. apply same_on_app in S1. destruct S1 as [S1 S2]. split; [exact S2|]. split; [exact O|].
      eapply same_on_trans; eassumption.
    - intros w hs u old new [Ho S] Hf Hn Hle. eapply wp_mono; [apply (ct_grow _ _ _ _ Hct w _ u old new (own_mid _ _ _ _ Ho) Hf Hn Hle)|].
      intros r w' [S1 R]. apply same_on_app in S1. destruct S1 as [S1 S2]. split; [exact S2|].
      assert (S' : same_on us m0 (al_mem A w')) by (eapply same_on_trans; eassumption).
      destruct r as [b|].
      + destruct R as (G & O & C). split; [exact G|]. split; [split; [apply own_mid'; exact O|exact S']|exact C].
      + destruct R as [Su O]. split; [exact Su|]. split; [apply own_mid'; exact O|exact S'].
    - intros w hs u old new [Ho S] Hf Hn Hle. eapply wp_mono; [apply (ct_shrink _ _ _ _ Hct w _ u old new (own_mid _ _ _ _ Ho) Hf Hn Hle)|].
      intros r w' [S1 R]. apply same_on_app in S1. destruct S1 as [S1 S2]. split; [exact S2|].
      assert (S' : same_on us m0 (al_mem A w')) by (eapply same_on_trans; eassumption).
      destruct r as [b|].
      + destruct R as (G & O & C). split; [exact G|]. split; [split; [apply own_mid'; exact O|exact S']|exact C].
      + destruct R as [Su O]. split; [exact Su|]. split; [apply own_mid'; exact O|exact S'].
  Qed.

  Lemma run_quiet us m0 ops : forallb not_reset ops = true -> forall st s, hinv A (fown us m0) st s ->
    wp (run smax A (fun _ => ret tt) ops) st (fun rs st' =>
      length rs = length ops /\ hinv A (fown us m0) st' (srun ops (map (option_map b_len) rs) s)).
  Proof.
    induction ops as [|o ops IH]; intros Hq st s H; cbn [run srun].
    - apply wp_ret. split; [reflexivity|exact H].
    - cbn [forallb] in Hq. apply andb_true_iff in Hq. destruct Hq as [Hq1 Hq2].
      apply wp_bind. eapply wp_mono.
      + apply (step_any amax smax A (fown us m0) (fun _ => ret tt) (fown_contract us m0) o st s); [|exact H].
        intros k Ek. subst o. discriminate Hq1.
      + intros r st1 H1. apply wp_bind. eapply wp_mono; [apply (IH Hq2 st1 _ H1)|]. intros rs st2 [L H2].
        apply wp_ret. cbn [length map srun]. split; [lia|exact H2].
  Qed.

  Lemma srun_app ops : forall ops' rs rs' s, length ops = length rs -> srun (ops ++ ops') (rs ++ rs') s = srun ops' rs' (srun ops rs s).
  Proof. induction ops as [|o ops IH]; intros ops' [|r rs] rs' s L; try discriminate; [reflexivity|]. cbn. apply IH. cbn in L. lia. Qed.

  Notation nmem n := (al_mem A (c_w (n_cst n))).

  (** The others' turn leaves our blocks alone. *)
  Lemma noise_ok n us : nown A own n us ->
    wp (noise smax A) n (fun _ n' => nown A own n' us /\ same_on us (nmem n) (nmem n')).
  Proof.
    intros (Ho & Hf & Hl). unfold wp, noise. destruct (n_todo n) as [|ops rest].
    { split; [split; [exact Ho|split; assumption]|apply same_on_refl]. }
    pose proof (run_quiet us (nmem n) (filter not_reset ops)) as R. unfold wp in R.
    specialize (R (proj2 (forallb_forall _ _) (fun x Hx => proj2 (proj1 (filter_In _ _ _) Hx))) (n_cst n) (n_bufs n)).
    specialize (R (conj (conj Ho (same_on_refl _ _)) Hf)).
    destruct (run smax A (fun _ => ret tt) (filter not_reset ops) (n_cst n)) as [rs c| | |]; try contradiction.
    destruct R as (L & [O S] & Ag). split; [|exact S]. split; [exact O|]. split.
    - unfold others_fine, n_bufs. cbn [n_cst n_ops n_res]. rewrite srun_app by exact Hl. exact Ag.
    - cbn [n_ops n_res]. rewrite !app_length, map_length. lia.
  Qed.

  (** A call between two turns of the others. *)
  Lemma amid_ok {B} (m : M W B) n us (us' : B -> list ublock) (Q : B -> mem -> mem -> Prop) :
    nown A own n us ->
    (forall w m0 hs, own w (us ++ hs) -> same_on us m0 (al_mem A w) ->
       wp m w (fun b w' => own w' (us' b ++ hs) /\ same_on hs (al_mem A w) (al_mem A w') /\
         forall m1, same_on (us' b) (al_mem A w') m1 -> Q b m0 m1)) ->
    wp (amid smax A m) n (fun b n' => nown A own n' (us' b) /\ Q b (nmem n) (nmem n')).
  Proof.
    intros Hn Hm. unfold amid. apply wp_bind. eapply wp_mono; [apply (noise_ok n us Hn)|].
    intros _ n1 [(Ho & Hf & Hl) S]. apply wp_bind. unfold wp at 1, inner.
    pose proof (Hm (c_w (n_cst n1)) (nmem n) (n_blocks n1) Ho S) as H. unfold wp in H.
    destruct (m (c_w (n_cst n1))) as [b w2| | |]; try contradiction. destruct H as (O2 & S2 & HQ).
    apply wp_bind. eapply wp_mono; [apply (noise_ok _ (us' b))|].
    - split; [exact O2|]. split; [|exact Hl].
      unfold others_fine, n_bufs in *. cbn [n_cst n_ops n_res c_tab c_w].
      apply (agrees_same (nmem n1) _ _ _ (n_blocks n1)); [apply incl_refl|exact S2|exact Hf].
    - intros _ n3 [N3 S3]. apply wp_ret. split; [exact N3|]. apply HQ. exact S3.
  Qed.

  Lemma noisy_contract : contract amax smax (noisy smax A) (nown A own).
  Proof.
    constructor; cbn [noisy al_mem al_set_mem al_allocate al_deallocate al_grow al_shrink].
    - intros n us us' (Ho & H) P. split; [|exact H]. apply (ct_perm _ _ _ _ Hct _ _ _ Ho). apply Permutation_app_tail. exact P.
    - intros n us (Ho & _). destruct (ct_wf _ _ _ _ Hct _ _ Ho) as [H1 H2]. apply Forall_app in H1. apply AllocFacts.pairwise_app in H2.
      split; [apply H1|apply H2].
    - intros n m. cbn. apply (ct_mem _ _ _ _ Hct).
    - intros n us m (Ho & Hf & Hl) H. split; [|split; [|exact Hl]].
      + unfold n_blocks. cbn [n_cst c_tab c_w]. apply (ct_write _ _ _ _ Hct); [exact Ho|]. intros x Hx. apply H. intros u Hu.
        apply Hx. apply in_or_app. left. exact Hu.
      + unfold others_fine, n_bufs in *. cbn [n_cst n_ops n_res c_tab c_w].
        apply (agrees_same (nmem n) _ _ _ (n_blocks n)); [apply incl_refl| |exact Hf].
        rewrite (ct_mem _ _ _ _ Hct). intros v x Hv Hx. apply H. intros u Hu Hx'.
        destruct (ct_wf _ _ _ _ Hct _ _ Ho) as [_ D]. apply AllocFacts.pairwise_app in D. destruct D as (_ & _ & D). exact (D u v Hu Hv x Hx' Hx).
    - intros n us l Hn Hl.
      eapply wp_mono; [apply (amid_ok (al_allocate A l) n us
        (fun r => match r with None => us | Some b => mkU (b_ptr b) (b_len b) l :: us end)
        (fun r m0 m1 => same_on us m0 m1 /\ match r with None => True | Some b => good_block amax l b end) Hn)|].
      + intros w m0 hs Ho S. eapply wp_mono; [apply (ct_allocate _ _ _ _ Hct w _ l Ho Hl)|].
        intros r w' [S1 R]. apply same_on_app in S1. destruct S1 as [S1 S2]. destruct r as [b|].
        * destruct R as [G O]. split; [exact O|]. split; [exact S2|]. intros m1 S3. apply same_on_cons in S3. split; [|exact G].
          eapply same_on_trans; [exact S|]. eapply same_on_trans; [exact S1|apply S3].
        * split; [exact R|]. split; [exact S2|]. intros m1 S3. split; [|exact I].
          eapply same_on_trans; [exact S|]. eapply same_on_trans; [exact S1|exact S3].
      + intros r n' [N [S G]]. split; [exact S|]. destruct r as [b|]; [split; assumption|exact N].
    - intros n us u l Hn Hf.
      eapply wp_mono; [apply (amid_ok (al_deallocate A (u_ptr u) l) n (u :: us) (fun _ => us) (fun _ m0 m1 => same_on us m0 m1) Hn)|].
      + intros w m0 hs Ho S. apply same_on_cons in S. destruct S as [_ S].
        eapply wp_mono; [apply (ct_deallocate _ _ _ _ Hct w _ u l Ho Hf)|].
        intros _ w' [S1 O]. apply same_on_app in S1. destruct S1 as [S1 S2]. split; [exact O|]. split; [exact S2|].
        intros m1 S3. eapply same_on_trans; [exact S|]. eapply same_on_trans; [exact S1|exact S3].
      + intros _ n' [N S]. split; assumption.
    - intros n us u old new Hn Hf Hr Hle.
      eapply wp_mono; [apply (amid_ok (al_grow A (u_ptr u) old new) n (u :: us)
        (fun r => match r with None => u :: us | Some b => mkU (b_ptr b) (b_len b) new :: us end)
        (fun r m0 m1 => same_on us m0 m1 /\ match r with None => same_on [u] m0 m1 | Some b => good_block amax new b /\
           forall i, 0 <= i < l_size old -> m1 (b_ptr b + i) = m0 (u_ptr u + i) end) Hn)|].
      + intros w m0 hs Ho S. apply same_on_cons in S. destruct S as [Su S].
        destruct Hf as [Hf1 Hf2]. pose proof (ct_wf _ _ _ _ Hct _ _ Ho) as [Wo _]. cbn [app] in Wo. inversion Wo as [|? ? (_ & _ & U3) _]; subst.
        eapply wp_mono; [apply (ct_grow _ _ _ _ Hct w _ u old new Ho (conj Hf1 Hf2) Hr Hle)|].
        intros r w' [S1 R]. apply same_on_app in S1. destruct S1 as [S1 S2]. destruct r as [b|].
        * destruct R as (G & O & C). split; [exact O|]. split; [exact S2|]. intros m1 S3. apply same_on_cons in S3. destruct S3 as [S3 S4].
          split; [eapply same_on_trans; [exact S|]; eapply same_on_trans; [exact S1|exact S4]|]. split; [exact G|].
          intros i Hi. destruct G as (G1 & G2 & G3 & G4).
          rewrite (S3 _ (b_ptr b + i) (or_introl eq_refl)) by (unfold in_u; cbn [u_ptr u_len]; lia).
          rewrite C by exact Hi. apply (Su u); [left; reflexivity|]. unfold in_u. lia.
        * destruct R as [Sn O]. split; [exact O|]. split; [exact S2|]. intros m1 S3. apply same_on_cons in S3. destruct S3 as [S3 S4].
          split; [eapply same_on_trans; [exact S|]; eapply same_on_trans; [exact S1|exact S4]|].
          eapply same_on_trans; [exact Su|]. eapply same_on_trans; [exact Sn|exact S3].
      + intros r n' [N [S G]]. split; [exact S|]. destruct r as [b|]; [destruct G as [G C]; split; [exact G|]; split; [exact N|exact C]|split; assumption].
    - intros n us u old new Hn Hf Hr Hle.
      eapply wp_mono; [apply (amid_ok (al_shrink A (u_ptr u) old new) n (u :: us)
        (fun r => match r with None => u :: us | Some b => mkU (b_ptr b) (b_len b) new :: us end)
        (fun r m0 m1 => same_on us m0 m1 /\ match r with None => same_on [u] m0 m1 | Some b => good_block amax new b /\
           forall i, 0 <= i < l_size new -> m1 (b_ptr b + i) = m0 (u_ptr u + i) end) Hn)|].
      + intros w m0 hs Ho S. apply same_on_cons in S. destruct S as [Su S].
        destruct Hf as [Hf1 Hf2]. pose proof (ct_wf _ _ _ _ Hct _ _ Ho) as [Wo _]. cbn [app] in Wo. inversion Wo as [|? ? (_ & _ & U3) _]; subst.
        eapply wp_mono; [apply (ct_shrink _ _ _ _ Hct w _ u old new Ho (conj Hf1 Hf2) Hr Hle)|].
        intros r w' [S1 R]. apply same_on_app in S1. destruct S1 as [S1 S2]. destruct r as [b|].
        * destruct R as (G & O & C). split; [exact O|]. split; [exact S2|]. intros m1 S3. apply same_on_cons in S3. destruct S3 as [S3 S4].
          split; [eapply same_on_trans; [exact S|]; eapply same_on_trans; [exact S1|exact S4]|]. split; [exact G|].
          intros i Hi. destruct G as (G1 & G2 & G3 & G4).
          rewrite (S3 _ (b_ptr b + i) (or_introl eq_refl)) by (unfold in_u; cbn [u_ptr u_len]; lia).
          rewrite C by exact Hi. apply (Su u); [left; reflexivity|]. unfold in_u. lia.
        * destruct R as [Sn O]. split; [exact O|]. split; [exact S2|]. intros m1 S3. apply same_on_cons in S3. destruct S3 as [S3 S4].
          split; [eapply same_on_trans; [exact S|]; eapply same_on_trans; [exact S1|exact S4]|].
          eapply same_on_trans; [exact Su|]. eapply same_on_trans; [exact Sn|exact S3].
      + intros r n' [N [S G]]. split; [exact S|]. destruct r as [b|]; [destruct G as [G C]; split; [exact G|]; split; [exact N|exact C]|split; assumption].
  Qed.

  (** What a call yields is not changed by the others. *)
  Lemma amid_result {B} (m : M W B) n us (P : B -> Prop) : nown A own n us ->
    (forall w hs, own w (us ++ hs) -> wp m w (fun b w' => P b /\ exists us', own w' (us' ++ hs) /\ same_on hs (al_mem A w) (al_mem A w'))) ->
    wp (amid smax A m) n (fun b _ => P b).
  Proof.
    intros Hn Hm. unfold amid. apply wp_bind. eapply wp_mono; [apply (noise_ok n us Hn)|].
    intros _ n1 [(Ho & Hf & Hl) S]. apply wp_bind. unfold wp at 1, inner.
    pose proof (Hm (c_w (n_cst n1)) (n_blocks n1) Ho) as H. unfold wp in H.
    destruct (m (c_w (n_cst n1))) as [b w2| | |]; try contradiction. destruct H as (HP & us' & O2 & S2).
    apply wp_bind. eapply wp_mono; [apply (noise_ok _ us')|].
    - split; [exact O2|]. split; [|exact Hl].
      unfold others_fine, n_bufs in *. cbn [n_cst n_ops n_res c_tab c_w].
      apply (agrees_same (nmem n1) _ _ _ (n_blocks n1)); [apply incl_refl|exact S2|exact Hf].
    - intros _ n3 _. apply wp_ret. exact HP.
  Qed.

  Lemma noisy_exact : exact_alloc smax A own -> exact_alloc smax (noisy smax A) (nown A own).
  Proof.
    intros (X1 & X2 & X3). split; [|split].
    - intros n us l Hn Hl. apply (amid_result _ n us _ Hn). intros w hs Ho.
      eapply wp_mono; [apply (wp_and _ _ _ _ (X1 w _ l Ho Hl) (ct_allocate _ _ _ _ Hct w _ l Ho Hl))|].
      intros r w' [H1 [S R]]. apply same_on_app in S. destruct S as [_ S]. split; [exact H1|]. destruct r as [b|].
      + destruct R as [_ O]. exists (mkU (b_ptr b) (b_len b) l :: us). split; assumption.
      + exists us. split; assumption.
    - intros n us u old new Hn Hf Hl Hle. apply (amid_result _ n (u :: us) _ Hn). intros w hs Ho.
      eapply wp_mono; [apply (wp_and _ _ _ _ (X2 w _ u old new Ho Hf Hl Hle) (ct_grow _ _ _ _ Hct w _ u old new Ho Hf Hl Hle))|].
      intros r w' [H1 [S R]]. apply same_on_app in S. destruct S as [_ S]. split; [exact H1|]. destruct r as [b|].
      + destruct R as (_ & O & _). exists (mkU (b_ptr b) (b_len b) new :: us). split; assumption.
      + destruct R as [_ O]. exists (u :: us). split; assumption.
    - intros p old new. cbn [noisy al_grow al_shrink]. rewrite X3. reflexivity.
  Qed.
End Framed.

Section Env.
  Variable E : env.
  Hypothesis HE : env_ok E.
  Hypothesis Hsh : e_shared E = true.

  Lemma among_ok : env_ok (among E).
  Proof.
    destruct HE as (Hct & Hsm & Hex & Hr). split; [|split; [exact Hsm|split]].
    - cbn [among e_amax e_smax e_A e_own e_W]. apply noisy_contract. exact Hct.
    - cbn [among e_amax e_smax e_A e_own e_W e_exact]. intros H. apply (noisy_exact (e_amax E)); auto.
    - cbn [among e_amax e_smax e_A e_own e_W e_exact e_reset e_shared]. intros n us fr Hn _.
      unfold amid. apply wp_bind. eapply wp_mono; [apply (noise_ok (e_amax E) (e_smax E) (e_A E) (e_own E) Hct n _ Hn)|].
      intros _ n1 [(Ho & Hf & Hl) S]. apply wp_bind. unfold wp at 1, inner.
      rewrite <- app_assoc in Ho.
      pose proof (Hr (c_w (n_cst n1)) us (fr ++ n_blocks n1) Ho (or_introl Hsh)) as H. unfold wp in H.
      destruct (e_reset E (c_w (n_cst n1))) as [b w2| | |]; try contradiction. destruct H as (us' & O2 & S2).
      apply same_on_app in S2. destruct S2 as [S2 S3].
      apply wp_bind. eapply wp_mono; [apply (noise_ok (e_amax E) (e_smax E) (e_A E) (e_own E) Hct _ (us' ++ fr))|].
      + split; [unfold n_blocks in *; cbn [n_cst c_tab c_w]; rewrite <- app_assoc; exact O2|]. split; [|exact Hl].
        unfold others_fine, n_bufs in *. cbn [n_cst n_ops n_res c_tab c_w].
        apply (agrees_same (al_mem (e_A E) (c_w (n_cst n1))) _ _ _ (n_blocks n1)); [apply incl_refl|exact S3|exact Hf].
      + intros _ n3 [N3 S4]. apply wp_ret. exists us'. split; [exact N3|].
        apply same_on_app in S. apply same_on_app in S4. cbn [noisy al_mem].
        eapply same_on_trans; [apply S|]. eapply same_on_trans; [exact S2|apply S4].
  Qed.

  Lemma joined_ready fr w todo : ready E fr w -> ready (among E) fr (joined w todo).
  Proof.
    intros (us & Ho & Hf). exists us. split; [|left; exact Hsh]. split; [|split; [constructor|reflexivity]].
    unfold n_blocks. cbn. rewrite app_nil_r. exact Ho.
  Qed.

  (** The state of the others, whatever the [Blink] does. *)
  Lemma others_fare fr w os s : arrives (among E) fr w os s -> others_fine (e_A E) (bl_w s).
  Proof. intros Ha. destruct (arrived (among E) among_ok _ _ _ _ Ha) as [(junk & (_ & H & _) & _) _]. exact H. Qed.

  (** No reference reaches into a block of the others. *)
  Lemma refs_apart_others fr w os s i h x u : arrives (among E) fr w os s -> get i (bl_tab s) = Some h ->
    covers h x -> In u (n_blocks (bl_w s)) -> ~ in_u x u.
  Proof.
    intros Ha Gi Hc Hu Hx. destruct (arrived (among E) among_ok _ _ _ _ Ha) as [(junk & (Ho & _) & _ & Hf & _) _].
    destruct (agree_get _ _ _ _ _ Hf Gi) as ([[r1 d1] v1] & _ & (_ & _ & _ & P1 & _)).
    destruct (covers_block _ _ P1 Hc) as (v & Bv & Iv).
    destruct (ct_wf _ _ _ _ (proj1 HE) _ _ Ho) as [_ D]. apply AllocFacts.pairwise_app in D. destruct D as (_ & _ & D).
    apply (D v u) with (x := x); [|exact Hu|exact Iv|exact Hx]. apply in_or_app. left.
    apply in_flat_map. exists h. split; [apply live_in; eauto|rewrite Bv; left; reflexivity].
  Qed.
  Lemma refs_apart_other fr w os s i h j u x : arrives (among E) fr w os s -> get i (bl_tab s) = Some h ->
    get j (c_tab (n_cst (bl_w s))) = Some u -> covers h x -> ~ in_u x u.
  Proof. intros Ha Gi Gj Hc. eapply refs_apart_others; [exact Ha|exact Gi|exact Hc|]. apply live_in. exists j. exact Gj. Qed.
End Env.
