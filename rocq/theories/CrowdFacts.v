(** The [Blink]s of a crowd do not disturb each other. *)
From Coq Require Import Permutation.
From Verif Require Import Base BaseFacts Alloc AllocFacts History HistoryFacts Blink BlinkInv BlinkReset BlinkIter BlinkMain
  BlinkEnv BlinkLog BlinkProps BlinkFate Crowd.

Section Facts.
  Variable E : env.
  Hypothesis HE : env_ok E.
  Hypothesis Hsh : e_shared E = true.
  Notation einv := (binv (e_A E) (e_own E) (e_bomb E)).
  Notation ekeeps := (keeps (e_A E)).
  Notation emem w := (al_mem (e_A E) w).

  Definition log_whole (l : list bev) : Prop :=
    Forall (fun e => match e with ENew true _ vs => Forall (fun v => v <> None) vs | _ => True end) l.

  (** A member and its blocks. *)
  Definition member (m : mem) (x : bool * bl unit) (us : list ublock) : Prop :=
    (exists junk, us = blocks (bl_tab (snd x)) ++ junk) /\
    chain m (bl_root (snd x)) (rev (BlinkInv.items (bl_tab (snd x)))) /\
    Forall2 (agree m) (bl_tab (snd x)) (state_of (e_bomb E) (snd x)) /\
    snd (especs (e_bomb E) [] (bl_log (snd x))) = drops_of (bl_log (snd x)) /\
    log_whole (bl_log (snd x)) /\
    (fst x = false -> live (bl_tab (snd x)) = []).

  Definition crinv (fr : list ublock) (c : crowd (e_W E)) : Prop :=
    exists L, Forall2 (member (emem (cr_w c))) (cr_all c) L /\ e_own E (cr_w c) (concat L ++ fr).

  Lemma member_same m m' x us : member m x us -> same_on us m m' -> member m' x us.
  Proof.
    intros ((junk & ->) & H1 & H2 & H3) S.
    assert (S' : same_on (blocks (bl_tab (snd x))) m m').
    { eapply same_on_incl; [|exact S]. intros u Hu. apply in_or_app. left. exact Hu. }
    split; [exists junk; reflexivity|]. split; [eapply chain_same; eassumption|]. split; [eapply agrees_ext; eassumption|exact H3].
  Qed.
  Lemma members_same m m' xs L : Forall2 (member m) xs L -> same_on (concat L) m m' -> Forall2 (member m') xs L.
  Proof.
    intros H. induction H as [|x us xs L Hx H IH]; intros S; constructor.
    - cbn [concat] in S. apply same_on_app in S. eapply member_same; [exact Hx|apply S].
    - cbn [concat] in S. apply same_on_app in S. apply IH, S.
  Qed.

  (** The crowd from the point of view of one member. *)
  Lemma crowd_split fr c k f b : crinv fr c -> nth_error (cr_all c) k = Some (f, b) ->
    exists fr', einv fr' (seat (cr_w c) b) /\ log_whole (bl_log b) /\ (f = false -> live (bl_tab b) = []) /\ incl fr fr' /\
      (forall l g b', l <> k -> nth_error (cr_all c) l = Some (g, b') -> incl (blocks (bl_tab b')) fr') /\
      (forall f' s', einv fr' s' -> same_on fr' (emem (cr_w c)) (emem (bl_w s')) -> log_whole (bl_log s') ->
         (f' = false -> live (bl_tab s') = []) -> crinv fr (mkCrowd (bl_w s') (set_nth k (f', unseat s') (cr_all c)))).
  Proof.
    clear Hsh. intros (L & HL & Ho) Hk. destruct (nth_error_split _ _ Hk) as (b1 & b2 & Eb & <-). rewrite Eb in HL.
    apply Forall2_app_inv_l in HL. destruct HL as (L1 & L2' & H1 & H2 & ->).
    inversion H2 as [|? us ? L2 Hm H2']; subst. destruct Hm as ((junk & Ej) & M1 & M2 & M3 & M4 & M5). cbn [snd fst] in *.
    set (fr' := concat L1 ++ concat L2 ++ fr).
    assert (P : Permutation (concat (L1 ++ us :: L2) ++ fr) (us ++ fr')).
    { rewrite concat_app. cbn [concat]. unfold fr'. rewrite <- !app_assoc. apply Permutation_app_swap_app. }
    exists fr'. split; [|split; [exact M4|split; [exact M5|split; [|split]]]].
    - exists junk. cbn [seat bl_w bl_tab bl_root bl_log]. split.
      + rewrite app_assoc, <- Ej. apply (ct_perm _ _ _ _ (proj1 HE) _ _ _ Ho P).
      + split; [exact M1|]. split; [exact M2|exact M3].
    - intros u Hu. unfold fr'. apply in_or_app. right. apply in_or_app. right. exact Hu.
    - intros l g b' Hne Hl u Hu. rewrite Eb in Hl. unfold fr'.
      assert (X : forall xs Ls, Forall2 (member (emem (cr_w c))) xs Ls -> In (g, b') xs -> In u (concat Ls)).
      { intros xs Ls HF. induction HF as [|x vs xs Ls Hx HF IH]; intros Hin; [destruct Hin|]. cbn [concat]. apply in_or_app.
        destruct Hin as [->|Hin]; [left|right; apply IH; exact Hin]. destruct Hx as ((jk & ->) & _). apply in_or_app. left. exact Hu. }
      destruct (Nat.lt_trichotomy l (length b1)) as [Hlt|[He|Hgt]]; [|congruence|].
      + rewrite nth_error_app1 in Hl by exact Hlt. apply in_or_app. left. apply (X _ _ H1). eapply nth_error_In; exact Hl.
      + rewrite nth_error_app2 in Hl by lia. destruct (l - length b1)%nat as [|j] eqn:Ed; [lia|]. cbn [nth_error] in Hl.
        apply in_or_app. right. apply in_or_app. left. apply (X _ _ H2'). eapply nth_error_In; exact Hl.
    - intros f' s' (junk' & Ho' & C1 & C2 & C3) S W F. rewrite Eb, set_nth_split.
      exists (L1 ++ (blocks (bl_tab s') ++ junk') :: L2). cbn [cr_w cr_all]. split.
      + unfold fr' in S. apply same_on_app in S. destruct S as [S1 S]. apply same_on_app in S. destruct S as [S2 _].
        apply Forall2_app; [eapply members_same; eassumption|]. constructor; [|eapply members_same; eassumption].
        split; [exists junk'; reflexivity|]. cbn [snd fst unseat bl_tab bl_root bl_log].
        split; [exact C1|]. split; [exact C2|]. split; [exact C3|]. split; [exact W|exact F].
      + rewrite app_assoc in Ho'. apply (ct_perm _ _ _ _ (proj1 HE) _ _ _ Ho').
        rewrite concat_app. cbn [concat]. unfold fr'. rewrite <- !app_assoc.
        rewrite !(app_assoc (blocks (bl_tab s')) junk'). apply Permutation_app_swap_app.
  Qed.

  Lemma run_whole os s s' : log_whole (bl_log s) -> erun E os s = ORet tt s' -> log_whole (bl_log s').
  Proof.
    intros W Hr. pose proof (adds_main 0 true true true (e_A E) (e_reset E) (e_dbg E) (e_bomb E) os eq_refl (all_fine 0 os) s) as H.
    unfold erun in Hr. rewrite Hr in H. destruct H as (_ & d & L & F). rewrite L. apply Forall_app. split; [exact W|].
    eapply Forall_impl; [|exact F]. intros e. destruct e as [[|]| | | | | | | |]; cbn; tauto.
  Qed.

  Lemma drop_all_empties fr s s' : einv fr s -> erun E [BDropAll] s = ORet tt s' -> live (bl_tab s') = [].
  Proof.
    intros B Hr. unfold erun in Hr. cbn [bmain bstep] in Hr. unfold bind, caught, ret in Hr.
    pose proof (drop_list_reset_fate (e_A E) (e_own E) (e_bomb E) fr s B) as D. cbv zeta in D. unfold fate in D.
    unfold blink_drop_all in Hr. destruct (drop_list_reset (e_A E) (e_bomb E) s) as [[] s1|s1| |]; try discriminate Hr.
    - injection Hr as <-. destruct D as [-> _]. unfold after_reset. cbn [bl_tab]. apply live_none.
    - injection Hr as <-. destruct D as [-> _]. unfold after_reset. cbn [bl_tab]. apply live_none.
  Qed.

  Lemma crowd_op_ok fr c k stays o : crinv fr c -> sound (e_exact E) o = true -> (stays = false -> o = BDropAll) ->
    safe (crowd_op E k stays o) c (fun _ c' => crinv fr c' /\ same_on fr (emem (cr_w c)) (emem (cr_w c'))) (fun _ => False).
  Proof.
    intros Hc Hs Hd. unfold safe, crowd_op. destruct (nth_error (cr_all c) k) as [[[|] b]|] eqn:Ek; try (split; [exact Hc|apply same_on_refl]).
    destruct (crowd_split _ _ _ _ _ Hc Ek) as (fr' & B & W & _ & If & _ & Back).
    pose proof (erun_safe E HE fr' [o] (seat (cr_w c) b)) as S. cbn [forallb] in S. rewrite Hs in S.
    specialize (S eq_refl B (or_introl Hsh)). unfold safe in S.
    destruct (erun E [o] (seat (cr_w c) b)) as [[] s'|s'| |] eqn:Er; try exact S; try exact I.
    destruct S as [B' [K _]]. cbn [seat bl_w] in K. unfold bmem in K. cbn [cr_w bl_w seat] in K |- *. split.
    - apply Back; [exact B'|exact K|eapply run_whole; [|exact Er]; exact W|]. intros Hf. specialize (Hd Hf). subst o.
      eapply drop_all_empties; [exact B|exact Er].
    - eapply same_on_incl; [exact If|exact K].
  Qed.

  Lemma crowd_run_ok fr xs : forall c, crinv fr c -> forallb (crowd_sound E) xs = true ->
    safe (crowd_run E xs) c (fun _ c' => crinv fr c' /\ same_on fr (emem (cr_w c)) (emem (cr_w c'))) (fun _ => False).
  Proof.
    induction xs as [|a xs IH]; intros c Hc Hs; cbn [crowd_run].
    - apply safe_ret. split; [exact Hc|apply same_on_refl].
    - cbn [forallb] in Hs. apply andb_true_iff in Hs. destruct Hs as [H1 H2]. apply safe_bind.
      assert (X : safe (crowd_step E a) c (fun _ c' => crinv fr c' /\ same_on fr (emem (cr_w c)) (emem (cr_w c'))) (fun _ => False)).
      { destruct a as [|k o|k]; cbn [crowd_step].
        - cbn. split; [|apply same_on_refl]. destruct Hc as (L & HL & Ho). exists (L ++ [[]]). cbn [cr_w cr_all]. split.
          + apply Forall2_app; [exact HL|]. constructor; [|constructor]. split; [exists []; reflexivity|].
            cbn. split; [reflexivity|]. split; [constructor|]. split; [reflexivity|]. split; [constructor|reflexivity].
          + rewrite concat_app. cbn [concat]. rewrite !app_nil_r. exact Ho.
        - apply crowd_op_ok; [exact Hc|exact H1|discriminate].
        - apply crowd_op_ok; [exact Hc|reflexivity|reflexivity]. }
      eapply safe_mono; [exact X| |intros ? []]. intros [] c1 [C1 S1].
      eapply safe_mono; [apply (IH c1 C1 H2)| |intros ? []]. intros [] c2 [C2 S2]. split; [exact C2|].
      eapply same_on_trans; eassumption.
  Qed.

  Lemma crowd_start fr w : ready E fr w -> exists us, e_own E w (us ++ fr).
  Proof. intros (us & Ho & _). eauto. Qed.
End Facts.

Section Crowds.
  Variable E : env.
  Hypothesis HE : env_ok E.

  (** Blocks that nobody in the crowd owns are counted among those of the others. *)
  Lemma gathered fr w xs c : gathers E fr w xs c ->
    exists fr', incl fr fr' /\ crinv E fr' c /\ same_on fr (al_mem (e_A E) w) (al_mem (e_A E) (cr_w c)).
  Proof.
    intros ((us & Ho & _) & Hsh & Hs & Hr).
    pose proof (crowd_run_ok E HE Hsh (us ++ fr) xs (mkCrowd w [])) as R. unfold safe in R.
    assert (C0 : crinv E (us ++ fr) (mkCrowd w [])) by (exists []; split; [constructor|exact Ho]).
    specialize (R C0 Hs). rewrite Hr in R. destruct R as [C S]. exists (us ++ fr).
    assert (Hi : incl fr (us ++ fr)) by (intros u Hu; apply in_or_app; right; exact Hu).
    split; [exact Hi|]. split; [exact C|]. eapply same_on_incl; [exact Hi|exact S].
  Qed.

  Lemma crowd_no_ub fr w xs : ready E fr w -> e_shared E = true -> forallb (crowd_sound E) xs = true ->
    match crowd_run E xs (mkCrowd w []) with ORet _ _ => True | OPanic _ => False | OAbort => True | OUB => False end.
  Proof.
    intros (us & Ho & _) Hsh Hs. pose proof (crowd_run_ok E HE Hsh (us ++ fr) xs (mkCrowd w [])) as R. unfold safe in R.
    assert (C0 : crinv E (us ++ fr) (mkCrowd w [])) by (exists []; split; [constructor|exact Ho]).
    specialize (R C0 Hs). destruct (crowd_run E xs (mkCrowd w [])); auto.
  Qed.

  Lemma crowd_others fr w xs c : gathers E fr w xs c -> same_on fr (al_mem (e_A E) w) (al_mem (e_A E) (cr_w c)).
  Proof. intros H. destruct (gathered _ _ _ _ H) as (fr' & _ & _ & S). exact S. Qed.

  Lemma seen_at c k s : seen E c k = Some s -> exists f b, nth_error (cr_all c) k = Some (f, b) /\ s = seat (cr_w c) b.
  Proof. unfold seen. destruct (nth_error (cr_all c) k) as [[f b]|]; [|discriminate]. intros H. inversion H. eauto. Qed.

  Lemma crowd_hold fr w xs c k s i h : gathers E fr w xs c -> seen E c k = Some s -> get i (bl_tab s) = Some h ->
    exists vs, get i (fst (especs (e_bomb E) [] (bl_log s))) = Some (registered h, h_id h, vs) /\
      Z.of_nat (length vs) = h_cnt h /\ forall j v, nth_error vs j = Some (Some v) -> nth_error (contents (mem_of s) h) j = Some (Some v).
  Proof.
    intros H Hk Gi. destruct (gathered _ _ _ _ H) as (fr' & _ & C & _). destruct (seen_at _ _ _ Hk) as (f & b & Ek & ->).
    destruct (crowd_split E HE _ _ _ _ _ C Ek) as (fr2 & (junk & _ & _ & Hf & _) & _).
    destruct (agree_get _ _ _ _ _ Hf Gi) as ([[r1 d1] v1] & G & (-> & -> & H1 & _)).
    exists v1. split; [exact G|]. split; [apply H1|]. intros j v. apply contents_some. exact H1.
  Qed.

  Lemma crowd_apart fr w xs c k l s t i j hi hj x : gathers E fr w xs c -> seen E c k = Some s -> seen E c l = Some t -> k <> l ->
    get i (bl_tab s) = Some hi -> get j (bl_tab t) = Some hj -> covers hi x -> covers hj x -> False.
  Proof.
    intros H Hk Hl Hne Gi Gj Ci Cj. destruct (gathered _ _ _ _ H) as (fr' & _ & C & _).
    destruct (seen_at _ _ _ Hk) as (f & b & Ek & ->). destruct (seen_at _ _ _ Hl) as (g & b' & El & ->).
    destruct (crowd_split E HE _ _ _ _ _ C Ek) as (fr2 & (junk & Ho & _ & Hf & _) & _ & _ & _ & Hin & _).
    destruct (crowd_split E HE _ _ _ _ _ C El) as (fr3 & (junk3 & _ & _ & Hf3 & _) & _).
    destruct (agree_get _ _ _ _ _ Hf Gi) as ([[r1 d1] v1] & _ & (_ & _ & _ & P1 & _)).
    destruct (agree_get _ _ _ _ _ Hf3 Gj) as ([[r2 d2] v2] & _ & (_ & _ & _ & P2 & _)).
    destruct (covers_block _ _ P1 Ci) as (u1 & B1 & I1). destruct (covers_block _ _ P2 Cj) as (u2 & B2 & I2).
    destruct (ct_wf _ _ _ _ (proj1 HE) _ _ Ho) as [_ Pw]. apply AllocFacts.pairwise_app in Pw. destruct Pw as (_ & _ & Pw).
    apply (Pw u1 u2) with (x := x); [| |exact I1|exact I2].
    - apply in_flat_map. exists hi. split; [apply live_in; eauto|rewrite B1; left; reflexivity].
    - apply in_or_app. right. apply (Hin l g b' (not_eq_sym Hne) El).
      apply in_flat_map. exists hj. split; [apply live_in; eauto|rewrite B2; left; reflexivity].
  Qed.

  Lemma inv_apart fr s i j hi hj x : binv (e_A E) (e_own E) (e_bomb E) fr s ->
    get i (bl_tab s) = Some hi -> get j (bl_tab s) = Some hj -> i <> j -> covers hi x -> covers hj x -> False.
  Proof.
    intros (junk & Ho & _ & Hf & _) Gi Gj Nij Ci Cj.
    destruct (agree_get _ _ _ _ _ Hf Gi) as ([[r1 d1] v1] & _ & (_ & _ & _ & P1 & _)).
    destruct (agree_get _ _ _ _ _ Hf Gj) as ([[r2 d2] v2] & _ & (_ & _ & _ & P2 & _)).
    destruct (covers_block _ _ P1 Ci) as (u1 & B1 & I1). destruct (covers_block _ _ P2 Cj) as (u2 & B2 & I2).
    destruct (ct_wf _ _ _ _ (proj1 HE) _ _ Ho) as [_ Pw]. apply AllocFacts.pairwise_app in Pw. destruct Pw as (Pw & _ & _).
    assert (X : forall a b ha hb ua ub, get a (bl_tab s) = Some ha -> get b (bl_tab s) = Some hb -> (a < b)%nat ->
               h_blks ha = [ua] -> h_blks hb = [ub] -> disjoint_u ua ub).
    { clear - Pw. intros a b ha hb ua ub. revert a b. induction (bl_tab s) as [|oh t IH]; intros a b Ga Gb Hab Ba Bb; [destruct a; discriminate|].
      destruct b as [|b]; [lia|]. cbn in Gb. unfold blocks in *. destruct a as [|a].
      - cbn in Ga. destruct oh as [h|]; inversion Ga; subst. cbn [live flat_map] in Pw. rewrite Ba in Pw. cbn [app pairwise] in Pw.
        destruct Pw as [Pw _]. rewrite Forall_forall in Pw. apply Pw. apply in_flat_map. exists hb. split; [|rewrite Bb; left; reflexivity].
        apply live_in. exists b. exact Gb.
      - cbn in Ga. apply (IH) with (a := a) (b := b); try assumption; [|lia]. destruct oh; cbn [live flat_map] in Pw; [|exact Pw].
        apply AllocFacts.pairwise_app in Pw. apply Pw. }
    destruct (Nat.lt_trichotomy i j) as [Hl|[He|Hl]]; [|congruence|].
    - exact (X i j hi hj u1 u2 Gi Gj Hl B1 B2 x I1 I2).
    - exact (X j i hj hi u2 u1 Gj Gi Hl B2 B1 x I2 I1).
  Qed.

  Lemma crowd_apart_self fr w xs c k s i j hi hj x : gathers E fr w xs c -> seen E c k = Some s ->
    get i (bl_tab s) = Some hi -> get j (bl_tab s) = Some hj -> i <> j -> covers hi x -> covers hj x -> False.
  Proof.
    intros H Hk Gi Gj Nij Ci Cj. destruct (gathered _ _ _ _ H) as (fr' & _ & C & _).
    destruct (seen_at _ _ _ Hk) as (f & b & Ek & ->).
    destruct (crowd_split E HE _ _ _ _ _ C Ek) as (fr2 & B & _).
    exact (inv_apart fr2 (seat (cr_w c) b) i j hi hj x B Gi Gj Nij Ci Cj).
  Qed.

  (** Destructors. *)
  Lemma crowd_drops fr w xs c k s : gathers E fr w xs c -> seen E c k = Some s ->
    drops_of (bl_log s) = snd (especs (e_bomb E) [] (bl_log s)).
  Proof.
    intros H Hk. destruct (gathered _ _ _ _ H) as (fr' & _ & C & _). destruct (seen_at _ _ _ Hk) as (f & b & Ek & ->).
    destruct (crowd_split E HE _ _ _ _ _ C Ek) as (fr2 & (junk & _ & _ & _ & D) & _). symmetry. exact D.
  Qed.

  Lemma crowd_once fr w xs c k s i : gathers E fr w xs c -> seen E c k = Some s -> still_there E c k = false ->
    (forall id v, e_bomb E id v = false) -> drop_n i (bl_log s) = new_n i (bl_log s).
  Proof.
    intros H Hk Hg Hb. pose proof (crowd_drops _ _ _ _ _ _ H Hk) as D.
    destruct (gathered _ _ _ _ H) as (fr' & _ & C & _). destruct (seen_at _ _ _ Hk) as (f & b & Ek & ->).
    unfold still_there in Hg. rewrite Ek in Hg. subst f.
    destruct (crowd_split E HE _ _ _ _ _ C Ek) as (fr2 & (junk & _ & _ & Hf & _) & W & T & _). specialize (T eq_refl).
    pose proof (spec_count_full (e_bomb E) i Hb (bl_log b) [] (Forall_nil _) W) as S.
    cbn [seat bl_log] in *. rewrite <- D, drops_count in S.
    assert (L : live_entries (fst (especs (e_bomb E) [] (bl_log b))) = []).
    { fold (state_of (e_bomb E) b). change (state_of (e_bomb E) (seat (cr_w c) b)) with (state_of (e_bomb E) b) in Hf.
      cbn [seat bl_tab] in Hf. clear - Hf T. rewrite live_entries_live. induction Hf as [|oh oe t e H1 H2 IH]; [reflexivity|].
      destruct oh, oe; cbn in *; try contradiction; [discriminate|auto]. }
    rewrite L in S. cbn in S. lia.
  Qed.

  Lemma crowd_hold' fr w xs c k s i h : gathers E fr w xs c -> seen E c k = Some s -> get i (bl_tab s) = Some h ->
    exists vs, get i (fst (especs (e_bomb E) [] (bl_log s))) = Some (registered h, h_id h, vs) /\
      Z.of_nat (length vs) = h_cnt h /\
      forall j v, nth_error vs j = Some (Some v) -> nth_error (contents (al_mem (e_A E) (cr_w c)) h) j = Some (Some v).
  Proof.
    intros H Hk Gi. pose proof (crowd_hold _ _ _ _ _ _ _ _ H Hk Gi) as X. destruct (seen_at _ _ _ Hk) as (f & b & _ & ->). exact X.
  Qed.
  Lemma crowd_apart_any fr w xs c k l s t i j hi hj x : gathers E fr w xs c -> seen E c k = Some s -> seen E c l = Some t ->
    get i (bl_tab s) = Some hi -> get j (bl_tab t) = Some hj -> k <> l \/ i <> j -> covers hi x -> covers hj x -> False.
  Proof.
    intros H Hk Hl Gi Gj Hne. destruct (Nat.eq_dec k l) as [->|Hkl].
    - rewrite Hk in Hl. injection Hl as <-. destruct Hne as [Hne|Hne]; [congruence|].
      apply (crowd_apart_self _ _ _ _ _ _ _ _ _ _ _ H Hk Gi Gj Hne).
    - apply (crowd_apart _ _ _ _ _ _ _ _ _ _ _ _ _ H Hk Hl Hkl Gi Gj).
  Qed.
End Crowds.
