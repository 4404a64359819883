(** Nothing is written outside of what is allocated: a [BlinkAlloc], towers of them, [Blink]
    and proxies. *)
From Coq Require Import Permutation.
From Verif Require Import Base BaseFacts Alloc AllocFacts Arena ArenaFacts ArenaInv ArenaOps BlinkAlloc BlinkFacts
  History HistoryFacts Setup SetupFacts Tower Blink BlinkInv BlinkReset BlinkOps BlinkIter BlinkMain BlinkEnv
  Proxy ProxyFacts ProxyProps Stray StrayFacts.

(** ** Any [BlinkAlloc] *)
Section Any.
  Context {W : Type} (amax bmax : Z) (A : Allocator W) (own : W -> list ublock -> Prop).
  Hypothesis Hct : contract amax bmax A own.

  Definition over (min : Z) : AW (W := W) -> list ublock -> Prop := blink_own amax A own (fun _ _ => True) [] min.

  Lemma over_reset (k : bool) min aw us : over min aw us ->
    wp (if k then blink_reset A else blink_reset_final A) aw (fun _ aw' => over min aw' []).
  Proof.
    intros (cs & R & _ & Hm). destruct aw as [ar w]. cbn [fst snd] in *. destruct k.
    - eapply wp_mono; [apply (arena_reset_keep_ok amax bmax A own Hct [] cs ar w us R)|].
      intros _ aw' (_ & M1 & H). destruct cs as [|c cs].
      + subst aw'. exists []. split; [|split; [exact I|exact Hm]].
        destruct R as [R1 R2 R3 R4 R5 R6 R7 R8]. constructor; auto; constructor.
      + eexists. split; [exact H|]. split; [exact I|]. cbn [fst] in M1. congruence.
    - eapply wp_mono; [apply (arena_reset_final_ok amax bmax A own Hct [] cs ar w us R)|].
      intros _ aw' (_ & M1 & _ & _ & H). exists []. split; [exact H|]. split; [exact I|].
      cbn [fst] in M1. congruence.
  Qed.

  Lemma over_own min aw us : over min aw us -> exists us', own (snd aw) us'.
  Proof. intros (cs & R & _). exists (map c_u cs ++ []). apply (ar_own _ _ _ _ _ _ _ _ R). Qed.

  Lemma over_new min w : own w [] -> 0 <= min <= USIZE_MAX -> over min (arena_with_chunk_size min, w) [].
  Proof.
    intros Ho Hm. exists []. split; [|split; [exact I|reflexivity]].
    apply (arep_new amax bmax A own []); assumption.
  Qed.
End Any.

(** Stronger ownership below gives stronger ownership above. *)
Lemma over_with {W} amax (A : Allocator W) (own own' : W -> list ublock -> Prop) J min aw us :
  (forall us', own (snd aw) us' -> own' (snd aw) us') ->
  blink_own amax A own J [] min aw us -> over amax A own' min aw us.
Proof.
  intros H (cs & [R1 R2 R3 R4 R5 R6 R7 R8] & _ & Hm). exists cs. split; [|split; [exact I|exact Hm]].
  constructor; auto.
Qed.

Section Uses.
  Variable su : setup.
  Hypothesis Hok : setup_ok su.
  Variable w0 : bworld.

  Definition tow : bworld -> list ublock -> Prop := kown (su_amax su) (su_bmax su) w0.
  Definition stow : AW (W := bworld) -> list ublock -> Prop := over (su_amax su) (bot su) tow (su_min su).

  Lemma tow_ct : contract (su_amax su) (su_bmax su) (bot su) tow.
  Proof. destruct Hok as (H1 & H2 & H3 & _). apply kown_contract; assumption. Qed.

  Lemma stow_ct : contract (su_amax su) (su_smax su) (ba su) stow.
  Proof.
    apply (blink_contract (su_amax su) (su_smax su) (su_bmax su) (bot su) tow tow_ct (su_amax_ok su Hok)).
    - apply jinv_true.
    - apply (su_cfg su Hok).
  Qed.

  Lemma stow_reset k aw us : stow aw us -> wp (do_reset su k) aw (fun _ aw' => stow aw' []).
  Proof. apply (over_reset (su_amax su) (su_bmax su) (bot su) tow tow_ct k (su_min su) aw us). Qed.

  Lemma stow_tidy aw us : stow aw us -> no_stray w0 (snd aw).
  Proof.
    intros H. destruct (over_own _ _ _ _ _ _ H) as (us' & _ & L). apply (lore_no_stray w0 _ L).
  Qed.

  Lemma tow_here us : base_own (su_amax su) (su_bmax su) w0 us -> tow w0 us.
  Proof. intros H. split; [exact H|apply lore_start]. Qed.
  Lemma stow_here aw us : sown su aw us -> snd aw = w0 -> stow aw us.
  Proof.
    intros H E. apply (over_with (su_amax su) (bot su) (base_own (su_amax su) (su_bmax su)) tow (held_j)); [|exact H].
    intros us' Ho. rewrite E in *. apply tow_here. exact Ho.
  Qed.
End Uses.

Section Histories.
  Variable su : setup.
  Hypothesis Hok : setup_ok su.

  Lemma empty_own m0 : base_own (su_amax su) (su_bmax su) (mkB m0 []) [].
  Proof. split; [|exact I]. split; [|constructor]. split; [constructor|]. split; constructor. Qed.

  Lemma start_in_inv m0 : hinv (ba su) (sown su) (start_in m0 su) [].
  Proof.
    split; [|constructor]. exists []. cbn. split; [|split; reflexivity].
    apply (arep_new (su_amax su) (su_bmax su) (bot su) _ [] (mkB m0 [])); [apply (su_ct su Hok)|apply empty_own|apply (su_min_ok su Hok)].
  Qed.

  Lemma run_in m0 ops : exists rs st, do_run su ops (start_in m0 su) = ORet rs st /\
    length rs = length ops /\ hinv (ba su) (sown su) st (srun ops (map (option_map b_len) rs) []).
  Proof.
    pose proof (run_ok (su_amax su) (su_smax su) (ba su) (sown su) (do_reset su) (ba_contract su Hok) (ba_reset su Hok) ops
                  (start_in m0 su) [] (start_in_inv m0)) as H.
    apply wp_inv in H. destruct H as (rs & st & E & L & H). eauto.
  Qed.

  Lemma run_tidy st s ops rs st' : hinv (ba su) (sown su) st s -> do_run su ops st = ORet rs st' ->
    no_stray (snd (c_w st)) (snd (c_w st')).
  Proof.
    intros [H1 H2] E. set (w0 := snd (c_w st)).
    assert (Hi : hinv (ba su) (stow su w0) st s) by (split; [apply stow_here; [exact H1|reflexivity]|exact H2]).
    pose proof (run_ok (su_amax su) (su_smax su) (ba su) (stow su w0) (do_reset su) (stow_ct su Hok w0) (stow_reset su Hok w0)
                  ops st s Hi) as X.
    pose proof (wp_elim _ _ _ _ _ X E) as (_ & Y & _). apply (stow_tidy su w0 _ _ Y).
  Qed.

  Lemma history_tidy m0 ops1 rs1 st1 ops2 rs2 st2 :
    do_run su ops1 (start_in m0 su) = ORet rs1 st1 -> do_run su ops2 st1 = ORet rs2 st2 ->
    no_stray (snd (c_w st1)) (snd (c_w st2)).
  Proof.
    intros E1 E2. destruct (run_in m0 ops1) as (rs & st & E & _ & H). rewrite E1 in E. inversion E; subst.
    apply (run_tidy _ _ _ _ _ H E2).
  Qed.

  (** ** Blink *)
  Hypothesis Hs : ISIZE_MAX <= su_smax su.
  Variable bomb : Z -> Z -> bool.

  Definition with_own (E : env) (own : e_W E -> list ublock -> Prop) : env :=
    mkEnv (e_W E) (e_A E) own (e_reset E) (e_amax E) (e_smax E) (e_dbg E) (e_bomb E) (e_exact E) (e_shared E).

  Lemma owned_tidy_ok w0 : env_ok (with_own (owned su bomb) (stow su w0)).
  Proof.
    split; [apply (stow_ct su Hok w0)|]. split; [exact Hs|]. cbn [e_exact e_smax e_A e_own e_reset e_shared owned with_own e_W].
    split; [intros _; apply (blink_exact (bot su) (su_dbg su) (su_amax su)); [apply (su_smax_ok su Hok)|apply (stow_ct su Hok w0)]|].
    intros w us fr Ho [H| ->]; [discriminate H|]. eapply wp_mono; [apply (stow_reset su Hok w0 true w _ Ho)|].
    intros [] w' Ho'. exists []. split; [exact Ho'|]. intros u x [].
  Qed.

  Lemma borrowed_tidy_ok w0 : env_ok (with_own (borrowed su bomb) (stow su w0)).
  Proof.
    split; [apply (stow_ct su Hok w0)|]. split; [exact Hs|]. cbn [e_exact e_smax e_A e_own e_reset e_shared borrowed with_own e_W].
    split; [intros _; apply (blink_exact (bot su) (su_dbg su) (su_amax su)); [apply (su_smax_ok su Hok)|apply (stow_ct su Hok w0)]|].
    intros w us fr Ho _. apply wp_ret. exists us. split; [exact Ho|apply same_on_refl].
  Qed.

  Lemma foreign_tidy_ok w0 : ISIZE_MAX <= su_bmax su -> env_ok (with_own (foreign su bomb) (tow su w0)).
  Proof.
    intros Hb. split; [apply (tow_ct su Hok w0)|]. split; [exact Hb|]. cbn [e_exact e_smax e_A e_own e_reset e_shared foreign with_own e_W].
    split; [discriminate|]. intros w us fr Ho _. apply wp_ret. exists us. split; [exact Ho|apply same_on_refl].
  Qed.

  (** The rest of a program on a [Blink], with stronger ownership. *)
  Lemma erun_with E (own : e_W E -> list ublock -> Prop) fr w os1 s1 os2 s2 :
    env_ok E -> env_ok (with_own E own) -> (forall us, e_own E (bl_w s1) us -> own (bl_w s1) us) ->
    arrives E fr w os1 s1 -> forallb (sound (e_exact E)) os2 = true -> erun E os2 s1 = ORet tt s2 ->
    exists us, own (bl_w s2) us.
  Proof.
    intros HE HE' H Ha Hsnd Hr. destruct (arrived E HE fr w os1 s1 Ha) as [(junk & B1 & B2 & B3 & B4) _].
    destruct Ha as ((us & _ & HF) & _ & _).
    assert (B : binv (e_A E) own (e_bomb E) fr s1) by (exists junk; auto).
    pose proof (erun_safe (with_own E own) HE' fr os2 s1 Hsnd B HF) as X. unfold safe in X.
    change (erun (with_own E own) os2 s1) with (erun E os2 s1) in X. rewrite Hr in X.
    destruct X as [(junk' & Y & _) _]. exists (blocks (bl_tab s2) ++ junk' ++ fr). exact Y.
  Qed.

  Lemma owned_tidy fr w os1 s1 os2 s2 : arrives (owned su bomb) fr w os1 s1 ->
    forallb (sound true) os2 = true -> erun (owned su bomb) os2 s1 = ORet tt s2 ->
    no_stray (snd (bl_w s1)) (snd (bl_w s2)).
  Proof.
    intros Ha Hsnd Hr.
    destruct (erun_with (owned su bomb) (stow su (snd (bl_w s1))) fr w os1 s1 os2 s2) as (us & Ho);
      [apply owned_ok; assumption|apply owned_tidy_ok|intros us Ho; apply stow_here; [exact Ho|reflexivity]|assumption..|].
    apply (stow_tidy su _ _ _ Ho).
  Qed.

  Lemma borrowed_tidy fr w os1 s1 os2 s2 : arrives (borrowed su bomb) fr w os1 s1 ->
    forallb (sound true) os2 = true -> erun (borrowed su bomb) os2 s1 = ORet tt s2 ->
    no_stray (snd (bl_w s1)) (snd (bl_w s2)).
  Proof.
    intros Ha Hsnd Hr.
    destruct (erun_with (borrowed su bomb) (stow su (snd (bl_w s1))) fr w os1 s1 os2 s2) as (us & Ho);
      [apply borrowed_ok; assumption|apply borrowed_tidy_ok|intros us Ho; apply stow_here; [exact Ho|reflexivity]|assumption..|].
    apply (stow_tidy su _ _ _ Ho).
  Qed.
End Histories.

Lemma foreign_tidy su bomb fr w os1 s1 os2 s2 : setup_ok su -> ISIZE_MAX <= su_bmax su ->
  arrives (foreign su bomb) fr w os1 s1 ->
  forallb (sound false) os2 = true -> erun (foreign su bomb) os2 s1 = ORet tt s2 ->
  no_stray (bl_w s1) (bl_w s2).
Proof.
  intros Hok Hb Ha Hsnd Hr.
  destruct (erun_with (foreign su bomb) (tow su (bl_w s1)) fr w os1 s1 os2 s2) as (us & Ho);
    [apply foreign_ok; assumption|apply foreign_tidy_ok; assumption|intros us Ho; apply tow_here; exact Ho|assumption..|].
  destruct Ho as [_ L]. apply (lore_no_stray _ _ L).
Qed.

(** ** Proxies *)
Section Proxies.
  Variable su : setup.
  Variables psmax nmax : Z.
  Hypothesis Hok : proxies_ok su psmax nmax.

  Lemma proxies_tidy os1 rs1 s1 os2 rs2 s2 :
    proxy_run su psmax nmax os1 (proxy_start su) = ORet rs1 s1 -> proxy_run su psmax nmax os2 s1 = ORet rs2 s2 ->
    no_stray (snd (ps_w s1)) (snd (ps_w s2)).
  Proof.
    intros E1 E2. pose proof (psu su psmax nmax Hok) as Hsu.
    assert (Htop : Z.max (su_amax su) nmax <= USIZE_MAX) by (destruct Hok as (_ & _ & H & _); lia).
    assert (Htop0 : 0 <= Z.max (su_amax su) nmax) by (destruct Hok as (_ & _ & H & _); lia).
    assert (H1 : exists b, pinv (su_amax su) nmax (ba su) (sown su) s1 b).
    { pose proof (prun_ok (su_amax su) (su_smax su) psmax nmax (ba su) (sown su) (ba_contract su Hsu) (pamax su psmax nmax Hok)
        (su_dbg su) (do_reset su) (ba_reset su Hsu) Htop (pcfg su psmax nmax Hok) os1 (proxy_start su) (mkSp [] [])
        (pstart_inv (su_amax su) nmax (ba su) (sown su) _ (proj1 (start_inv su Hsu)) Htop0)) as X.
      pose proof (wp_elim _ _ _ _ _ X E1) as (_ & Y & _). eexists. exact Y. }
    destruct H1 as (b & [I1 I2 (P & leak & Ho & He)]). set (w0 := snd (ps_w s1)).
    assert (Hi : pinv (su_amax su) nmax (ba su) (stow su w0) s1 b).
    { constructor; [exact I1|exact I2|]. exists P, leak. split; [|exact He]. apply stow_here; [exact Ho|reflexivity]. }
    pose proof (prun_ok (su_amax su) (su_smax su) psmax nmax (ba su) (stow su w0) (stow_ct su Hsu w0) (pamax su psmax nmax Hok)
        (su_dbg su) (do_reset su) (stow_reset su Hsu w0) Htop (pcfg su psmax nmax Hok) os2 s1 b Hi) as X.
    pose proof (wp_elim _ _ _ _ _ X E2) as (_ & [_ _ (P' & leak' & Ho' & _)] & _). apply (stow_tidy su w0 _ _ Ho').
  Qed.
End Proxies.

(** ** Towers *)

(** The state of the adversarial allocator at the bottom of a tower. *)
Fixpoint bottom (ls : list level) : TW ls -> bworld :=
  match ls with [] => fun w => w | _ :: ls' => fun w => bottom ls' (snd w) end.

Section Towers.
  Variable dbg : bool.
  Variable bmax : Z.
  Variable S : strategy.
  Variable amax : Z.
  Hypothesis Hamax : 0 <= amax <= USIZE_MAX.
  Hypothesis Hbot : amax <= bmax.
  Hypothesis Hhon : honest amax S.
  Variable w0 : bworld.

  Fixpoint tower_tow (ls : list level) : TW ls -> list ublock -> Prop :=
    match ls with
    | [] => kown amax bmax w0
    | l :: ls' => over amax (tower dbg bmax S ls') (tower_tow ls') (lv_min l)
    end.

  Lemma tower_tow_ct ls : tower_ok dbg bmax amax ls ->
    contract amax (top_smax bmax ls) (tower dbg bmax S ls) (tower_tow ls).
  Proof.
    induction ls as [|l ls IH]; intros H; cbn [tower tower_tow top_smax].
    - apply kown_contract; assumption.
    - destruct H as (_ & H2 & H3).
      apply (blink_contract amax (lv_smax l) (top_smax bmax ls) (tower dbg bmax S ls) (tower_tow ls) (IH H3) Hamax).
      + apply jinv_true.
      + exact H2.
  Qed.

  Lemma tower_tow_tidy ls : forall w us, tower_tow ls w us -> no_stray w0 (bottom ls w).
  Proof.
    induction ls as [|l ls IH]; intros w us H; cbn [bottom].
    - apply (lore_no_stray w0 w (proj2 H)).
    - destruct (over_own _ _ _ _ _ _ H) as (us' & H'). apply (IH _ _ H').
  Qed.

  Lemma tower_here ls : forall w us, tower_own dbg bmax S amax ls w us -> bottom ls w = w0 -> tower_tow ls w us.
  Proof.
    induction ls as [|l ls IH]; intros w us H E; cbn [tower_tow tower_own bottom] in *.
    - split; [exact H|]. rewrite E. apply lore_start.
    - apply (over_with _ _ (tower_own dbg bmax S amax ls) (tower_tow ls) (fun _ _ => True) (lv_min l) w us); [|exact H].
      intros us' H'. apply IH; assumption.
  Qed.
End Towers.

Lemma tower_tidy dbg bmax S amax l ls ops1 rs1 st1 ops2 rs2 st2 :
  0 <= amax <= USIZE_MAX -> amax <= bmax -> honest amax S -> tower_ok dbg bmax amax (l :: ls) ->
  run (lv_smax l) (tower dbg bmax S (l :: ls)) (tower_reset dbg bmax S (l :: ls)) ops1
      (mkCst [] (tower_start (l :: ls))) = ORet rs1 st1 ->
  run (lv_smax l) (tower dbg bmax S (l :: ls)) (tower_reset dbg bmax S (l :: ls)) ops2 st1 = ORet rs2 st2 ->
  no_stray (bottom (l :: ls) (c_w st1)) (bottom (l :: ls) (c_w st2)).
Proof.
  intros Hamax Hbot Hhon H E1 E2.
  pose proof (run_ok amax (lv_smax l) (tower dbg bmax S (l :: ls)) (tower_own dbg bmax S amax (l :: ls)) (tower_reset dbg bmax S (l :: ls))
    (tower_contract dbg bmax S amax Hamax Hbot Hhon (l :: ls) H)
    (fun k w us Ho => tower_reset_own dbg bmax S amax Hamax Hbot Hhon l ls k w us H Ho) ops1
    (mkCst [] (tower_start (l :: ls))) [] (conj (tower_start_own dbg bmax S amax Hamax Hbot Hhon (l :: ls) H) (Forall2_nil _))) as X.
  pose proof (wp_elim _ _ _ _ _ X E1) as (_ & Y1 & Y2). set (w0 := bottom (l :: ls) (c_w st1)).
  assert (Hi : hinv (tower dbg bmax S (l :: ls)) (tower_tow dbg bmax S amax w0 (l :: ls)) st1 (srun ops1 (map (option_map b_len) rs1) [])).
  { split; [|exact Y2]. apply tower_here; [exact Y1|reflexivity]. }
  pose proof (run_ok amax (lv_smax l) (tower dbg bmax S (l :: ls)) (tower_tow dbg bmax S amax w0 (l :: ls)) (tower_reset dbg bmax S (l :: ls))
    (tower_tow_ct dbg bmax S amax Hamax Hbot Hhon w0 (l :: ls) H)
    (fun k w us Ho => over_reset amax (top_smax bmax ls) (tower dbg bmax S ls) (tower_tow dbg bmax S amax w0 ls)
       (tower_tow_ct dbg bmax S amax Hamax Hbot Hhon w0 ls (proj2 (proj2 H))) k (lv_min l) w us Ho) ops2 st1 _ Hi) as X2.
  pose proof (wp_elim _ _ _ _ _ X2 E2) as (_ & Z1 & _).
  apply (tower_tow_tidy dbg bmax S amax w0 (l :: ls) _ _ Z1).
Qed.

(** Blocks of a [BlinkAlloc] that started with memory [m0] are independent buffers. *)
Lemma run_in_agrees su m0 ops : setup_ok su -> exists rs st,
  do_run su ops (start_in m0 su) = ORet rs st /\ length rs = length ops /\
  agrees (bw_mem (snd (c_w st))) (c_tab st) (srun ops (map (option_map b_len) rs) []).
Proof. intros Hok. destruct (run_in su Hok m0 ops) as (rs & st & E & L & _ & Ag). exists rs, st. auto. Qed.
