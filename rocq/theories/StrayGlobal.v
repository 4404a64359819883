(** No stray writes by the global allocators and their proxies (C78). *)
From Coq Require Import Permutation.
From Verif Require Import Base BaseFacts Alloc AllocFacts Arena ArenaFacts ArenaInv ArenaOps BlinkAlloc BlinkFacts
  History HistoryFacts Setup SetupFacts Frame Stray StrayFacts StrayUse Proxy ProxyFacts ProxyProps Global GlobalFacts GlobalProps
  GLocal GLocalFacts GLocalProps.

(** Stronger ownership below. *)
Lemma has_with {W} amax (A : Allocator W) (own own' : W -> list ublock -> Prop) min t aw :
  (forall us, own (snd aw) us -> own' (snd aw) us) -> has amax A own min t aw -> has amax A own' min t aw.
Proof.
  intros H (cs & [R1 R2 R3 R4 R5 R6 R7 R8] & Hm). exists cs. split; [|exact Hm]. constructor; auto.
Qed.
Lemma ginv_with {W} amax (A : Allocator W) (own own' : W -> list ublock -> Prop) dbg min c on t :
  (forall us, own (snd (g_aw (gc_st c))) us -> own' (snd (g_aw (gc_st c))) us) ->
  ginv amax A own dbg min c on t -> ginv amax A own' dbg min c on t.
Proof. intros H [G1 G2 G3 G4 G5 G6]. constructor; auto. apply (has_with _ _ _ _ _ _ _ H G2). Qed.
Lemma linv_with {W} amax (A : Allocator W) (own own' : W -> list ublock -> Prop) dbg min nmax s b :
  (forall us, own (snd (g_aw (gc_st (l_g s)))) us -> own' (snd (g_aw (gc_st (l_g s)))) us) ->
  linv amax A own dbg min nmax s b -> linv amax A own' dbg min nmax s b.
Proof.
  intros H [L1 L2 (P & leak & L3 & L4)]. constructor; auto; [apply (ginv_with _ _ _ _ _ _ _ _ _ H L1)|].
  exists P, leak. split; [|exact L4]. apply (has_with _ _ _ _ _ _ _ H L3).
Qed.

Section Global.
  Variable su : setup.
  Hypothesis Hok : setup_ok su.
  Variable lax : bool.
  Notation A := (under su lax).
  Notation may := (whichever lax).
  Notation bown := (base_own (su_amax su) (su_bmax su)).

  Lemma plain_ct : contract (su_amax su) (su_bmax su) A bown.
  Proof. unfold under. destruct lax; [apply lenient_contract|]; apply (su_ct su Hok). Qed.
  Lemma either_may own u old new : contract (su_amax su) (su_bmax su) (bot su) own ->
    fits old u -> req_ok (su_bmax su) new -> may (l_size old) (l_size new) = true ->
    resizes (su_amax su) A own (if l_size new <=? l_size old then al_grow A (u_ptr u) old new else al_shrink A (u_ptr u) old new) u old new.
  Proof. intros H. unfold under, whichever. destruct lax; [apply (lenient_may _ _ _ _ H)|apply (equal_may _ _ _ _ H)]. Qed.
  Lemma under_tow w0 : contract (su_amax su) (su_bmax su) A (tow su w0).
  Proof. unfold under. destruct lax; [apply lenient_contract|]; apply (tow_ct su Hok). Qed.
  Lemma has_tidy w0 t aw : has (su_amax su) A (tow su w0) (su_min su) t aw -> no_stray w0 (snd aw).
  Proof. intros (cs & R & _). destruct (ar_own _ _ _ _ _ _ _ _ R) as [_ Lr]. apply (lore_no_stray w0 _ Lr). Qed.

  (** The global allocators, both types ([sync]). *)
  Definition plain_run (sync : bool) (os : list gop) := grun A (su_dbg su) sync (su_smax su) may os.

  Lemma global_run_ok own sync os c on t : contract (su_amax su) (su_bmax su) (bot su) own -> contract (su_amax su) (su_bmax su) A own ->
    ginv (su_amax su) A own (su_dbg su) (su_min su) c on t ->
    wp (plain_run sync os) c (fun rs c' => length rs = length os /\
      ginv (su_amax su) A own (su_dbg su) (su_min su) c' (fst (gspecs os rs on t)) (snd (gspecs os rs on t))).
  Proof.
    intros Hb Hct H. apply (grun_ok (su_amax su) (su_smax su) (su_bmax su) A own Hct (su_amax_ok su Hok) (su_dbg su) sync (su_min su)
      (su_cfg su Hok) (su_ss su Hok) may (fun u old new => either_may own u old new Hb) os c on t H).
  Qed.
  Lemma global_tidy sync os1 rs1 c1 os2 rs2 c2 : plain_run sync os1 (gstart su) = ORet rs1 c1 -> plain_run sync os2 c1 = ORet rs2 c2 ->
    no_stray (snd (g_aw (gc_st c1))) (snd (g_aw (gc_st c2))).
  Proof.
    intros E1 E2.
    assert (H0 : ginv (su_amax su) A bown (su_dbg su) (su_min su) (gstart su) false []).
    { apply (gstart_inv _ (su_smax su) (su_bmax su)); [apply plain_ct|apply su_min_ok; exact Hok|apply su_cfg; exact Hok|apply bot_start]. }
    pose proof (wp_elim _ _ _ _ _ (global_run_ok bown sync os1 _ _ _ (su_ct su Hok) plain_ct H0) E1) as (_ & H1).
    set (w0 := snd (g_aw (gc_st c1))).
    pose proof (ginv_with _ _ _ (tow su w0) _ _ _ _ _ (fun us => tow_here su w0 us) H1) as H1'.
    pose proof (wp_elim _ _ _ _ _ (global_run_ok (tow su w0) sync os2 _ _ _ (tow_ct su Hok w0) (under_tow w0) H1') E2) as (_ & H2).
    apply (has_tidy w0 _ _ (gi_has _ _ _ _ _ _ _ _ H2)).
  Qed.
End Global.

(** A global allocator with proxies. *)
Lemma both_tidy su psmax nmax lax os1 rs1 s1 os2 rs2 s2 : proxies_ok su psmax nmax ->
  both_run su psmax nmax lax true os1 (both_start su) = ORet rs1 s1 -> both_run su psmax nmax lax true os2 s1 = ORet rs2 s2 ->
  no_stray (snd (g_aw (gc_st (l_g s1)))) (snd (g_aw (gc_st (l_g s2)))).
Proof.
  intros Hp E1 E2. pose proof (lsu su psmax nmax Hp) as Hok.
  destruct (both_run_ok su psmax nmax lax Hp os1 _ _ (both_start_inv su psmax nmax lax Hp)) as (rs & s & E & _ & H1 & _).
  rewrite E1 in E. injection E as <- <-. set (w0 := snd (g_aw (gc_st (l_g s1)))).
  pose proof (linv_with _ _ _ (tow su w0) _ _ _ _ _ (fun us => tow_here su w0 us) H1) as H1'.
  pose proof (lrun_ok (su_amax su) (su_smax su) (su_bmax su) (under su lax) (tow su w0) (under_tow su Hok lax w0) (su_amax_ok su Hok) (su_dbg su) (su_min su)
      (su_cfg su Hok) (su_ss su Hok) (whichever lax) (fun u old new => either_may su lax (tow su w0) u old new (tow_ct su Hok w0)) psmax nmax
      (ptop su psmax nmax Hp) (pcfg su psmax nmax Hp) os2 s1 _ H1') as X.
  pose proof (wp_elim _ _ _ _ _ X E2) as (_ & [Hg _ _] & _).
  apply (has_tidy su lax w0 _ _ (gi_has _ _ _ _ _ _ _ _ Hg)).
Qed.
