(** The diary of a [Blink] is what Paper.v says (C85). *)
From Coq Require Import Permutation.
From Verif Require Import Base BaseFacts Alloc AllocFacts Arena ArenaFacts ArenaInv ArenaOps BlinkAlloc BlinkFacts History HistoryFacts
  Setup SetupFacts SetupOps Blink BlinkInv BlinkIter BlinkMain BlinkEnv BlinkProps Asks Paper PaperFacts Diary.

Lemma live_somes {T} (us : list T) : live (map Some us) = us.
Proof. induction us as [|u us IH]; [reflexivity|]. cbn. rewrite IH. reflexivity. Qed.

Section Exact.
  Variable su : setup.
  Hypothesis Hok : setup_ok su.
  Variable start_at : account.
  Notation W := (AW (W := bworld)).
  Notation rp := (replays (su_min su) (su_strat su)).

  (** Ownership, together with what the diary says. *)
  Definition recorded (s : W * list dev) (us : list ublock) : Prop :=
    exists cs, srep su cs (mkCst (map Some us) (fst s)) /\ rp (snd s) start_at (bumps cs, bw_trace (snd (fst s))).

  Lemma recorded_own s us : recorded s us -> sown su (fst s) us.
  Proof. intros (cs & (R & H & Hm) & _). cbn [c_tab c_w] in *. rewrite live_somes in R. exists cs. auto. Qed.

  (** An operation of a client with the blocks [us]. *)
  Lemma as_step o w us cs r st' : srep su cs (mkCst (map Some us) w) -> do_step su o (mkCst (map Some us) w) = ORet r st' ->
    exists cs', srep su cs' (mkCst (map Some (live (c_tab st'))) (c_w st')) /\
      paper_step (su_min su) (su_smax su) (su_strat su) o (mkPaper (bumps cs) (map Some us) (bw_trace (snd w))) =
        (r, mkPaper (bumps cs') (c_tab st') (bw_trace (snd (c_w st')))).
  Proof.
    intros R E. destruct (step_exact su Hok o _ cs r st' R E) as (cs' & (R' & H' & M') & P). exists cs'. split; [|exact P].
    split; [|split; [exact H'|exact M']]. cbn [c_tab c_w]. rewrite live_somes. exact R'.
  Qed.

  Lemma alloc_recorded w ds us l r w' : recorded (w, ds) us -> req_ok (su_smax su) l -> al_allocate (ba su) l w = ORet r w' ->
    recorded (w', Asked (EvAlloc l r) :: ds) (match r with Some b => us ++ [mkU (b_ptr b) (b_len b) l] | None => us end).
  Proof.
    intros (cs & R & P) Hl E. cbn [fst snd] in *.
    assert (Es : do_step su (OpAlloc l false) (mkCst (map Some us) w) =
      ORet r (mkCst (map Some (match r with Some b => us ++ [mkU (b_ptr b) (b_len b) l] | None => us end)) w')).
    { rewrite step_eq. cbn [step_at c_tab]. unfold req_ok in Hl. rewrite Hl. unfold call. cbn [c_w c_tab]. rewrite E. destruct r as [b|]; cbn [on_ok]; [rewrite map_app|]; reflexivity. }
    destruct (as_step _ _ _ _ _ _ R Es) as (cs' & R' & P'). cbn [c_tab c_w] in *. rewrite live_somes in R'.
    exists cs'. split; [exact R'|]. cbn [fst snd replays]. eexists. split; [exact P|]. cbn [prescribed fst snd].
    cbn [paper_step p_chunks p_calls p_tab] in P'. unfold req_ok in Hl. rewrite Hl in P'.
    destruct (take _ _ _ _ _) as [[[a|] ks] tr]; inversion P'; subst; eexists; split; reflexivity.
  Qed.

  Lemma resize_recorded w ds us u old new r w' : recorded (w, ds) (u :: us) -> fits old u -> req_ok (su_smax su) new ->
    al_grow (ba su) (u_ptr u) old new w = ORet r w' ->
    recorded (w', Asked (EvResize (u_ptr u) old new r) :: ds) (match r with Some b => mkU (b_ptr b) (b_len b) new :: us | None => u :: us end).
  Proof.
    intros (cs & R & P) Hf Hl E. cbn [fst snd] in *. apply fitsb_spec in Hf. unfold req_ok in Hl.
    assert (Es : do_step su (OpResize 0 old new) (mkCst (map Some (u :: us)) w) =
      ORet r (mkCst (map Some (match r with Some b => mkU (b_ptr b) (b_len b) new :: us | None => u :: us end)) w')).
    { rewrite step_eq. cbn [step_at map c_tab]. change (get 0 (Some u :: map Some us)) with (Some u). cbv beta iota. rewrite Hf, Hl. cbn [andb].
      assert (Eg : (if l_size old <=? l_size new then al_grow (ba su) (u_ptr u) old new else al_shrink (ba su) (u_ptr u) old new) w = ORet r w')
        by (destruct (_ <=? _); exact E).
      unfold call. cbn [c_w c_tab]. rewrite Eg. destruct r as [b|]; reflexivity. }
    destruct (as_step _ _ _ _ _ _ R Es) as (cs' & R' & P'). cbn [c_tab c_w] in *. rewrite live_somes in R'.
    exists cs'. split; [exact R'|]. cbn [fst snd replays]. eexists. split; [exact P|]. cbn [prescribed fst snd].
    cbn [paper_step p_chunks p_calls p_tab map] in P'. change (get 0 (Some u :: map Some us)) with (Some u) in P'. cbv beta iota in P'. rewrite Hf, Hl in P'. cbn [andb] in P'.
    destruct (moves _ _ _ _ _ _ _) as [[[b|] ks] tr]; inversion P'; subst; reflexivity.
  Qed.

  Lemma dealloc_recorded w ds us u l w' : recorded (w, ds) (u :: us) -> fits l u -> al_deallocate (ba su) (u_ptr u) l w = ORet tt w' ->
    recorded (w', Asked (EvDealloc (u_ptr u) l) :: ds) us.
  Proof.
    intros (cs & R & P) Hf E. cbn [fst snd] in *. apply fitsb_spec in Hf.
    assert (Es : do_step su (OpDealloc 0 l) (mkCst (map Some (u :: us)) w) = ORet None (mkCst (None :: map Some us) w')).
    { rewrite step_eq. cbn [step_at map c_tab]. change (get 0 (Some u :: map Some us)) with (Some u). cbv beta iota. rewrite Hf. unfold bind, call. cbn [c_w c_tab]. rewrite E. reflexivity. }
    destruct (as_step _ _ _ _ _ _ R Es) as (cs' & R' & P'). cbn [c_tab c_w live flat_map app] in *.
    change (live (None :: map Some us)) with (live (map Some us)) in R'. rewrite live_somes in R'.
    exists cs'. split; [exact R'|]. cbn [fst snd replays]. eexists. split; [exact P|]. cbn [prescribed].
    cbn [paper_step p_chunks p_calls p_tab map] in P'. change (get 0 (Some u :: map Some us)) with (Some u) in P'. cbv beta iota in P'. rewrite Hf in P'. inversion P'; reflexivity.
  Qed.

  Lemma reset_recorded w ds us : recorded (w, ds) us -> wp (do_reset su true) w (fun _ w' => recorded (w', Cleared :: ds) []).
  Proof.
    intros Hr. pose proof (ba_reset su Hok true w us (recorded_own _ _ Hr)) as H. unfold wp in *.
    destruct (do_reset su true w) as [[] w'|w'| |] eqn:E; try contradiction. clear H.
    destruct Hr as (cs & R & P). cbn [fst snd] in *.
    assert (Es : do_step su (OpReset true) (mkCst (map Some us) w) = ORet None (mkCst (map (fun _ => None) (map Some us)) w')).
    { rewrite step_eq. cbn [step_at c_tab]. unfold bind, call. cbn [c_w c_tab]. rewrite E. reflexivity. }
    destruct (as_step _ _ _ _ _ _ R Es) as (cs' & R' & P'). cbn [c_tab c_w] in *. rewrite live_none in R'.
    exists cs'. split; [exact R'|]. cbn [fst snd replays]. eexists. split; [exact P|]. cbn [prescribed fst snd].
    cbn [paper_step p_chunks p_calls p_tab] in P'. destruct (bumps cs) as [|k older]; inversion P'; reflexivity.
  Qed.

  Lemma wp_jot {B} (m : M W B) ev s (Q : B -> W -> Prop) : wp m (fst s) Q -> wp (jot m ev) s (fun b s' => Q b (fst s') /\ m (fst s) = ORet b (fst s') /\ snd s' = ev b :: snd s).
  Proof. unfold wp, jot. destruct (m (fst s)); auto. Qed.

  Lemma recorded_perm s us us' : recorded s us -> Permutation us us' -> recorded s us'.
  Proof.
    intros (cs & (R & H & Hm) & P) HP. exists cs. split; [|exact P]. split; [|split; assumption]. cbn [c_tab c_w] in *. rewrite live_somes in *.
    apply (arep_perm _ _ _ _ _ _ _ us _ HP R).
  Qed.

  Lemma recorded_contract : contract (su_amax su) (su_smax su) (jotted (ba su)) recorded.
  Proof.
    pose proof (ba_contract su Hok) as C.
    constructor; cbn [jotted al_mem al_set_mem al_allocate al_deallocate al_grow al_shrink].
    - intros s us us'. apply recorded_perm.
    - intros s us H. apply (ct_wf _ _ _ _ C _ _ (recorded_own _ _ H)).
    - intros s m. apply (ct_mem _ _ _ _ C).
    - intros s us m (cs & (R & H & Hm) & P) Hw. exists cs. cbn [fst snd]. cbn [c_tab c_w] in *. rewrite live_somes in *.
      split; [|exact P]. split; [|split; assumption]. cbn [c_tab c_w]. rewrite live_somes.
      apply (arep_write_us _ _ _ _ (su_ct su Hok) _ _ _ _ _ m R Hw).
    - intros [w ds] us l H Hl. eapply wp_mono; [apply (wp_jot _ _ (w, ds) _ (ct_allocate _ _ _ _ C _ _ l (recorded_own _ _ H) Hl))|].
      intros r [w' ds'] ((S1 & S2) & E & Ed). cbn [fst snd] in *. subst ds'. pose proof (alloc_recorded _ _ _ _ _ _ H Hl E) as Hr.
      split; [exact S1|]. destruct r as [b|]; [|exact Hr]. split; [apply S2|]. eapply recorded_perm; [exact Hr|]. apply Permutation_sym, Permutation_cons_append.
    - intros [w ds] us u l H Hf. eapply wp_mono; [apply (wp_jot _ _ (w, ds) _ (ct_deallocate _ _ _ _ C _ _ u l (recorded_own _ _ H) Hf))|].
      intros [] [w' ds'] ((S1 & S2) & E & Ed). cbn [fst snd] in *. subst ds'. split; [exact S1|]. exact (dealloc_recorded _ _ _ _ _ _ H Hf E).
    - intros [w ds] us u old new H Hf Hl Hle. eapply wp_mono; [apply (wp_jot _ _ (w, ds) _ (ct_grow _ _ _ _ C _ _ u old new (recorded_own _ _ H) Hf Hl Hle))|].
      intros r [w' ds'] ((S1 & S2) & E & Ed). cbn [fst snd] in *. subst ds'. pose proof (resize_recorded _ _ _ _ _ _ _ _ H Hf Hl E) as Hr.
      split; [exact S1|]. destruct r as [b|]; [|split; [apply S2|exact Hr]]. destruct S2 as (G & _ & K). auto.
    - intros [w ds] us u old new H Hf Hl Hle. eapply wp_mono; [apply (wp_jot _ _ (w, ds) _ (ct_shrink _ _ _ _ C _ _ u old new (recorded_own _ _ H) Hf Hl Hle))|].
      intros r [w' ds'] ((S1 & S2) & E & Ed). cbn [fst snd] in *. subst ds'. pose proof (resize_recorded _ _ _ _ _ _ _ _ H Hf Hl E) as Hr.
      split; [exact S1|]. destruct r as [b|]; [|split; [apply S2|exact Hr]]. destruct S2 as (G & _ & K). auto.
  Qed.

  (** The environment with this ownership predicate runs the same programs. *)
  Definition recorded_env (bomb : Z -> Z -> bool) (shared : bool) : env :=
    let E := diary (backed su bomb shared) in
    mkEnv (e_W E) (e_A E) recorded (e_reset E) (e_amax E) (e_smax E) (e_dbg E) (e_bomb E) (e_exact E) (e_shared E).
  Lemma recorded_env_ok bomb shared : ISIZE_MAX <= su_smax su -> env_ok (recorded_env bomb shared).
  Proof.
    intros Hs. split; [exact recorded_contract|]. split; [exact Hs|]. cbn [recorded_env diary backed e_W e_A e_own e_reset e_exact e_shared e_smax].
    split.
    - intros _. pose proof (blink_exact (bot su) (su_dbg su) (su_amax su) (su_smax su) (sown su) (su_smax_ok su Hok) (ba_contract su Hok)) as (X1 & X2 & X3).
      split; [|split].
      + intros [w ds] us l H Hl. eapply wp_mono; [apply (wp_jot _ _ (w, ds) _ (X1 _ _ l (recorded_own _ _ H) Hl))|]. intros r s' (Q & _). exact Q.
      + intros [w ds] us u old new H Hf Hl Hle. eapply wp_mono; [apply (wp_jot _ _ (w, ds) _ (X2 _ _ u old new (recorded_own _ _ H) Hf Hl Hle))|]. intros r s' (Q & _). exact Q.
      + intros p old new. reflexivity.
    - intros [w ds] us fr H Hf. destruct shared.
      + apply wp_ret. exists us. split; [exact H|apply same_on_refl].
      + destruct Hf as [Hf| ->]; [discriminate|]. pose proof (reset_recorded _ _ _ H) as Hr. unfold wp, jot in *. cbn [fst snd].
        destruct (do_reset su true w) as [[] w'|w'| |]; try contradiction. exists []. split; [exact Hr|]. intros u x [].
  Qed.

  Lemma replayed bomb shared fr w os s : ISIZE_MAX <= su_smax su -> recorded (w, []) fr -> shared = true \/ fr = [] ->
    forallb (sound true) os = true -> erun (diary (backed su bomb shared)) os (bl_new (w, [])) = ORet tt s ->
    exists us, recorded (bl_w s) us.
  Proof.
    intros Hs Hw Hf Ho Hr.
    assert (Ha : arrives (recorded_env bomb shared) fr (w, []) os s) by (split; [exists []; auto|split; [exact Ho|exact Hr]]).
    destruct (arrived _ (recorded_env_ok bomb shared Hs) _ _ _ _ Ha) as [(junk & Hown & _) _]. eexists. exact Hown.
  Qed.
End Exact.

(** From any history of clients of the [BlinkAlloc]. *)
Theorem diary_exact su bomb shared ops rs st os s : setup_ok su -> ISIZE_MAX <= su_smax su ->
  do_run su ops (start su) = ORet rs st -> shared = true \/ live (c_tab st) = [] ->
  forallb (sound true) os = true -> erun (diary (backed su bomb shared)) os (bl_new (c_w st, [])) = ORet tt s ->
  let p := snd (paper_run (su_min su) (su_smax su) (su_strat su) ops paper0) in
  let w := snd (fst (bl_w s)) in
  exists ks, replays (su_min su) (su_strat su) (entries s) (p_chunks p, p_calls p) (ks, bw_trace w) /\
    map (fun k => (u_ptr k, u_len k)) (outstanding (bw_trace w)) = map (fun k => (p_at k, p_len k)) ks /\ Forall (in_memory (bw_mem w)) ks.
Proof.
  intros Hok Hs Hrun Hf Ho Hr p w.
  assert (HS0 : srep su [] (start su)).
  { destruct (start_inv su Hok) as [(cs & R & Hj & Hm) _]. cbn in R, Hj, Hm.
    destruct cs as [|c cs]; [|discriminate Hj]. split; [exact R|]. split; [exact Hj|exact Hm]. }
  destruct (run_exact su Hok ops _ _ _ _ HS0 Hrun) as (cs & HS & P). change (sheet [] (start su)) with paper0 in P.
  assert (Ep : p = sheet cs st) by (unfold p; rewrite P; reflexivity). rewrite Ep. cbn [sheet p_chunks p_calls].
  destruct (replayed su Hok (bumps cs, calls st) bomb shared (live (c_tab st)) (c_w st) os s Hs) as (us & cs' & HS' & P'); auto.
  { exists cs. cbn [fst snd]. split; [|reflexivity]. destruct HS as (R & H & Hm). split; [|split; assumption]. cbn [c_tab c_w]. rewrite live_somes. exact R. }
  exists (bumps cs'). split; [exact P'|]. pose proof HS' as (_ & Hh & _). split; [|exact (srep_written su cs' _ HS')].
  unfold held, calls in Hh. cbn [c_w] in Hh. change (snd (fst (bl_w s))) with w in Hh. rewrite <- Hh. unfold bumps. rewrite !map_map. reflexivity.
Qed.
