(** The shared allocator with its books (C86): a ghost that follows Paper.v. *)
From Coq Require Import Permutation.
From Verif Require Import Base BaseFacts Alloc AllocFacts Arena ArenaFacts ArenaInv ArenaOps BlinkAlloc BlinkFacts
  History HistoryFacts Setup SetupFacts SetupOps SetupOps3 Frame Proxy Param ProxyFacts ProxyProps Paper PaperFacts Diary DiaryFacts ProxyPaper.

Section Books.
  Variable su : setup.
  Notation W := (AW (W := bworld)).
  Notation min := (su_min su).
  Notation St := (su_strat su).

  Definition stamped {B} (m : M W B) (f : books -> books) : M (W * books) B :=
    fun s => match m (fst s) with
             | ORet b w => ORet b (w, f (snd s))
             | OPanic w => OPanic (w, f (snd s))
             | OAbort => OAbort
             | OUB => OUB
             end.
  Definition resized (p : Z) (old new : Layout) (x : books) : books :=
    let '(_, ks, tr) := moves min St (fst x) p old new (snd x) in (ks, tr).
  Definition emptied (keep : bool) (x : books) : books :=
    if keep then (newest (fst x), give_back (tl (fst x)) (snd x)) else ([], give_back (fst x) (snd x)).

  Definition ledger : Allocator (W * books) :=
    mkAllocator _ (fun s => al_mem (ba su) (fst s)) (fun s m => (al_set_mem (ba su) (fst s) m, snd s))
      (fun l => stamped (al_allocate (ba su) l) (fun x => snd (sells min St l x)))
      (fun p l => stamped (al_deallocate (ba su) p l) (fun x => x))
      (fun p old new => stamped (al_grow (ba su) p old new) (resized p old new))
      (fun p old new => stamped (al_shrink (ba su) p old new) (resized p old new)).
  Definition l_reset (keep : bool) : M (W * books) unit := stamped (do_reset su keep) (emptied keep).

  (** ** It does the same *)
  Definition closed (s : W * books) (w : W) : Prop := w = fst s.
  Lemma stamped_like {B} (m : M W B) f : like closed (stamped m f) m.
  Proof. intros s w H. unfold closed in H. subst. unfold stamped. destruct (m (fst s)); eauto; eexists; split; reflexivity. Qed.
  Lemma ledger_alike : alike closed ledger (ba su).
  Proof.
    constructor; intros; try (apply stamped_like); intros w1 w2 H; unfold closed in H; subst; unfold mload, mstore, mfill, mcopy, mwrite; cbn.
    - destruct (load _ _ _); [eexists; split; reflexivity|exact I].
    - eexists; split; reflexivity.
    - eexists; split; reflexivity.
    - destruct (_ || _); [eexists; split; reflexivity|exact I].
    - eexists; split; reflexivity.
  Qed.

  (** ** The books are right *)
  Hypothesis Hok : setup_ok su.

  Definition balanced (s : W * books) (us : list ublock) : Prop :=
    exists cs, srep su cs (mkCst (map Some us) (fst s)) /\ snd s = (bumps cs, bw_trace (snd (fst s))).

  Lemma balanced_own s us : balanced s us -> sown su (fst s) us.
  Proof. intros (cs & (R & H & Hm) & _). cbn [c_tab c_w] in *. rewrite live_somes in R. exists cs. auto. Qed.

  Lemma balanced_perm s us us' : balanced s us -> Permutation us us' -> balanced s us'.
  Proof.
    intros (cs & (R & H & Hm) & P) HP. exists cs. split; [|exact P]. split; [|split; assumption]. cbn [c_tab c_w] in *. rewrite live_somes in *.
    apply (arep_perm _ _ _ _ _ _ _ us _ HP R).
  Qed.

  Lemma alloc_balanced s us l r s' : balanced s us -> req_ok (su_smax su) l -> al_allocate ledger l s = ORet r s' ->
    sells min St l (snd s) = (r, snd s') /\ balanced s' (match r with Some b => us ++ [mkU (b_ptr b) (b_len b) l] | None => us end).
  Proof.
    intros (cs & R & P) Hl E. cbn [ledger al_allocate] in E. unfold stamped in E.
    destruct (al_allocate (ba su) l (fst s)) as [r0 w'| | |] eqn:E0; try discriminate. injection E as -> <-. cbn [fst snd].
    assert (Es : do_step su (OpAlloc l false) (mkCst (map Some us) (fst s)) =
      ORet r (mkCst (map Some (match r with Some b => us ++ [mkU (b_ptr b) (b_len b) l] | None => us end)) w')).
    { rewrite step_eq. cbn [step_at c_tab]. unfold req_ok in Hl. rewrite Hl. unfold call. cbn [c_w c_tab]. rewrite E0. destruct r as [b|]; cbn [on_ok]; [rewrite map_app|]; reflexivity. }
    destruct (as_step su Hok _ _ _ _ _ _ R Es) as (cs' & R' & P'). cbn [c_tab c_w] in *. rewrite live_somes in R'.
    assert (Ea : sells min St l (snd s) = (r, (bumps cs', bw_trace (snd w')))).
    { unfold sells. rewrite P. cbn [fst snd]. cbn [paper_step p_chunks p_calls p_tab] in P'. unfold req_ok in Hl. rewrite Hl in P'.
      destruct (take _ _ _ _ _) as [[[a|] ks] tr]; inversion P'; subst; reflexivity. }
    rewrite Ea. cbn [snd]. split; [reflexivity|]. exists cs'. split; [exact R'|reflexivity].
  Qed.

  Lemma resize_balanced s us u old new r s' : balanced s (u :: us) -> fits old u -> req_ok (su_smax su) new ->
    al_grow ledger (u_ptr u) old new s = ORet r s' ->
    moves min St (fst (snd s)) (u_ptr u) old new (snd (snd s)) = (r, fst (snd s'), snd (snd s')) /\
    balanced s' (match r with Some b => mkU (b_ptr b) (b_len b) new :: us | None => u :: us end).
  Proof.
    intros (cs & R & P) Hf Hl E. apply fitsb_spec in Hf. unfold req_ok in Hl. cbn [ledger al_grow] in E. unfold stamped in E.
    destruct (al_grow (ba su) (u_ptr u) old new (fst s)) as [r0 w'| | |] eqn:E0; try discriminate. injection E as -> <-. cbn [fst snd].
    assert (Es : do_step su (OpResize 0 old new) (mkCst (map Some (u :: us)) (fst s)) =
      ORet r (mkCst (map Some (match r with Some b => mkU (b_ptr b) (b_len b) new :: us | None => u :: us end)) w')).
    { rewrite step_eq. cbn [step_at map c_tab]. change (get 0 (Some u :: map Some us)) with (Some u). cbv beta iota. rewrite Hf, Hl. cbn [andb].
      assert (Eg : (if l_size old <=? l_size new then al_grow (ba su) (u_ptr u) old new else al_shrink (ba su) (u_ptr u) old new) (fst s) = ORet r w')
        by (destruct (_ <=? _); exact E0).
      unfold call. cbn [c_w c_tab]. rewrite Eg. destruct r as [b|]; reflexivity. }
    destruct (as_step su Hok _ _ _ _ _ _ R Es) as (cs' & R' & P'). cbn [c_tab c_w] in *. rewrite live_somes in R'.
    cbn [paper_step p_chunks p_calls p_tab map] in P'. change (get 0 (Some u :: map Some us)) with (Some u) in P'. cbv beta iota in P'. rewrite Hf, Hl in P'. cbn [andb] in P'.
    assert (Em : moves min St (fst (snd s)) (u_ptr u) old new (snd (snd s)) = (r, bumps cs', bw_trace (snd w'))).
    { rewrite P. cbn [fst snd]. destruct (moves _ _ _ _ _ _ _) as [[[b|] ks] tr]; inversion P'; subst; reflexivity. }
    unfold resized. rewrite Em. cbn [fst snd]. split; [reflexivity|]. exists cs'. split; [exact R'|reflexivity].
  Qed.

  Lemma dealloc_balanced s us u l s' : balanced s (u :: us) -> fits l u -> al_deallocate ledger (u_ptr u) l s = ORet tt s' ->
    snd s' = snd s /\ balanced s' us.
  Proof.
    intros (cs & R & P) Hf E. apply fitsb_spec in Hf. cbn [ledger al_deallocate] in E. unfold stamped in E.
    destruct (al_deallocate (ba su) (u_ptr u) l (fst s)) as [[] w'| | |] eqn:E0; try discriminate. injection E as <-. cbn [fst snd].
    assert (Es : do_step su (OpDealloc 0 l) (mkCst (map Some (u :: us)) (fst s)) = ORet None (mkCst (None :: map Some us) w')).
    { rewrite step_eq. cbn [step_at map c_tab]. change (get 0 (Some u :: map Some us)) with (Some u). cbv beta iota. rewrite Hf. unfold bind, call. cbn [c_w c_tab]. rewrite E0. reflexivity. }
    destruct (as_step su Hok _ _ _ _ _ _ R Es) as (cs' & R' & P'). cbn [c_tab c_w live flat_map app] in *.
    change (live (None :: map Some us)) with (live (map Some us)) in R'. rewrite live_somes in R'.
    cbn [paper_step p_chunks p_calls p_tab map] in P'. change (get 0 (Some u :: map Some us)) with (Some u) in P'. cbv beta iota in P'. rewrite Hf in P'.
    split; [reflexivity|]. exists cs'. split; [exact R'|]. cbn [fst snd]. rewrite P. inversion P'; reflexivity.
  Qed.

  Lemma reset_balanced keep s us : balanced s us -> wp (l_reset keep) s (fun _ s' => balanced s' []).
  Proof.
    intros Hr. pose proof (ba_reset su Hok keep (fst s) us (balanced_own _ _ Hr)) as H. unfold wp, l_reset, stamped in *.
    destruct (do_reset su keep (fst s)) as [[] w'|w'| |] eqn:E; try contradiction. clear H.
    destruct Hr as (cs & R & P).
    assert (Es : do_step su (OpReset keep) (mkCst (map Some us) (fst s)) = ORet None (mkCst (map (fun _ => None) (map Some us)) w')).
    { rewrite step_eq. cbn [step_at c_tab]. unfold bind, call. cbn [c_w c_tab]. rewrite E. reflexivity. }
    destruct (as_step su Hok _ _ _ _ _ _ R Es) as (cs' & R' & P'). cbn [c_tab c_w] in *. rewrite live_none in R'.
    exists cs'. cbn [fst snd]. split; [exact R'|]. rewrite P. unfold emptied. cbn [fst snd].
    cbn [paper_step p_chunks p_calls p_tab] in P'. destruct keep; [destruct (bumps cs) as [|k older]|]; inversion P'; reflexivity.
  Qed.

  Lemma wp_stamped {B} (m : M W B) f s (Q : B -> W -> Prop) : wp m (fst s) Q -> wp (stamped m f) s (fun b s' => Q b (fst s') /\ stamped m f s = ORet b s').
  Proof. unfold wp, stamped. destruct (m (fst s)); auto. Qed.

  Lemma balanced_contract : contract (su_amax su) (su_smax su) ledger balanced.
  Proof.
    pose proof (ba_contract su Hok) as C.
    constructor; cbn [ledger al_mem al_set_mem].
    - intros s us us'. apply balanced_perm.
    - intros s us H. apply (ct_wf _ _ _ _ C _ _ (balanced_own _ _ H)).
    - intros s m. apply (ct_mem _ _ _ _ C).
    - intros s us m (cs & (R & H & Hm) & P) Hw. exists cs. cbn [fst snd]. cbn [c_tab c_w] in *. rewrite live_somes in *.
      split; [|exact P]. split; [|split; assumption]. cbn [c_tab c_w]. rewrite live_somes.
      apply (arep_write_us _ _ _ _ (su_ct su Hok) _ _ _ _ _ m R Hw).
    - intros s us l H Hl. eapply wp_mono; [apply (wp_stamped _ _ s _ (ct_allocate _ _ _ _ C _ _ l (balanced_own _ _ H) Hl))|].
      intros r s' ((S1 & S2) & E). destruct (alloc_balanced _ _ _ _ _ H Hl E) as [_ Hr].
      split; [exact S1|]. destruct r as [b|]; [|exact Hr]. split; [apply S2|]. eapply balanced_perm; [exact Hr|]. apply Permutation_sym, Permutation_cons_append.
    - intros s us u l H Hf. eapply wp_mono; [apply (wp_stamped _ _ s _ (ct_deallocate _ _ _ _ C _ _ u l (balanced_own _ _ H) Hf))|].
      intros [] s' ((S1 & S2) & E). split; [exact S1|]. apply (dealloc_balanced _ _ _ _ _ H Hf E).
    - intros s us u old new H Hf Hl Hle. eapply wp_mono; [apply (wp_stamped _ _ s _ (ct_grow _ _ _ _ C _ _ u old new (balanced_own _ _ H) Hf Hl Hle))|].
      intros r s' ((S1 & S2) & E). destruct (resize_balanced _ _ _ _ _ _ _ H Hf Hl E) as [_ Hr].
      split; [exact S1|]. destruct r as [b|]; [|split; [apply S2|exact Hr]]. destruct S2 as (G & _ & K). auto.
    - intros s us u old new H Hf Hl Hle. eapply wp_mono; [apply (wp_stamped _ _ s _ (ct_shrink _ _ _ _ C _ _ u old new (balanced_own _ _ H) Hf Hl Hle))|].
      intros r s' ((S1 & S2) & E). destruct (resize_balanced _ _ _ _ _ _ _ H Hf Hl E) as [_ Hr].
      split; [exact S1|]. destruct r as [b|]; [|split; [apply S2|exact Hr]]. destruct S2 as (G & _ & K). auto.
  Qed.

  (** ** An operation on the shared allocator itself *)
  Lemma own_mid s us tab rest h u : balanced s us -> Permutation us (live tab ++ rest) -> get h tab = Some u ->
    exists us', balanced s (u :: us').
  Proof.
    intros B P G. destruct (get_split _ _ _ G) as (t1 & t2 & -> & _). exists (live (t1 ++ t2) ++ rest).
    apply (balanced_perm _ _ _ B). rewrite P. rewrite (live_perm_mid t1 t2 u). reflexivity.
  Qed.

  Lemma shared_exact o tab s us rest r c : balanced s us -> Permutation us (live tab ++ rest) ->
    step (su_smax su) ledger l_reset o (mkCst tab s) = ORet r c ->
    paper_step min (su_smax su) St o (mkPaper (fst (snd s)) tab (snd (snd s))) =
      (r, mkPaper (fst (snd (c_w c))) (c_tab c) (snd (snd (c_w c)))).
  Proof.
    intros B HP E. unfold step in E. cbn [c_tab] in E.
    assert (Hskip : forall r c, @skip (W * books) (mkCst tab s) = ORet r c -> (None, mkPaper (fst (snd s)) tab (snd (snd s))) =
      (r, mkPaper (fst (snd (c_w c))) (c_tab c) (snd (snd (c_w c))))) by (intros r0 c0 X; inversion X; reflexivity).
    assert (Hz : forall l r1 s1, req_ok (su_smax su) l -> al_allocate_zeroed ledger l s = ORet r1 s1 -> sells min St l (snd s) = (r1, snd s1)).
    { intros l r1 s1 Hl X. unfold al_allocate_zeroed, bind in X. destruct (al_allocate ledger l s) as [r0 s0| | |] eqn:E0; try discriminate.
      destruct (alloc_balanced _ _ _ _ _ B Hl E0) as [Es _]. rewrite Es. destruct r0 as [b|]; inversion X; reflexivity. }
    assert (Hs : forall l r1 (s1 : W * books) tk, tk = take min St (fst (snd s)) l (snd (snd s)) -> sells min St l (snd s) = (r1, snd s1) ->
      tk = (option_map b_ptr r1, fst (snd s1), snd (snd s1)) /\ forall b, r1 = Some b -> b = mkBlock (b_ptr b) (l_size l)).
    { intros l r1 s1 tk -> X. unfold sells in X. destruct (take _ _ _ _ _) as [[[a|] ks] tr]; inversion X; subst; (split; [reflexivity|]); intros b Hb; inversion Hb; reflexivity. }
    destruct o as [l z|h off bs|h l|h old new|h old new|keep]; cbn [step_at] in E; cbn [paper_step p_chunks p_calls p_tab].
    - destruct (req_okb (su_smax su) l) eqn:Hl; [|apply Hskip; exact E].
      unfold call in E. cbn [c_w c_tab] in E.
      destruct ((if z then al_allocate_zeroed ledger l else al_allocate ledger l) s) as [r0 s0| | |] eqn:E0; try discriminate. injection E as -> <-.
      assert (Es : sells min St l (snd s) = (r, snd s0)).
      { destruct z; [apply Hz; assumption|]. destruct (alloc_balanced _ _ _ _ _ B Hl E0) as [Es _]. exact Es. }
      destruct (Hs l r s0 _ eq_refl Es) as [Et Eb]. rewrite Et. destruct r as [b|]; cbn [option_map c_tab c_w on_ok].
      + rewrite (Eb b eq_refl). reflexivity.
      + reflexivity.
    - destruct (get h tab) as [u|]; [|apply Hskip; exact E]. destruct (_ && _); [|apply Hskip; exact E]. injection E as <- <-. reflexivity.
    - destruct (get h tab) as [u|] eqn:G; [|apply Hskip; exact E]. destruct (fitsb l u) eqn:Hf; [|apply Hskip; exact E].
      destruct (own_mid _ _ _ _ _ _ B HP G) as (us' & B'). unfold bind, call in E. cbn [c_w c_tab] in E.
      destruct (al_deallocate ledger (u_ptr u) l s) as [[] s0| | |] eqn:E0; try discriminate. injection E as <- <-. cbn [c_w c_tab].
      apply fitsb_spec in Hf. destruct (dealloc_balanced _ _ _ _ _ B' Hf E0) as [-> _]. reflexivity.
    - destruct (get h tab) as [u|] eqn:G; [|apply Hskip; exact E]. destruct (fitsb old u && req_okb (su_smax su) new) eqn:Hc; [|apply Hskip; exact E].
      apply andb_true_iff in Hc. destruct Hc as [Hf Hn]. apply fitsb_spec in Hf.
      destruct (own_mid _ _ _ _ _ _ B HP G) as (us' & B'). unfold call in E. cbn [c_w c_tab] in E.
      assert (Eg : (if l_size old <=? l_size new then al_grow ledger (u_ptr u) old new else al_shrink ledger (u_ptr u) old new) s = al_grow ledger (u_ptr u) old new s)
        by (destruct (_ <=? _); reflexivity).
      rewrite Eg in E. destruct (al_grow ledger (u_ptr u) old new s) as [r0 s0| | |] eqn:E0; try discriminate. injection E as -> <-. cbn [c_w c_tab].
      destruct (resize_balanced _ _ _ _ _ _ _ B' Hf Hn E0) as [-> _]. destruct r as [b|]; reflexivity.
    - destruct (get h tab) as [u|] eqn:G; [|apply Hskip; exact E].
      destruct (fitsb old u && req_okb (su_smax su) new && (l_size old <=? l_size new)) eqn:Hc; [|apply Hskip; exact E].
      apply andb_true_iff in Hc. destruct Hc as [Hc Hle]. apply andb_true_iff in Hc. destruct Hc as [Hf Hn].
      unfold call, al_grow_zeroed, bind at 1 in E. cbn [c_w c_tab] in E.
      destruct (al_allocate_zeroed ledger new s) as [r1 s1| | |] eqn:E0; try discriminate.
      pose proof (Hz _ _ _ Hn E0) as Es. destruct (Hs new r1 s1 _ eq_refl Es) as [Et Eb]. rewrite Et. destruct r1 as [b|]; cbn [option_map].
      + unfold bind, mcopy in E. destruct (_ || _); try discriminate. cbn [ledger al_deallocate al_set_mem] in E. unfold stamped in E. cbn [fst snd] in E.
        match type of E with match (match (match ?X with _ => _ end) with _ => _ end) with _ => _ end = _ => destruct X as [v w'| | |]; try discriminate end.
        cbn [ret] in E. injection E as <- <-. cbn [c_w c_tab on_ok fst snd]. rewrite (Eb b eq_refl). reflexivity.
      + cbn [ret] in E. injection E as <- <-. reflexivity.
    - unfold bind, call in E. cbn [c_w c_tab] in E. unfold l_reset, stamped in E.
      destruct (do_reset su keep (fst s)) as [[] w'| | |]; try discriminate. cbn [ret] in E. injection E as <- <-. cbn [c_w c_tab fst snd].
      destruct keep; [destruct (fst (snd s)) as [|k older] eqn:Ek|]; unfold emptied; rewrite ?Ek; reflexivity.
  Qed.
End Books.
