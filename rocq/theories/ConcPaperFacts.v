(** Threads that share a [SyncBlinkAlloc] do what ConcPaper.v says (C89). *)
From Coq Require Import Permutation.
From Verif Require Import Base BaseFacts Alloc AllocFacts Arena ArenaFacts ArenaInv ArenaOps
  BlinkAlloc BlinkFacts History HistoryFacts Setup SetupFacts SetupOps SetupOps2 Conc ConcFacts ConcSteps
  Paper PaperFacts ProxyPaper ProxyPaperFacts ConcPaper.

Lemma map_set_nth {T U} (f : T -> U) t x l : map f (set_nth t x l) = set_nth t (f x) (map f l).
Proof. revert t. induction l as [|y l IH]; intros [|t]; cbn; auto. rewrite IH. reflexivity. Qed.

(** What the moves to come rely on: who looks for a block wants one, and the cursor a thread has
    seen is not beyond the newest. *)
(** A resize that could have grown in place has seen another value of the cursor. *)
Definition looked (ks : list pchunk) (j : job) : Prop :=
  match j, ks with
  | JResize _ u old new, k :: _ =>
      l_align new <= l_align old -> exists v, p_at k + HDR <= v <= p_free k /\ v <> u_ptr u + l_size old
  | _, _ => True
  end.
Definition pace (ks : list pchunk) (p : pc) : Prop :=
  match p with
  | Load j _ => shrinks (job_op j) = false /\ looked ks j
  | Cas j _ cur => shrinks (job_op j) = false /\ looked ks j /\ match ks with [] => True | k :: _ => cur <= p_free k end
  | _ => True
  end.
Definition paced (ks : list pchunk) (thr : list pc) : Prop := Forall (pace ks) thr.

Lemma paced_at ks thr t p : paced ks thr -> nth_error thr t = Some p -> pace ks p.
Proof. intros H E. unfold paced in H. rewrite Forall_forall in H. apply H. apply (nth_error_In _ _ E). Qed.
Lemma paced_set ks thr t p : paced ks thr -> pace ks p -> paced ks (set_nth t p thr).
Proof.
  unfold paced. revert t. induction thr as [|x thr IH]; intros [|t] H Hp; cbn; auto; inversion H; subst; constructor; auto.
Qed.
Lemma looked_more k k' older j : p_at k = p_at k' -> p_free k <= p_free k' -> looked (k :: older) j -> looked (k' :: older) j.
Proof.
  intros Ha Hf. destruct j as [l|h u old new|h u l]; cbn; auto. intros H La. destruct (H La) as (v & B & N). exists v. split; [lia|exact N].
Qed.
Lemma looked_moves k older tab j : match j with JResize h u _ _ => get h tab = Some u | _ => True end ->
  looked (k :: older) j -> must_grow (k :: older) tab (job_op j) = false.
Proof.
  destruct j as [l|h u old new|h u l]; try reflexivity. intros G H. cbn [job_op must_grow looked] in *. rewrite G.
  destruct (Z.leb_spec (l_align new) (l_align old)) as [La|La]; [|reflexivity]. destruct (H La) as (v & B & N). cbn [andb].
  destruct (Z.eqb_spec (p_free k) (p_at k + HDR)) as [E|E]; [|reflexivity]. cbn [andb]. unfold room_at.
  replace (p_free k =? u_ptr u + l_size old) with false by lia. reflexivity.
Qed.
Lemma no_place_to_grow k older tab h u old new : get h tab = Some u -> p_end k < u_ptr u + l_size new ->
  must_grow (k :: older) tab (OpResize h old new) = false.
Proof.
  intros G H. cbn [must_grow]. rewrite G. unfold room_at. replace (u_ptr u + l_size new <=? p_end k) with false by lia.
  rewrite andb_false_r. apply andb_false_r.
Qed.
Lemma paced_more k k' older thr : p_at k = p_at k' -> p_free k <= p_free k' -> paced (k :: older) thr -> paced (k' :: older) thr.
Proof.
  intros Ha Hk. unfold paced. apply Forall_impl. intros p. destruct p; auto.
  - intros [H1 H2]. split; [exact H1|apply (looked_more k); assumption].
  - intros (H1 & H2 & H3). split; [exact H1|]. split; [apply (looked_more k); assumption|lia].
Qed.
(** Nobody is looking. *)
Lemma paced_none ks ks' thr : (forall t p, nth_error thr t = Some p -> reading p = true -> False) -> paced ks thr -> paced ks' thr.
Proof.
  intros H Hp. unfold paced. rewrite Forall_forall. intros p Hin. destruct (In_nth_error _ _ Hin) as [t Ht].
  destruct p; try exact I; exfalso; apply (H t _ Ht); reflexivity.
Qed.

(** The lock. *)
Lemma reader_in k thr t p : lock_ok k thr -> nth_error thr t = Some p -> reading p = true -> lk_writer k = None.
Proof.
  intros (L1 & L2 & L3) Hp Hr. destruct (lk_writer k) as [t'|] eqn:E; [|reflexivity].
  assert (In t (lk_readers k)) as Hin by (apply L1; eauto). rewrite L3 in Hin by discriminate. destruct Hin.
Qed.
Lemma no_alone k thr : lock_ok k thr -> lk_writer k = None -> existsb alone (map doing_of thr) = false.
Proof.
  intros (L1 & L2 & L3) Hw. destruct (existsb alone (map doing_of thr)) eqn:E; [|reflexivity].
  apply existsb_exists in E. destruct E as (d & Hin & Hd). apply in_map_iff in Hin. destruct Hin as (p & <- & Hin).
  destruct (In_nth_error _ _ Hin) as [t Ht].
  assert (lk_writer k = Some t) as X.
  { apply L2. exists p. split; [exact Ht|]. destruct p; try discriminate Hd; [exact Hd|].
    destruct next; [discriminate Hd|exact Hd]. }
  rewrite Hw in X. discriminate X.
Qed.
Lemma writer_alone k thr t p : lock_ok k thr -> nth_error thr t = Some p -> writing p = true ->
  (forall t' p', nth_error thr t' = Some p' -> reading p' = true -> False) /\
  (forall t' p', nth_error thr t' = Some p' -> writing p' = true -> t' = t).
Proof.
  intros (L1 & L2 & L3) Hp Hw. assert (lk_writer k = Some t) as X by (apply L2; eauto). split.
  - intros t' p' Hp' Hr. assert (In t' (lk_readers k)) as Hin by (apply L1; eauto).
    rewrite L3 in Hin by (rewrite X; discriminate). destruct Hin.
  - intros t' p' Hp' Hr. assert (lk_writer k = Some t') as Y by (apply L2; eauto). congruence.
Qed.
Lemma no_got k thr t j : lock_ok k thr -> nth_error thr t = Some (Slow j) -> existsb has_got (map doing_of thr) = false.
Proof.
  intros L Hp. destruct (writer_alone k thr t _ L Hp eq_refl) as [H1 H2].
  destruct (existsb has_got (map doing_of thr)) eqn:E; [|reflexivity].
  apply existsb_exists in E. destruct E as (d & Hin & Hd). apply in_map_iff in Hin. destruct Hin as (p & <- & Hin).
  destruct (In_nth_error _ _ Hin) as [t' Ht]. exfalso.
  assert (X : reading p = true \/ writing p = true).
  { destruct p; try discriminate Hd; cbn; [destruct wr; auto|]. destruct next; [discriminate Hd|]. destruct wr; auto. }
  destruct X as [X|X]; [apply (H1 _ _ Ht X)|]. pose proof (H2 _ _ Ht X). subst t'. rewrite Hp in Ht. injection Ht as <-. discriminate Hd.
Qed.

Lemma op_handle_job j : op_handle (job_op j) = job_handle j.
Proof. destruct j; reflexivity. Qed.
Lemma wants_job j : takes j -> wants (job_op j) = Some (job_layout j).
Proof. destruct j; cbn; [reflexivity|reflexivity|tauto]. Qed.

Lemma room_in_room c cs l :
  room_in (bumps (c :: cs)) l =
  if room (c_cur c) (c_end c) l
  then Some (round_up (c_cur c) (l_align l), bumps (set_cur c (round_up (c_cur c) (l_align l) + l_size l) :: cs)) else None.
Proof. reflexivity. Qed.
Lemma room_at_tip c cs p old new :
  room_at (bumps (c :: cs)) p old new =
  if (c_cur c =? p + l_size old) && (p + l_size new <=? c_end c)
  then Some (bumps (set_cur c (p + l_size new) :: cs)) else None.
Proof. reflexivity. Qed.

(** Less room. *)
Lemma room_less a b e l : a <= b -> 0 < l_align l -> room a e l = false -> room b e l = false.
Proof.
  intros Hab Hp. unfold room. intros H.
  pose proof (round_up_spec a (l_align l) Hp) as [A1 A2]. pose proof (round_up_spec b (l_align l) Hp) as [B1 B2].
  assert (round_up a (l_align l) <= round_up b (l_align l)).
  { unfold round_up in *. apply Z.mul_le_mono_nonneg_r; [lia|]. apply Z.div_le_mono; lia. }
  apply andb_false_iff in H. apply andb_false_iff. destruct H as [H|H]; [left|right]; lia.
Qed.
Lemma room_tip cur e p old new : cur >= p + old -> 0 <= old -> 0 < l_align new -> e < p + l_size new \/ USIZE_MAX < p + l_size new ->
  room cur e new = false.
Proof.
  intros Hc Ho Hp H. unfold room. pose proof (round_up_spec cur (l_align new) Hp) as [A1 A2].
  apply andb_false_iff. destruct H; [right|left]; lia.
Qed.

(** The moves that go with a step of the program. *)
Definition by_thread (t : nat) (m : cmove) : Prop :=
  match m with
  | MTake t' | MGrow t' | MStay t' | MFull t' | MFresh t' | MCopied t' | MReturn t' => t' = t
  | MCall _ _ | MReset _ => False
  end.
Definition moves_of (c : choice) (m : cmove) : Prop :=
  match c with
  | Start t o => MCall t o = m
  | Go t _ | Stale t _ => by_thread t m
  | Exclusive keep => MReset keep = m
  end.

Section Facts.
  Variable su : setup.
  Hypothesis Hok : setup_ok su.
  (** The blocks [ext] of the underlying allocator belong to others (ConcFacts.v). *)
  Variable sole : bool.
  Variable ext : list ublock.
  Variable m0 : mem.
  Notation amax := (su_amax su).
  Notation bown := (base_own (su_amax su) (su_bmax su)).
  Notation brep := (arep (su_amax su) (bot su) (base_own (su_amax su) (su_bmax su))).
  Notation A := (bot su).
  Notation dbg := (su_dbg su).
  Notation ctx := (su_ct su Hok).
  Notation pstep := (cp_step (su_min su) (su_smax su) (su_strat su)).
  Notation prun := (cp_run (su_min su) (su_smax su) (su_strat su)).

  Definition page (cs : list chunk) (tab : list (option ublock)) (w : bworld) (thr : list pc) : cpaper :=
    mkCP (bumps cs) tab (bw_trace w) (map doing_of thr).

  Definition advance (P : cmove -> Prop) (q : cpaper) (es : list event) (g' : gst) : Prop :=
    exists ms q', prun ms q = Some (es, q') /\ Forall P ms /\ (length ms <= 1)%nat /\ cshows g' q' /\ paced (cp_chunks q') (g_thr g').

  Lemma own_trace cs ar w us : brep ext cs ar w us -> Permutation (map c_u cs ++ ext) (outstanding (bw_trace w)).
  Proof. intros R. apply (ar_own _ _ _ _ _ _ _ _ R). Qed.

  Lemma xcaps_tl cs ar w us : brep ext cs ar w us -> 0 <= sum_caps (tl cs).
  Proof.
    intros R. destruct cs as [|c cs]; cbn [tl]; [cbn; lia|].
    apply sum_caps_len. rewrite Forall_forall. intros c' Hc'.
    destruct (arep_chunk_ok _ _ _ _ (su_ct su Hok) _ _ _ _ _ c' R (or_intror Hc')) as (_ & _ & _ & _ & L & _).
    exact L.
  Qed.

  Lemma xfresh_none cs ar w us l tr tr' :
    brep ext cs ar w us -> req_ok (su_smax su) l ->
    @upstream (su_strat su) (slow_req cs (su_min su) l) block None tr tr' ->
    fresh (su_min su) (su_strat su) (bumps cs) l tr = (None, bumps cs, tr').
  Proof.
    intros R Hl U. pose proof (su_min_ok su Hok) as Hmin.
    rewrite (chunk_size_eq cs (su_min su) l (su_smax su) ltac:(lia) (xcaps_tl _ _ _ _ R) Hl) in U.
    unfold fresh. destruct (chunk_size (su_min su) (bumps cs) l) as [n|]; cbn [option_map upstream] in U.
    - destruct U as (ans & -> & [X _] & Ea). rewrite (X eq_refl) in *. rewrite <- Ea. reflexivity.
    - destruct U as [_ ->]. reflexivity.
  Qed.

  Lemma xfresh_some cs c ar w us l tr b :
    brep ext (c :: cs) ar w us -> In (mku b l) us -> req_ok (su_smax su) l ->
    Permutation (map c_u cs ++ ext) (outstanding tr) ->
    upstream (su_strat su) (slow_req cs (su_min su) l) (Some b) tr (bw_trace w) ->
    c_cur c = b_ptr b + l_size l -> c_base c <= b_ptr b <= c_base c + (l_align l - 1) ->
    fresh (su_min su) (su_strat su) (bumps cs) l tr = (Some (b_ptr b), bumps (c :: cs), bw_trace w).
  Proof.
    intros R Hb Hl Hh U Ec Bb. pose proof (su_min_ok su Hok) as Hmin.
    pose proof (ar_ok _ _ _ _ _ _ _ _ R) as Ho. rewrite Forall_forall in Ho.
    destruct (Ho _ Hb) as ((_ & Ha & _) & _). change (b_ptr b mod l_align l = 0) in Ha.
    destruct (req_ok_facts _ _ Hl) as (k & _ & _ & Hpos & _ & _).
    assert (Eb : b_ptr b = round_up (c_base c) (l_align l)).
    { destruct (round_up_spec (c_base c) (l_align l) Hpos) as [B1 B2].
      set (r := round_up (c_base c) (l_align l)) in *.
      apply Z.mod_divide in Ha; [|lia]. apply Z.mod_divide in B2; [|lia].
      destruct Ha as [x Hx]. destruct B2 as [y Hy].
      assert (x < y + 1) by (apply (Z.mul_lt_mono_pos_r (l_align l)); lia).
      assert (y < x + 1) by (apply (Z.mul_lt_mono_pos_r (l_align l)); lia).
      assert (x = y) by lia. subst x. lia. }
    pose proof (own_trace _ _ _ _ R) as P2.
    rewrite (chunk_size_eq cs (su_min su) l (su_smax su) ltac:(lia)) in U; [| |exact Hl].
    2: { destruct cs as [|c2 cs]; cbn [tl]; [cbn; lia|].
         apply sum_caps_len. rewrite Forall_forall. intros c' Hc'.
         destruct (arep_chunk_ok _ _ _ _ (su_ct su Hok) _ _ _ _ _ c' R (or_intror (or_intror Hc')))
           as (_ & _ & _ & _ & L & _). exact L. }
    unfold fresh. destruct (chunk_size (su_min su) (bumps cs) l) as [n|]; cbn [option_map upstream] in U.
    2: { destruct U as [X _]. discriminate X. }
    destruct U as (ans & Et & [_ X] & Ea). destruct ans as [blk|]; [|discriminate (X eq_refl)].
    rewrite <- Ea. rewrite Et in *. cbn [outstanding] in P2. rewrite <- Hh in P2. cbn [map app] in P2.
    match type of P2 with Permutation _ (?v :: _) => assert (Hc : c_u c = v) end.
    { match type of P2 with Permutation (_ :: ?y) (?v :: _) =>
        assert (Pe : Permutation (y ++ [c_u c]) (y ++ [v])) by (rewrite <- !Permutation_cons_append; exact P2) end.
      apply Permutation_app_inv_l in Pe. apply Permutation_length_1 in Pe. exact Pe. }
    rewrite least_multiple_eq.
    assert (E1 : c_ptr c = b_ptr blk) by (unfold c_ptr; rewrite Hc; reflexivity).
    assert (E2 : u_len (c_u c) = b_len blk) by (rewrite Hc; reflexivity).
    change (b_ptr blk + 32) with (b_ptr blk + HDR). rewrite <- E1. fold (c_base c). rewrite <- Eb, <- Ec.
    cbn [bumps map]. unfold bump at 1. rewrite E2, E1. reflexivity.
  Qed.

  Lemma xreset_trace cs ar w us keep : brep ext cs ar w us ->
    wp (do_reset su keep) (ar, w) (fun _ aw' =>
      bw_trace (snd aw') = give_back (bumps (if keep then tl cs else cs)) (bw_trace w)).
  Proof.
    intros R. pose proof (ar_own _ _ _ _ _ _ _ _ R) as Ho.
    destruct keep; unfold do_reset, blink_reset, blink_reset_final, arena_reset; apply wp_with_aw; cbn [fst snd];
      rewrite (ar_head _ _ _ _ _ _ _ _ R).
    - destruct cs as [|c cs']; cbn [head_ptr tl]; [apply wp_ret; reflexivity|].
      apply wp_bind.
      eapply wp_mono; [apply (chunk_reset_ok amax (su_bmax su) (bot su) bown (su_ct su Hok) _ _ _ _ _ _ R)|].
      intros prev w1 (-> & Q1 & Hch & R1 & _). apply wp_bind.
      pose proof (ar_own _ _ _ _ _ _ _ _ R1) as Ho1. cbn [map app] in Ho1.
      eapply wp_mono; [apply (free_chain_trace su Hok cs' (ar_depth ar) w1 (ext ++ [c_u c]) Hch)|].
      + apply (ct_perm _ _ _ _ (su_ct su Hok) _ _ _ Ho1). cbn [c_u set_cur]. rewrite app_assoc. apply Permutation_cons_append.
      + rewrite (ar_count _ _ _ _ _ _ _ _ R). cbn. lia.
      + intros ? w2 H2. apply wp_ret. cbn [fst snd]. rewrite H2, (quiet_trace su _ _ Q1). reflexivity.
    - apply wp_bind.
      eapply wp_mono; [apply (free_chain_trace su Hok cs (ar_depth ar) w ext)|].
      + apply (ar_chain _ _ _ _ _ _ _ _ R).
      + exact Ho.
      + rewrite (ar_count _ _ _ _ _ _ _ _ R). lia.
      + intros ? w2 H2. apply wp_ret. exact H2.
  Qed.

  Lemma arep_headed cs ar w us : brep ext cs ar w us -> headed (bw_mem w) (ar_root ar) (bumps cs).
  Proof.
    intros R. rewrite (ar_head _ _ _ _ _ _ _ _ R). apply headed_chain; [apply (ar_chain _ _ _ _ _ _ _ _ R)|].
    pose proof (ar_own _ _ _ _ _ _ _ _ R) as Ho. destruct (ct_wf _ _ _ _ ctx _ _ Ho) as [Hwf _].
    apply Forall_app in Hwf. destruct Hwf as [Hwf _]. apply (above_own _ amax Hwf).
  Qed.

  Lemma xpage_eq cs g s q : xinvx su sole ext m0 cs g s -> cshows g q -> q = page cs (g_tab g) (snd (g_aw g)) (g_thr g).
  Proof.
    intros (R & _) (H1 & H2 & H3 & H4). pose proof (arep_headed _ _ _ _ R) as H.
    pose proof (headed_unique _ _ _ _ H1 H) as E. unfold page. rewrite H2, H3, H4, <- E. destruct q; reflexivity.
  Qed.

  (** The thread makes progress that does not show. *)
  Lemma quiet_move P cs tab thr (k k' : lock) ar w us t p p' :
    brep ext cs ar w us -> paced (bumps cs) thr -> nth_error thr t = Some p -> doing_of p' = doing_of p -> pace (bumps cs) p' ->
    advance P (page cs tab w thr) [] (mkG tab (set_nth t p' thr) k' (ar, w)).
  Proof.
    intros R Hpa Hp E Hp'. exists [], (page cs tab w thr). split; [reflexivity|]. split; [constructor|]. split; [cbn; lia|]. split.
    - split; [apply (arep_headed _ _ _ _ R)|]. split; [reflexivity|]. split; [reflexivity|]. cbn [g_thr page cp_thr].
      rewrite map_set_nth, E. apply set_nth_same. rewrite nth_error_map, Hp. reflexivity.
    - cbn [g_thr page cp_chunks]. apply paced_set; assumption.
  Qed.
  Lemma no_move P cs tab thr k ar w us :
    brep ext cs ar w us -> paced (bumps cs) thr -> advance P (page cs tab w thr) [] (mkG tab thr k (ar, w)).
  Proof.
    intros R Hpa. exists [], (page cs tab w thr). split; [reflexivity|]. split; [constructor|]. split; [cbn; lia|]. split; [|exact Hpa].
    split; [apply (arep_headed _ _ _ _ R)|]. auto.
  Qed.
  (** A move on paper. *)
  Lemma one_move (P : cmove -> Prop) m (HP : P m) q es cs tab thr k ar w us :
    brep ext cs ar w us -> pstep m q = Some (es, page cs tab w thr) -> paced (bumps cs) thr ->
    advance P q es (mkG tab thr k (ar, w)).
  Proof.
    intros R E Hpa. exists [m], (page cs tab w thr). cbn [cp_run]. rewrite E, app_nil_r. split; [reflexivity|]. split; [constructor; [exact HP|constructor]|]. split; [cbn; lia|].
    split; [|exact Hpa]. split; [apply (arep_headed _ _ _ _ R)|]. auto.
  Qed.

  Lemma page_at cs tab w thr t p : nth_error thr t = Some p -> nth_error (cp_thr (page cs tab w thr)) t = Some (doing_of p).
  Proof. intros H. cbn [page cp_thr]. rewrite nth_error_map, H. reflexivity. Qed.

  Lemma done_page cs tab w thr t j a r :
    done_with t (job_op j) a r (page cs tab w thr) =
    ([Lin t (job_op j) r], page cs (fin_tab j r tab) w (set_nth t (Unlock a None (fin_handle j r tab)) thr)).
  Proof. unfold done_with, page, set_thr. destruct j, r; cbn; rewrite map_set_nth; reflexivity. Qed.

  Lemma full_move cs tab thr k k' ar w us t p j wr h :
    brep ext cs ar w us -> paced (bumps cs) thr -> lock_ok k thr -> lk_writer k = None ->
    nth_error thr t = Some p -> doing_of p = DAsked (job_op j) -> takes j -> shrinks (job_op j) = false ->
    must_grow (bumps cs) tab (job_op j) = false ->
    match cs with [] => True | c :: _ => room (c_cur c) (c_end c) (job_layout j) = false end ->
    advance (by_thread t) (page cs tab w thr) [] (mkG tab (set_nth t (Unlock wr (Some j) h) thr) k' (ar, w)).
  Proof.
    intros R Hpa L Hw Hp Ed Tj Hs Hmg Hr.
    apply (one_move (by_thread t) (MFull t) eq_refl _ _ cs tab _ _ _ _ us R); [|apply paced_set; [exact Hpa|exact I]].
    cbn [cp_step]. rewrite (page_at _ _ _ _ _ _ Hp), Ed, Hs. cbn [orb]. cbn [page cp_thr cp_chunks cp_tab].
    rewrite Hmg, (no_alone k thr L Hw), (wants_job j Tj). cbn [orb].
    assert (Er : room_in (bumps cs) (job_layout j) = None).
    { destruct cs as [|c cs]; [reflexivity|]. rewrite room_in_room, Hr. reflexivity. }
    unfold set_thr, page. cbn [cp_chunks cp_tab cp_calls cp_thr]. rewrite map_set_nth, Er. reflexivity.
  Qed.

  Ltac start C Hp := pose proof C as (R & Hh & Hm & Ha & Hlk & Hpc & _); cbn [g_tab g_thr g_lock g_aw fst snd] in *;
    pose proof (Hpc _ _ Hp) as Hj; cbn [ConcFacts.pc_ok] in Hj.

  Notation goal P q := (fun es g' => advance P q es g').

  Lemma enter_exact cs tab thr k ar w s t j :
    xinvx su sole ext m0 cs (mkG tab thr k (ar, w)) s -> paced (bumps cs) thr -> nth_error thr t = Some (WantRead j) -> lk_writer k = None ->
    wp (enter t j (ar_root ar)) (mkG tab thr (with_reader t k) (ar, w)) (goal (by_thread t) (page cs tab w thr)).
  Proof.
    intros C Hpa Hp Hw. start C Hp. pose proof (no_alone _ _ Hlk Hw) as Hal. pose proof (page_at cs tab w _ _ _ Hp) as Hd.
    cbn [doing_of] in Hd.
    unfold enter. rewrite (ar_head _ _ _ _ _ _ _ _ R). destruct cs as [|c cs0]; cbn [head_ptr].
    - destruct j as [l|h u old new|h u l].
      + apply wp_become, wp_ret. cbn [g_tab g_thr g_lock g_aw]. apply (full_move [] tab thr k _ ar w _ t (WantRead (JAlloc l)) _ _ _ R Hpa Hlk Hw Hp); cbn; auto.
      + exfalso. cbn in Hj. destruct Hj as (G & _). pose proof (ar_placed _ _ _ _ _ _ _ _ R) as P. unfold placed in P. rewrite Forall_forall in P.
        destruct (P u) as (c & [] & _). apply in_or_app. left. apply live_in. eauto.
      + unfold wp. rewrite finish_eq. cbn [g_tab g_thr g_lock g_aw].
        apply (one_move (by_thread t) (MStay t) eq_refl _ _ [] _ _ _ _ _ _ R); [|apply paced_set; [exact Hpa|exact I]].
        cbn [cp_step]. rewrite Hd. cbn [job_op page cp_thr]. rewrite Hal. exact (f_equal Some (done_page [] tab w thr t (JDealloc h u l) false None)).
    - assert (Hload : takes j -> shrinks (job_op j) = false -> looked (bumps (c :: cs0)) j -> wp (become t (Load j (c_ptr c)) ;;; ret [])
                (mkG tab thr (with_reader t k) (ar, w)) (goal (by_thread t) (page (c :: cs0) tab w thr))).
      { intros Tj Hs Hlo. apply wp_become, wp_ret. apply (quiet_move _ (c :: cs0) tab thr k _ ar w _ t (WantRead j) _ R Hpa Hp); [reflexivity|exact (conj Hs Hlo)]. }
      destruct j as [l|h u old new|h u l]; [apply Hload; [exact I|reflexivity|exact I]| |].
      + destruct (Z.leb_spec (l_align new) (l_align old)) as [La|La].
        2: { apply Hload; [exact I|cbn; lia|]. intros La'. lia. }
        destruct (Z.leb_spec (l_size new) (l_size old)) as [Ls|Ls].
        * unfold wp. rewrite finish_eq. cbn [g_tab g_thr g_lock g_aw]. cbn in Hj. destruct Hj as (G & F & Hn).
          apply (one_move (by_thread t) (MStay t) eq_refl _ _ (c :: cs0) _ _ _ _ _ _ R); [|apply paced_set; [exact Hpa|exact I]].
          cbn [cp_step]. rewrite Hd. cbn [job_op]. cbn [page cp_thr cp_tab]. rewrite Hal, G.
          replace (shrinks (OpResize h old new)) with true by (cbn; lia).
          exact (f_equal Some (done_page (c :: cs0) tab w thr t (JResize h u old new) false (Some (mkBlock (u_ptr u) (l_size old))))).
        * apply wp_become, wp_ret. apply (quiet_move _ (c :: cs0) tab thr k _ ar w _ t _ _ R Hpa Hp); [reflexivity|exact I].
      + apply wp_become, wp_ret. apply (quiet_move _ (c :: cs0) tab thr k _ ar w _ t _ _ R Hpa Hp); [reflexivity|exact I].
  Qed.

  Lemma load_exact cs tab thr k ar w s t j r sp :
    xinvx su sole ext m0 cs (mkG tab thr k (ar, w)) s -> paced (bumps cs) thr -> nth_error thr t = Some (Load j r) ->
    wp (go su t (Load j r) sp) (mkG tab thr k (ar, w)) (goal (by_thread t) (page cs tab w thr)).
  Proof.
    intros C Hpa Hp. start C Hp. destruct Hj as (Hj & Tj & Hr).
    destruct (xheader_of su Hok ext _ _ _ _ _ R Hr) as (c & cs0 & -> & -> & L1 & L2 & P & B & _).
    cbn [go]. apply wp_on_w. eapply wp_mload; [exact L1|].
    apply wp_become, wp_ret. cbn [g_tab g_thr g_lock g_aw].
    apply (quiet_move _ (c :: cs0) tab thr k _ ar w _ t _ _ R Hpa Hp); [reflexivity|].
    destruct (paced_at _ _ _ _ Hpa Hp) as [P1 P2]. split; [exact P1|]. split; [exact P2|]. cbn. lia.
  Qed.

  (** The chunk is told to begin its free part at [n]. *)
  Lemma page_bump c cs0 tab w thr n :
    set_chunks (bumps (set_cur c n :: cs0)) (page (c :: cs0) tab w thr) = page (set_cur c n :: cs0) tab w thr.
  Proof. reflexivity. Qed.
  Lemma page_quiet cs tab w w' thr : quiet A w w' -> page cs tab w thr = page cs tab w' thr.
  Proof. intros Q. unfold page. rewrite (quiet_trace su _ _ Q). reflexivity. Qed.

  Lemma cas_exact cs tab thr k ar w s t j r cursor sp :
    xinvx su sole ext m0 cs (mkG tab thr k (ar, w)) s -> paced (bumps cs) thr -> nth_error thr t = Some (Cas j r cursor) ->
    wp (go su t (Cas j r cursor) sp) (mkG tab thr k (ar, w)) (goal (by_thread t) (page cs tab w thr)).
  Proof.
    intros C Hpa Hp. start C Hp. destruct Hj as (Hj & Tj & Hcur & Hr).
    destruct (xheader_of su Hok ext _ _ _ _ _ R Hr) as (c & cs0 & -> & -> & L1 & L2 & P & B & Hend).
    assert (Hl : req_ok (su_smax su) (job_layout j)).
    { destruct j; cbn in Hj |- *; [exact Hj|tauto|contradiction]. }
    pose proof (su_smax_ok su Hok) as Hs. pose proof (su_amax_ok su Hok) as Hamax.
    destruct (req_ok_facts _ _ Hl) as (kk & _ & _ & Hpos & Hsz & _).
    destruct (paced_at _ _ _ _ Hpa Hp) as (Hsh & Hlo & Hle). cbn [bumps map bump p_free] in Hle.
    pose proof (reader_in _ _ _ _ Hlk Hp eq_refl) as Hw.
    cbn [go]. apply wp_on_w. eapply wp_mload; [exact L2|].
    apply wp_on_w. eapply wp_intro; [apply (alloc_attempt_eq dbg _ _ _ (su_smax su)); auto; lia|].
    destruct (room cursor (c_end c) (job_layout j)) eqn:Rm.
    2: { unfold retry. apply wp_become, wp_ret. cbn [fst snd g_tab g_thr g_lock g_aw].
         apply (full_move (c :: cs0) tab thr k _ ar w _ t _ j _ _ R Hpa Hlk Hw Hp); auto.
         - apply looked_moves; [destruct j; auto; apply Hj|exact Hlo].
         - apply (room_less cursor); assumption. }
    apply wp_on_w. eapply wp_mload; [exact L1|]. cbn [fst snd g_tab g_thr g_lock g_aw].
    destruct (negb sp && (c_cur c =? cursor)) eqn:Ec.
    2: { apply wp_become, wp_ret. cbn [fst snd g_tab g_thr g_lock g_aw].
         apply (quiet_move _ (c :: cs0) tab thr k _ ar w _ t _ _ R Hpa Hp); [reflexivity|]. split; [exact Hsh|]. split; [exact Hlo|cbn; lia]. }
    assert (cursor = c_cur c) by lia. subst cursor.
    pose proof (chunk_alloc_ok amax (su_smax su) (su_bmax su) A bown ctx Hamax dbg
                  ext c cs0 ar w _ (job_layout j) R Hl Hs) as Hca. cbv zeta in Hca.
    rewrite Rm in Hca. destruct Hca as (_ & Hg & R2 & Hsame).
    destruct (round_up_spec (c_cur c) (l_align (job_layout j)) Hpos) as [Bd Hmod].
    set (ra := round_up (c_cur c) (l_align (job_layout j))) in *.
    set (n := ra + l_size (job_layout j)) in *.
    apply wp_on_w, wp_mstore.
    set (w' := al_set_mem A w (store (al_mem A w) (c_ptr c + CURSOR) 8 n)) in *.
    apply wp_bind, wp_sub_usize; [unfold n; lia|].
    apply wp_bind, wp_debug_assert; [intros _; unfold n; lia|].
    apply wp_bind, wp_debug_assert; [intros _; lia|].
    replace (n - ra) with (l_size (job_layout j)) by (unfold n; lia).
    cbn [fst snd g_tab g_thr g_lock g_aw].
    assert (Hpa' : paced (bumps (set_cur c n :: cs0)) thr) by (apply (paced_more (bump c)); [reflexivity|cbn; unfold n; lia|exact Hpa]).
    assert (Hstep : forall q, granted t (job_op j) false (mkBlock ra (l_size (job_layout j))) (page (set_cur c n :: cs0) tab w thr) = q ->
              pstep (MTake t) (page (c :: cs0) tab w thr) = bumped t q).
    { intros q Eq. cbn [cp_step]. rewrite (page_at _ _ _ _ _ _ Hp). cbn [doing_of]. rewrite Hsh. cbn [orb]. cbn [page cp_thr cp_chunks cp_tab].
      assert (Hmg : must_grow (bumps (c :: cs0)) tab (job_op j) = false).
      { apply looked_moves; [destruct j; auto; apply Hj|exact Hlo]. }
      rewrite Hmg, (no_alone k thr Hlk Hw), (wants_job j Tj). cbn [orb].
      assert (Er : room_in (bumps (c :: cs0)) (job_layout j) = Some (ra, bumps (set_cur c n :: cs0))) by (rewrite room_in_room, Rm; reflexivity).
      unfold page at 1. cbn [cp_chunks]. rewrite Er, <- Eq. reflexivity. }
    apply wp_bind. unfold allocated. destruct j as [l|h u old new|h u l]; [| |contradiction].
    - unfold wp. rewrite finish_eq. cbn [ret].
      apply (one_move (by_thread t) (MTake t) eq_refl _ _ (set_cur c n :: cs0) _ _ _ _ w' _ R2); [|apply paced_set; [exact Hpa'|exact I]].
      rewrite (Hstep _ eq_refl). exact (f_equal (bumped t) (done_page _ _ _ _ _ (JAlloc l) false _)).
    - apply wp_become, wp_ret, wp_ret. cbn [g_tab g_thr g_lock g_aw].
      apply (one_move (by_thread t) (MTake t) eq_refl _ _ (set_cur c n :: cs0) _ _ _ _ w' _ R2); [|apply paced_set; [exact Hpa'|exact I]].
      rewrite (Hstep _ eq_refl). cbn [granted job_op]. unfold bumped, set_thr, page. cbn [fst snd cp_chunks cp_tab cp_calls cp_thr].
      rewrite map_set_nth. reflexivity.
  Qed.

  (** Any retry of a resize whose block is, or was, the last of its chunk. *)
  Lemma tipload_exact cs tab thr k ar w s t j r sp :
    xinvx su sole ext m0 cs (mkG tab thr k (ar, w)) s -> paced (bumps cs) thr -> nth_error thr t = Some (TipLoad j r) ->
    wp (go su t (TipLoad j r) sp) (mkG tab thr k (ar, w)) (goal (by_thread t) (page cs tab w thr)).
  Proof.
    intros C Hpa Hp. start C Hp. destruct Hj as (Hj & Hr & Hj2).
    destruct (xheader_of su Hok ext _ _ _ _ _ R Hr) as (c & cs0 & -> & -> & L1 & L2 & P & B & Hend).
    pose proof (reader_in _ _ _ _ Hlk Hp eq_refl) as Hw. pose proof (su_amax_ok su Hok) as Hamax.
    destruct j as [l|h u old new|h u l]; try contradiction. cbn [go].
    cbn in Hj. destruct Hj as (G & (F1 & F2) & Hn). destruct Hj2 as [Q1 Q2].
    destruct (req_ok_facts _ _ Hn) as (kk & _ & _ & Hpos & Hsz & _).
    assert (Hu : u_ok amax u).
    { pose proof (ar_ok _ _ _ _ _ _ _ _ R) as Ho. rewrite Forall_forall in Ho. apply Ho.
      apply in_or_app. left. apply live_in. eauto. }
    pose proof Hu as ((G1 & G2 & G3 & G4) & _ & G5). cbn in G1, G2, G3, G4.
    apply wp_bind, wp_ptr_add; [lia|]. apply wp_on_w. eapply wp_mload; [exact L1|].
    cbn [fst snd g_tab g_thr g_lock g_aw].
    assert (Hsh : shrinks (OpResize h old new) = false) by (cbn; lia).
    destruct (Z.eqb_spec (c_cur c) (u_ptr u + l_size old)) as [E|E].
    2: { apply wp_become, wp_ret. apply (quiet_move _ (c :: cs0) tab thr k _ ar w _ t _ _ R Hpa Hp); [reflexivity|]. split; [exact Hsh|].
         intros _. exists (c_cur c). split; [cbn; unfold c_base in B; lia|exact E]. }
    assert (Hretry : c_end c < u_ptr u + l_size new \/ USIZE_MAX < u_ptr u + l_size new ->
              wp (retry t (JResize h u old new)) (mkG tab thr k (ar, w)) (goal (by_thread t) (page (c :: cs0) tab w thr))).
    { intros X. unfold retry. apply wp_become, wp_ret. cbn [fst snd g_tab g_thr g_lock g_aw].
      apply (full_move (c :: cs0) tab thr k _ ar w _ t _ (JResize h u old new) _ _ R Hpa Hlk Hw Hp); [reflexivity|exact I|exact Hsh|apply (no_place_to_grow _ _ _ _ u); [exact G|change (p_end (bump c)) with (c_end c); lia]|].
      cbn [job_layout]. apply (room_tip _ _ (u_ptr u) (l_size old)); lia. }
    unfold checked_add. destruct (Z.leb_spec (u_ptr u + l_size new) USIZE_MAX) as [Lu|Lu]; [|apply Hretry; lia].
    apply wp_on_w. eapply wp_mload; [exact L2|]. cbn [fst snd g_tab g_thr g_lock g_aw].
    destruct (Z.ltb_spec (c_end c) (u_ptr u + l_size new)) as [Le|Le]; [apply Hretry; lia|].
    apply wp_become, wp_ret. apply (quiet_move _ (c :: cs0) tab thr k _ ar w _ t _ _ R Hpa Hp); [reflexivity|exact I].
  Qed.

  Lemma tipcas_exact cs tab thr k ar w s t j r cursor sp :
    xinvx su sole ext m0 cs (mkG tab thr k (ar, w)) s -> paced (bumps cs) thr -> nth_error thr t = Some (TipCas j r cursor) ->
    wp (go su t (TipCas j r cursor) sp) (mkG tab thr k (ar, w)) (goal (by_thread t) (page cs tab w thr)).
  Proof.
    intros C Hpa Hp. start C Hp. destruct Hj as (Hjob & Hj2).
    destruct j as [l|h u old new|h u l]; try contradiction.
    destruct Hj2 as (Q1 & Q2 & -> & e & Hr & Q3).
    destruct (xheader_of su Hok ext _ _ _ _ r R (ex_intro _ e Hr)) as (c & cs0 & -> & -> & L1 & L2 & P & B & Hend).
    assert (e = c_end c) by (destruct Hr; congruence). subst e.
    pose proof (reader_in _ _ _ _ Hlk Hp eq_refl) as Hw.
    pose proof (su_amax_ok su Hok) as Hamax. pose proof (su_smax_ok su Hok) as Hsm.
    cbn [go]. pose proof Hjob as Hj. cbn in Hj. destruct Hj as (G & F & Hn). pose proof F as (F1 & F2).
    assert (Hu : u_ok amax u).
    { pose proof (ar_ok _ _ _ _ _ _ _ _ R) as Ho. rewrite Forall_forall in Ho. apply Ho.
      apply in_or_app. left. apply live_in. eauto. }
    pose proof Hu as ((G1 & G2 & G3 & G4) & _ & G5). cbn in G1, G2, G3, G4.
    apply wp_bind, wp_ptr_add; [lia|]. apply wp_on_w. eapply wp_mload; [exact L1|].
    cbn [fst snd g_tab g_thr g_lock g_aw].
    set (p := TipCas (JResize h u old new) (c_ptr c) (u_ptr u + l_size old)) in *.
    assert (Hsh : shrinks (OpResize h old new) = false) by (cbn; lia).
    destruct (Z.eqb_spec (c_cur c) (u_ptr u + l_size old)) as [E|E].
    2: { apply wp_become, wp_ret. apply (quiet_move _ (c :: cs0) tab thr k _ ar w _ t _ _ R Hpa Hp); [reflexivity|]. split; [exact Hsh|].
         intros _. exists (c_cur c). split; [cbn; unfold c_base in B; lia|exact E]. }
    apply wp_on_w, wp_mstore.
    set (w' := al_set_mem A w (store (al_mem A w) (c_ptr c + CURSOR) 8 (u_ptr u + l_size new))) in *.
    apply wp_bind, wp_sub_usize; [lia|].
    apply wp_bind, wp_debug_assert; [intros _; lia|].
    replace (u_ptr u + l_size new - u_ptr u) with (l_size new) by lia.
    cbn [fst snd g_tab g_thr g_lock g_aw].
    destruct (tab_split _ _ _ G) as (l0 & P1 & P2 & _ & P3).
    assert (R1 : brep ext (c :: cs0) ar w (u :: l0 ++ flat_map hold thr)).
    { apply (arep_perm _ _ _ _ _ _ _ (live tab ++ flat_map hold thr)); [|exact R]. rewrite P1. reflexivity. }
    pose proof (chunk_resize_way amax (su_smax su) (su_bmax su) A bown ctx Hamax dbg
                  ext c cs0 ar w u _ old new R1 F Hn Hsm) as Hcr.
    unfold wp in Hcr.
    rewrite (chunk_resize_eq (su_smax su) A dbg (c_ptr c) (u_ptr u) old new (c_cur c) (c_end c) w Hn Hsm) in Hcr
      by (auto; unfold c_base, HDR in *; lia).
    unfold way in Hcr.
    replace ((l_align new <=? l_align old) && (l_size new <=? l_size old)) with false in Hcr by lia.
    replace ((l_align new <=? l_align old) && (c_cur c =? u_ptr u + l_size old)) with true in Hcr by lia.
    replace (u_ptr u + l_size new <=? c_end c) with true in Hcr by lia.
    destruct Hcr as (_ & _ & R2). fold w' in R2.
    apply wp_bind. unfold wp. rewrite finish_eq. cbn [ret]. cbn [g_tab g_thr g_lock g_aw].
    apply (one_move (by_thread t) (MGrow t) eq_refl _ _ (set_cur c (u_ptr u + l_size new) :: cs0) _ _ _ _ w' _ R2).
    - cbn [cp_step]. rewrite (page_at _ _ _ _ _ _ Hp). unfold p. cbn [doing_of job_op]. unfold page at 1. cbn [cp_thr].
      rewrite (no_alone k thr Hlk Hw). unfold page at 1. cbn [cp_tab]. rewrite G.
      replace ((l_align new <=? l_align old) && (l_size old <? l_size new)) with true by lia.
      assert (Er : room_at (bumps (c :: cs0)) (u_ptr u) old new = Some (bumps (set_cur c (u_ptr u + l_size new) :: cs0))).
      { rewrite room_at_tip. replace ((c_cur c =? u_ptr u + l_size old) && (u_ptr u + l_size new <=? c_end c)) with true by lia. reflexivity. }
      unfold page at 1. cbn [cp_chunks]. rewrite Er.
      exact (f_equal (bumped t) (done_page (set_cur c (u_ptr u + l_size new) :: cs0) tab w thr t (JResize h u old new) false
               (Some (mkBlock (u_ptr u) (l_size new))))).
    - apply paced_set; [|exact I]. apply (paced_more (bump c)); [reflexivity|cbn; lia|exact Hpa].
  Qed.

  Lemma freed cs tab thr k k' ar w w' us t p h (u : ublock) l :
    brep ext cs ar w' us -> bw_trace w' = bw_trace w -> paced (bumps cs) thr -> lock_ok k thr -> lk_writer k = None ->
    nth_error thr t = Some p -> doing_of p = DAsked (OpDealloc h l) ->
    advance (by_thread t) (page cs tab w thr) [Lin t (OpDealloc h l) None]
      (mkG (set_nth h None tab) (set_nth t (Unlock false None (Some h)) thr) k' (ar, w')).
  Proof.
    intros R Et Hpa Hlk Hw Hp Ed.
    apply (one_move (by_thread t) (MStay t) eq_refl _ _ cs _ _ _ _ w' us R); [|apply paced_set; [exact Hpa|exact I]].
    cbn [cp_step]. rewrite (page_at _ _ _ _ _ _ Hp), Ed. unfold page at 1. cbn [cp_thr].
    rewrite (no_alone k thr Hlk Hw). replace (page cs tab w thr) with (page cs tab w' thr) by (unfold page; rewrite Et; reflexivity).
    exact (f_equal Some (done_page cs tab w' thr t (JDealloc h u l) false None)).
  Qed.

  Lemma freecas_exact cs tab thr k ar w s t j r sp :
    xinvx su sole ext m0 cs (mkG tab thr k (ar, w)) s -> paced (bumps cs) thr -> nth_error thr t = Some (FreeCas j r) ->
    wp (go su t (FreeCas j r) sp) (mkG tab thr k (ar, w)) (goal (by_thread t) (page cs tab w thr)).
  Proof.
    intros C Hpa Hp. start C Hp. destruct Hj as (Hj & Hr & Hj2).
    destruct (xheader_of su Hok ext _ _ _ _ _ R Hr) as (c & cs0 & -> & -> & L1 & L2 & P & B & Hend).
    pose proof (reader_in _ _ _ _ Hlk Hp eq_refl) as Hw.
    destruct j as [l|h u old new|h u l]; try contradiction. cbn [go].
    pose proof Hj as (G & F). pose proof F as (F1 & F2).
    destruct (tab_split _ _ _ G) as (l0 & P1 & _ & P2 & P3).
    assert (R1 : brep ext (c :: cs0) ar w (u :: l0 ++ flat_map hold thr)).
    { apply (arep_perm _ _ _ _ _ _ _ (live tab ++ flat_map hold thr)); [|exact R]. rewrite P1. reflexivity. }
    assert (Hu : u_ok amax u).
    { pose proof (ar_ok _ _ _ _ _ _ _ _ R1) as Ho. inversion Ho; assumption. }
    destruct Hu as (_ & _ & Hu).
    apply wp_on_w. eapply wp_mono.
    { apply (chunk_dealloc_ok amax (su_bmax su) A bown ctx (su_amax_ok su Hok) ext c cs0 ar w u _ (l_size l) R1). lia. }
    intros _ w' (Q & Hsame & R2). cbn [fst snd g_tab g_thr g_lock g_aw].
    unfold wp. rewrite finish_eq. cbn [fin_tab fin_handle job_op g_tab g_thr g_lock g_aw].
    apply (freed (c :: cs0) tab thr k k ar w w' _ t _ h u l R2 (quiet_trace su _ _ Q) Hpa Hlk Hw Hp). reflexivity.
  Qed.

  Lemma copy_exact cs tab thr k ar w s t j b i wr sp :
    xinvx su sole ext m0 cs (mkG tab thr k (ar, w)) s -> paced (bumps cs) thr -> nth_error thr t = Some (Copy j b i wr) ->
    wp (go su t (Copy j b i wr) sp) (mkG tab thr k (ar, w)) (goal (by_thread t) (page cs tab w thr)).
  Proof.
    intros C Hpa Hp. start C Hp. destruct Hj as (Hj & Hj2).
    destruct j as [l|h u old new|h u l]; try contradiction. cbn [go].
    destruct Hj2 as (Hg & Hi & Hpre). pose proof Hj as (G & (F1 & F2) & Hn).
    destruct (hold_split _ _ _ Hp) as (rest & PA & _).
    pose proof (PA (Copy (JResize h u old new) b i wr)) as PP. rewrite (set_nth_same t _ thr Hp) in PP.
    cbn [hold app] in PP. set (v := mkU (b_ptr b) (b_len b) new) in *.
    destruct (tab_split _ _ _ G) as (l0 & P1 & _).
    assert (R1 : brep ext cs ar w (v :: u :: l0 ++ rest)).
    { apply (arep_perm _ _ _ _ _ _ _ (live tab ++ flat_map hold thr)); [|exact R]. rewrite PP, P1.
      cbn. rewrite <- Permutation_middle. apply perm_swap. }
    pose proof (ar_disj _ _ _ _ _ _ _ _ R1) as Hd. cbn [pairwise] in Hd. destruct Hd as (Hd1 & Hd2 & _).
    inversion Hd1 as [|? ? Dvu Dv]; subst.
    destruct Hg as (G1 & G2 & G3 & G4).
    set (n := Z.min (l_size new) (l_size old)) in *.
    replace ((n =? 0) || (u_ptr u + n <=? b_ptr b) || (b_ptr b + n <=? u_ptr u)) with true.
    2: { symmetry. pose proof (Dvu (b_ptr b)) as D1. pose proof (Dvu (u_ptr u)) as D2.
         unfold in_u, v in D1, D2; cbn in D1, D2. lia. }
    cbn [negb]. destruct (Z.ltb_spec i n) as [Lt|Ge].
    - apply wp_on_w. cbn [fst snd g_tab g_thr g_lock g_aw]. unfold wp at 1.
      set (m' := copy (al_mem A w) (u_ptr u + i) (b_ptr b + i) 1).
      destruct (arep_write_us _ _ _ _ ctx _ _ _ _ _ m' R1) as [R2 Hse].
      { intros x Hx. apply copy_other. specialize (Hx v (or_introl eq_refl)). unfold in_u, v in Hx; cbn in Hx. lia. }
      apply wp_become, wp_ret. cbn [g_tab g_thr g_lock g_aw].
      exact (quiet_move _ cs tab thr k k ar _ _ t _ (Copy (JResize h u old new) b (i + 1) wr) R2 Hpa Hp eq_refl I).
    - unfold wp. rewrite finish_eq. cbn [g_tab g_thr g_lock g_aw].
      apply (one_move (by_thread t) (MCopied t) eq_refl _ _ cs _ _ _ _ w _ R); [|apply paced_set; [exact Hpa|exact I]].
      cbn [cp_step]. rewrite (page_at _ _ _ _ _ _ Hp). cbn [doing_of].
      exact (f_equal Some (done_page cs tab w thr t (JResize h u old new) wr (Some b))).
  Qed.

  Lemma unlock_exact cs tab thr k ar w s t wr nxt h sp :
    xinvx su sole ext m0 cs (mkG tab thr k (ar, w)) s -> paced (bumps cs) thr -> nth_error thr t = Some (Unlock wr nxt h) ->
    wp (go su t (Unlock wr nxt h) sp) (mkG tab thr k (ar, w)) (goal (by_thread t) (page cs tab w thr)).
  Proof.
    intros C Hpa Hp. start C Hp. cbn [go].
    apply wp_get_g, wp_put_lock.
    destruct nxt as [j|]; apply wp_become, wp_ret; cbn [g_tab g_thr g_lock g_aw].
    - apply (quiet_move _ cs tab thr k _ ar w _ t _ _ R Hpa Hp); [reflexivity|exact I].
    - apply (one_move (by_thread t) (MReturn t) eq_refl _ _ cs _ _ _ _ w _ R); [|apply paced_set; [exact Hpa|exact I]].
      cbn [cp_step]. rewrite (page_at _ _ _ _ _ _ Hp). cbn [doing_of]. unfold set_thr, page. cbn [cp_chunks cp_tab cp_calls cp_thr].
      rewrite map_set_nth. reflexivity.
  Qed.

  Lemma slow_exact cs tab thr k ar w s t j sp :
    xinvx su sole ext m0 cs (mkG tab thr k (ar, w)) s -> paced (bumps cs) thr -> nth_error thr t = Some (Slow j) ->
    wp (go su t (Slow j) sp) (mkG tab thr k (ar, w)) (goal (by_thread t) (page cs tab w thr)).
  Proof.
    intros C Hpa Hp. start C Hp. destruct Hj as (Hj & Tj).
    assert (Hl : req_ok (su_smax su) (job_layout j)).
    { destruct j; cbn in Hj |- *; [exact Hj|tauto|contradiction]. }
    pose proof (no_got _ _ _ _ Hlk Hp) as Hng. destruct (writer_alone _ _ _ _ Hlk Hp eq_refl) as [Hnr _].
    cbn [go]. apply wp_on_aw. unfold arena_alloc_slow. apply wp_with_aw. cbn [fst snd g_aw]. apply wp_bind.
    pose proof (su_cfg su Hok) as Hcfg. rewrite <- Hm in Hcfg.
    eapply wp_mono.
    { apply (alloc_slow_ok amax (su_smax su) (su_bmax su) A bown ctx (su_amax_ok su Hok) dbg
               ext cs ar w _ (job_layout j) R Hl (cfg_ok_for Hcfg)). }
    intros r w' (_ & Hr). rewrite Hm in Hr.
    assert (Hstep : forall a ks tr, fresh (su_min su) (su_strat su) (bumps cs) (job_layout j) (bw_trace w) = (a, ks, tr) ->
              pstep (MFresh t) (page cs tab w thr) =
              Some (match a with
                    | Some a => granted t (job_op j) true (mkBlock a (l_size (job_layout j))) (mkCP ks tab tr (map doing_of thr))
                    | None => done_with t (job_op j) true None (mkCP ks tab tr (map doing_of thr))
                    end)).
    { intros a ks tr E. cbn [cp_step]. rewrite (page_at _ _ _ _ _ _ Hp). cbn [doing_of]. unfold page. cbn [cp_thr cp_chunks cp_tab cp_calls].
      rewrite Hng, (wants_job j Tj), E. reflexivity. }
    destruct r as [[b q]|].
    - destruct Hr as (Hg & Hbl & c & Hi & <- & Ec & Eb & R2).
      apply wp_ret. cbn [g_tab g_thr g_lock g_aw fst snd].
      assert (U : upstream (su_strat su) (slow_req cs (su_min su) (job_layout j)) (Some b) (bw_trace w) (bw_trace w')).
      { apply (slow_info_upstream su _ _ _ _ _ (Some b) Hi). split; discriminate. }
      destruct (req_ok_facts _ _ Hl) as (kk & _ & _ & Hpos & Hsz & _).
      pose proof (round_up_spec (c_base c) (l_align (job_layout j)) Hpos) as [Br _].
      pose proof (xfresh_some cs c _ _ _ (job_layout j) _ b R2 (or_introl eq_refl) Hl (own_trace _ _ _ _ R) U Ec ltac:(lia)) as Hf.
      pose proof (Hstep _ _ _ Hf) as Hs. cbn match in Hs.
      replace (mkBlock (b_ptr b) (l_size (job_layout j))) with b in Hs by (rewrite <- Hbl; destruct b; reflexivity).
      assert (Hpa' : paced (bumps (c :: cs)) thr) by (apply (paced_none (bumps cs)); assumption).
      unfold allocated. destruct j as [l|h u old new|h u l]; [| |contradiction].
      + unfold wp. rewrite finish_eq. cbn [g_tab g_thr g_lock g_aw].
        apply (one_move (by_thread t) (MFresh t) eq_refl _ _ (c :: cs) _ _ k _ w' _ R2); [|apply paced_set; [exact Hpa'|exact I]].
        rewrite Hs. exact (f_equal Some (done_page (c :: cs) tab w' thr t (JAlloc l) true (Some b))).
      + apply wp_become, wp_ret. cbn [g_tab g_thr g_lock g_aw].
        apply (one_move (by_thread t) (MFresh t) eq_refl _ _ (c :: cs) _ _ k _ w' _ R2); [|apply paced_set; [exact Hpa'|exact I]].
        rewrite Hs. cbn [granted job_op]. unfold set_thr, page. cbn [cp_chunks cp_tab cp_calls cp_thr]. rewrite map_set_nth. reflexivity.
    - destruct Hr as (Hi & R2). apply wp_ret. cbn [g_tab g_thr g_lock g_aw fst snd].
      assert (U : @upstream (su_strat su) (slow_req cs (su_min su) (job_layout j)) block None (bw_trace w) (bw_trace w')).
      { apply (slow_info_upstream su _ _ _ _ _ None Hi). split; reflexivity. }
      pose proof (Hstep _ _ _ (xfresh_none cs _ _ _ (job_layout j) _ _ R Hl U)) as Hs. cbn match in Hs.
      unfold wp. rewrite finish_eq. cbn [g_tab g_thr g_lock g_aw].
      apply (one_move (by_thread t) (MFresh t) eq_refl _ _ cs _ _ _ _ w' _ R2); [|apply paced_set; [exact Hpa|exact I]].
      rewrite Hs. exact (f_equal Some (done_page cs tab w' thr t j true None)).
  Qed.

  Lemma go_exact cs g s t p sp : xinvx su sole ext m0 cs g s -> paced (bumps cs) (g_thr g) -> nth_error (g_thr g) t = Some p ->
    wp (go su t p sp) g (goal (by_thread t) (page cs (g_tab g) (snd (g_aw g)) (g_thr g))).
  Proof.
    destruct g as [tab thr k [ar w]]. cbn [g_thr g_tab g_aw snd]. intros C Hpa Hp. pose proof C as (R & _). cbn [g_tab g_thr g_aw fst snd] in R.
    destruct p.
    - apply wp_ret. apply (no_move _ cs tab thr k ar w _ R Hpa).
    - cbn [go]. apply wp_get_g. cbn [g_lock]. destruct (lk_writer k) eqn:E.
      + apply wp_ret. apply (no_move _ cs tab thr k ar w _ R Hpa).
      + apply wp_put_lock. cbn [g_tab g_thr g_lock g_aw fst]. apply (enter_exact cs tab thr k ar w s); auto.
    - apply (load_exact cs tab thr k ar w s); auto.
    - apply (cas_exact cs tab thr k ar w s); auto.
    - apply (tipload_exact cs tab thr k ar w s); auto.
    - apply (tipcas_exact cs tab thr k ar w s); auto.
    - apply (freecas_exact cs tab thr k ar w s); auto.
    - apply (copy_exact cs tab thr k ar w s); auto.
    - apply (unlock_exact cs tab thr k ar w s); auto.
    - cbn [go]. apply wp_get_g. cbn [g_lock].
      assert (Hstay : wp (ret []) (mkG tab thr k (ar, w)) (goal (by_thread t) (page cs tab w thr))).
      { apply wp_ret. apply (no_move _ cs tab thr k ar w _ R Hpa). }
      destruct (lk_writer k) as [t'|]; [exact Hstay|]. destruct (lk_readers k) as [|t' rs]; [|exact Hstay].
      apply wp_put_lock, wp_become, wp_ret. cbn [g_tab g_thr g_lock g_aw].
      apply (quiet_move _ cs tab thr k _ ar w _ t _ _ R Hpa Hp); [reflexivity|exact I].
    - apply (slow_exact cs tab thr k ar w s); auto.
  Qed.

  Lemma stale_exact cs g s t p v : xinvx su sole ext m0 cs g s -> paced (bumps cs) (g_thr g) -> nth_error (g_thr g) t = Some p ->
    wp (stale su t p v) g (goal (by_thread t) (page cs (g_tab g) (snd (g_aw g)) (g_thr g))).
  Proof.
    destruct g as [tab thr k [ar w]]. cbn [g_thr g_tab g_aw snd]. intros C Hpa Hp. pose proof C as (R0 & _). cbn [g_tab g_thr g_aw fst snd] in R0.
    assert (Hstay : wp (ret []) (mkG tab thr k (ar, w)) (goal (by_thread t) (page cs tab w thr))).
    { apply wp_ret. apply (no_move _ cs tab thr k ar w _ R0 Hpa). }
    destruct p; try exact Hstay; start C Hp; clear R0.
    - destruct Hj as (Hj & Tj & Hr).
      destruct (xheader_of su Hok ext _ _ _ _ _ R Hr) as (c & cs0 & -> & -> & L1 & L2 & P & B & _).
      cbn [stale]. apply (wp_old_value su Hok ext c cs0 _ _ _ _ _ _ _ _ _ R). intros b Eb. destruct b; [|exact Hstay].
      apply wp_become, wp_ret. cbn [g_tab g_thr g_lock g_aw].
      apply (quiet_move _ (c :: cs0) tab thr k _ ar w _ t _ _ R Hpa Hp); [reflexivity|].
      destruct (paced_at _ _ _ _ Hpa Hp) as [P1 P2]. split; [exact P1|]. split; [exact P2|]. cbn. lia.
    - destruct Hj as (Hj & Tj & Hcur & Hr).
      destruct (xheader_of su Hok ext _ _ _ _ _ R Hr) as (c & cs0 & -> & -> & L1 & L2 & P & B & Hend).
      assert (Hl : req_ok (su_smax su) (job_layout j)).
      { destruct j; cbn in Hj |- *; [exact Hj|tauto|contradiction]. }
      pose proof (su_smax_ok su Hok) as Hs. pose proof (su_amax_ok su Hok) as Hamax.
      destruct (req_ok_facts _ _ Hl) as (kk & _ & _ & Hpos & Hsz & _).
      destruct (paced_at _ _ _ _ Hpa Hp) as (Hsh & Hlo & Hle). cbn [bumps map bump p_free] in Hle.
      pose proof (reader_in _ _ _ _ Hlk Hp eq_refl) as Hw.
      cbn [stale]. apply wp_on_w. eapply wp_mload; [exact L2|].
      apply wp_on_w. eapply wp_intro; [apply (alloc_attempt_eq dbg _ _ _ (su_smax su)); auto; lia|].
      cbn [fst snd g_tab g_thr g_lock g_aw].
      destruct (room cursor (c_end c) (job_layout j)) eqn:Rm.
      2: { unfold retry. apply wp_become, wp_ret. cbn [fst snd g_tab g_thr g_lock g_aw].
           apply (full_move (c :: cs0) tab thr k _ ar w _ t _ j _ _ R Hpa Hlk Hw Hp); auto.
           - apply looked_moves; [destruct j; auto; apply Hj|exact Hlo].
           - apply (room_less cursor); assumption. }
      apply (wp_old_value su Hok ext c cs0 _ _ _ _ _ _ _ _ _ R). intros b Eb. destruct b; [|exact Hstay].
      apply wp_become, wp_ret. cbn [g_tab g_thr g_lock g_aw].
      apply (quiet_move _ (c :: cs0) tab thr k _ ar w _ t _ _ R Hpa Hp); [reflexivity|]. split; [exact Hsh|]. split; [exact Hlo|cbn; lia].
    - destruct Hj as (Hj & Hr & Hj2).
      destruct (xheader_of su Hok ext _ _ _ _ _ R Hr) as (c & cs0 & -> & -> & L1 & L2 & P & B & Hend).
      pose proof (reader_in _ _ _ _ Hlk Hp eq_refl) as Hw. pose proof (su_amax_ok su Hok) as Hamax.
      destruct j as [l|h u old new|h u l]; try contradiction. cbn [stale].
      cbn in Hj. destruct Hj as (G & (F1 & F2) & Hn). destruct Hj2 as [Q1 Q2].
      destruct (req_ok_facts _ _ Hn) as (kk & _ & _ & Hpos & Hsz & _).
      assert (Hu : u_ok amax u).
      { pose proof (ar_ok _ _ _ _ _ _ _ _ R) as Ho. rewrite Forall_forall in Ho. apply Ho.
        apply in_or_app. left. apply live_in. eauto. }
      pose proof Hu as ((G1 & G2 & G3 & G4) & _ & G5). cbn in G1, G2, G3, G4.
      apply wp_bind, wp_ptr_add; [lia|].
      apply (wp_old_value su Hok ext c cs0 _ _ _ _ _ _ _ _ _ R). intros b Eb. destruct b; [|exact Hstay].
      assert (Hsh : shrinks (OpResize h old new) = false) by (cbn; lia).
      destruct (Z.eqb_spec v (u_ptr u + l_size old)) as [E|E].
      2: { apply wp_become, wp_ret. apply (quiet_move _ (c :: cs0) tab thr k _ ar w _ t _ _ R Hpa Hp); [reflexivity|]. split; [exact Hsh|].
           intros _. exists v. split; [cbn; unfold c_base in *; lia|exact E]. }
      assert (Hretry : c_end c < u_ptr u + l_size new \/ USIZE_MAX < u_ptr u + l_size new ->
                wp (retry t (JResize h u old new)) (mkG tab thr k (ar, w)) (goal (by_thread t) (page (c :: cs0) tab w thr))).
      { intros X. unfold retry. apply wp_become, wp_ret. cbn [fst snd g_tab g_thr g_lock g_aw].
        apply (full_move (c :: cs0) tab thr k _ ar w _ t _ (JResize h u old new) _ _ R Hpa Hlk Hw Hp); [reflexivity|exact I|exact Hsh|apply (no_place_to_grow _ _ _ _ u); [exact G|change (p_end (bump c)) with (c_end c); lia]|].
        cbn [job_layout]. apply (room_tip _ _ (u_ptr u) (l_size old)); lia. }
      unfold checked_add. destruct (Z.leb_spec (u_ptr u + l_size new) USIZE_MAX) as [Lu|Lu]; [|apply Hretry; lia].
      apply wp_on_w. eapply wp_mload; [exact L2|]. cbn [fst snd g_tab g_thr g_lock g_aw].
      destruct (Z.ltb_spec (c_end c) (u_ptr u + l_size new)) as [Le|Le]; [apply Hretry; lia|].
      apply wp_become, wp_ret. apply (quiet_move _ (c :: cs0) tab thr k _ ar w _ t _ _ R Hpa Hp); [reflexivity|exact I].
    - destruct Hj as (Hjob & Hj2). destruct j as [l|h u old new|h u l]; try contradiction.
      destruct Hj2 as (Q1 & Q2 & -> & e & Hr & Q3).
      destruct (xheader_of su Hok ext _ _ _ _ r R (ex_intro _ e Hr)) as (c & cs0 & -> & -> & _).
      cbn [stale]. apply (wp_old_value su Hok ext c cs0 _ _ _ _ _ _ _ _ _ R). intros b Eb.
      destruct (b && _) eqn:Ebv; [|exact Hstay].
      apply wp_become, wp_ret. cbn [g_tab g_thr g_lock g_aw].
      apply (quiet_move _ (c :: cs0) tab thr k _ ar w _ t _ _ R Hpa Hp); [reflexivity|]. split; [cbn; lia|].
      intros _. exists v. cbn. unfold c_base in Eb. lia.
    - destruct Hj as (Hj & Hr & Hj2). pose proof (reader_in _ _ _ _ Hlk Hp eq_refl) as Hw.
      destruct (xheader_of su Hok ext _ _ _ _ _ R Hr) as (c & cs0 & -> & -> & _).
      destruct j as [l|h u old new|h u l]; try contradiction.
      cbn [stale]. apply (wp_old_value su Hok ext c cs0 _ _ _ _ _ _ _ _ _ R). intros b Eb.
      destruct (b && _); [|exact Hstay].
      unfold wp. rewrite finish_eq. cbn [fin_tab fin_handle job_op g_tab g_thr g_lock g_aw].
      apply (freed (c :: cs0) tab thr k k ar w w _ t _ h u l R eq_refl Hpa Hlk Hw Hp). reflexivity.
  Qed.

  Lemma away_paced ks ks' thr : forallb away thr = true -> paced ks thr -> paced ks' thr.
  Proof.
    intros Ha. apply paced_none. intros t p Hp Hr. pose proof (away_at _ _ _ Ha Hp) as H. destruct p; discriminate.
  Qed.

  Lemma reset_exact cs g s keep m es : xinvx su sole ext m0 cs g s -> paced (bumps cs) (g_thr g) -> forallb away (g_thr g) = true ->
    pstep m (page cs (g_tab g) (snd (g_aw g)) (g_thr g)) = Some (es, wiped keep (page cs (g_tab g) (snd (g_aw g)) (g_thr g))) ->
    wp (on_aw (do_reset su keep) ;;; put_tab (map (fun _ => None)) ;;; ret es) g
       (goal (eq m) (page cs (g_tab g) (snd (g_aw g)) (g_thr g))).
  Proof.
    destruct g as [tab thr k [ar w]]. cbn [g_thr g_tab g_aw snd]. intros C Hpa Ha Em.
    pose proof C as (R & Hh & Hm & _). cbn [g_tab g_thr g_lock g_aw fst snd] in *.
    rewrite (away_hold _ Ha), app_nil_r in R.
    apply wp_on_aw. cbn [g_aw].
    pose proof (xreset_trace cs ar w _ keep R) as Ht.
    assert (Hend : forall cs' aw', brep ext cs' (fst aw') (snd aw') [] ->
              bumps cs' = (if keep then newest (bumps cs) else []) ->
              bw_trace (snd aw') = give_back (bumps (if keep then tl cs else cs)) (bw_trace w) ->
              wp (put_tab (map (fun _ => None)) ;;; ret es) (mkG tab thr k aw') (goal (eq m) (page cs tab w thr))).
    { intros cs' [ar' w'] R' Ec Et. cbn [fst snd] in *. apply wp_put_tab, wp_ret. cbn [g_tab g_thr g_lock g_aw].
      apply (one_move (eq m) m eq_refl _ _ cs' _ _ _ _ w' _ R'); [|apply (away_paced _ _ _ Ha Hpa)].
      rewrite Em. unfold wiped, page. cbn [cp_chunks cp_tab cp_calls cp_thr]. rewrite Ec, Et. destruct keep; [|reflexivity].
      destruct cs; reflexivity. }
    destruct keep.
    - eapply wp_mono; [apply (wp_conj _ _ _ _ (arena_reset_keep_ok amax (su_bmax su) A bown ctx ext cs ar w (live tab) R) Ht)|].
      intros _ [ar' w'] ((S1 & M1 & H) & T). cbn [fst snd g_tab g_thr g_lock] in *. destruct cs as [|c cs].
      + inversion H; subst ar' w'. apply (Hend []); [|reflexivity|exact T].
        destruct R as [R1 R2 R3 R4 R5 R6 R7 R8]. constructor; auto; constructor.
      + apply (Hend [set_cur c (c_base c)]); [exact H|reflexivity|exact T].
    - eapply wp_mono; [apply (wp_conj _ _ _ _ (arena_reset_final_ok amax (su_bmax su) A bown ctx ext cs ar w (live tab) R) Ht)|].
      intros _ [ar' w'] ((S1 & M1 & M2 & _ & H) & T). cbn [fst snd g_tab g_thr g_lock] in *.
      apply (Hend []); [exact H|reflexivity|exact T].
  Qed.

  Lemma idle_d thr : forallb is_idle thr = true -> forallb d_idle (map doing_of thr) = true.
  Proof.
    intros H. rewrite forallb_forall in *. intros d Hd. apply in_map_iff in Hd. destruct Hd as (p & <- & Hp).
    specialize (H p Hp). destruct p; try discriminate H. reflexivity.
  Qed.
  Lemma away_d thr : forallb away thr = true -> forallb d_away (map doing_of thr) = true.
  Proof.
    intros H. rewrite forallb_forall in *. intros d Hd. apply in_map_iff in Hd. destruct Hd as (p & <- & Hp).
    specialize (H p Hp). destruct p; try discriminate H; [reflexivity| |]; destruct j; try discriminate H; reflexivity.
  Qed.
  Lemma in_use_busy cs tab m thr h : (forall t p, nth_error thr t = Some p -> pc_ok su cs tab m p) ->
    in_use h (map doing_of thr) = busy h thr.
  Proof.
    intros H. unfold in_use, busy. induction thr as [|p thr IH]; [reflexivity|]. cbn [map existsb].
    rewrite IH by (intros t q Hq; apply (H (S t) q Hq)). f_equal.
    replace (works_on (doing_of p)) with (pc_handle p); [reflexivity|].
    pose proof (H O p eq_refl) as Hp. destruct p; cbn; rewrite ?op_handle_job; auto.
    cbn in Hp. destruct next as [j|]; cbn; [|reflexivity]. rewrite op_handle_job. apply Hp.
  Qed.

  Lemma begin_exact cs g s t o : xinvx su sole ext m0 cs g s -> paced (bumps cs) (g_thr g) -> nth_error (g_thr g) t = Some Idle ->
    wp (begin su t o) g (goal (eq (MCall t o)) (page cs (g_tab g) (snd (g_aw g)) (g_thr g))).
  Proof.
    destruct g as [tab thr k [ar w]]. cbn [g_thr g_tab g_aw snd]. intros C Hpa Hp.
    start C Hp. unfold begin. apply wp_get_g. cbn [g_tab g_thr].
    assert (Hstay : wp (ret []) (mkG tab thr k (ar, w)) (goal (eq (MCall t o)) (page cs tab w thr))).
    { apply wp_ret. apply (no_move _ cs tab thr k ar w _ R Hpa). }
    assert (Hd : nth_error (map doing_of thr) t = Some DNone) by (rewrite nth_error_map, Hp; reflexivity).
    assert (Hu : forall h, in_use h (map doing_of thr) = busy h thr) by (intros h; apply (in_use_busy cs tab (bw_mem w)); exact Hpc).
    assert (Hbegin : forall j, job_op j = o -> pstep (MCall t o) (page cs tab w thr) = Some ([Call t o], set_thr t (DAsked o) (page cs tab w thr)) ->
              wp (become t (WantRead j) ;;; ret [Call t o]) (mkG tab thr k (ar, w)) (goal (eq (MCall t o)) (page cs tab w thr))).
    { intros j Ej Em. apply wp_become, wp_ret. cbn [g_tab g_thr g_lock g_aw].
      apply (one_move (eq (MCall t o)) (MCall t o) eq_refl _ _ cs _ _ _ _ w _ R); [|apply paced_set; [exact Hpa|exact I]].
      rewrite Em. unfold set_thr, page. cbn [cp_chunks cp_tab cp_calls cp_thr]. rewrite map_set_nth. cbn [doing_of]. rewrite Ej. reflexivity. }
    destruct o as [l z|h off cl|h l|h old new|h old new|keep]; try exact Hstay.
    - destruct z; [exact Hstay|]. destruct (req_okb (su_smax su) l) eqn:E; [|exact Hstay].
      apply Hbegin; [reflexivity|]. cbn [cp_step page cp_thr]. rewrite Hd, E. reflexivity.
    - destruct (get h tab) as [u|] eqn:G; [|exact Hstay].
      destruct (negb (busy h thr) && (0 <=? off) && (off + Z.of_nat (length cl) <=? u_len u)) eqn:E; [|exact Hstay].
      apply wp_on_w. unfold wp. cbn [fst snd g_tab g_thr g_lock g_aw ret].
      destruct (tab_split _ _ _ G) as (l0 & P1 & P2 & _ & P3).
      assert (R1 : brep ext cs ar w (u :: l0 ++ flat_map hold thr)).
      { apply (arep_perm _ _ _ _ _ _ _ (live tab ++ flat_map hold thr)); [|exact R]. rewrite P1. reflexivity. }
      set (m' := write_cells (al_mem A w) (u_ptr u + off) cl).
      destruct (arep_write_us _ _ _ _ ctx _ _ _ _ _ m' R1) as [R2 Hse].
      { intros x Hx. apply write_cells_other. specialize (Hx u (or_introl eq_refl)). unfold in_u in Hx. lia. }
      apply (one_move (eq (MCall t (OpWrite h off cl))) (MCall t (OpWrite h off cl)) eq_refl _ _ cs _ _ _ _ _ _ R2); [|exact Hpa].
      cbn [cp_step page cp_thr cp_tab]. rewrite Hd, G, Hu, E. reflexivity.
    - destruct (get h tab) as [u|] eqn:G; [|exact Hstay].
      destruct (negb (busy h thr) && fitsb l u) eqn:E; [|exact Hstay].
      apply Hbegin; [reflexivity|]. cbn [cp_step page cp_thr cp_tab]. rewrite Hd, G, Hu, E. reflexivity.
    - destruct (get h tab) as [u|] eqn:G; [|exact Hstay].
      destruct (negb (busy h thr) && fitsb old u && req_okb (su_smax su) new) eqn:E; [|exact Hstay].
      apply Hbegin; [reflexivity|]. cbn [cp_step page cp_thr cp_tab]. rewrite Hd, G, Hu, E. reflexivity.
    - destruct keep; [|exact Hstay]. destruct (forallb away thr) eqn:Ei; [|exact Hstay].
      apply (reset_exact cs (mkG tab thr k (ar, w)) s true (MCall t (OpReset true))); auto.
      cbn [g_tab g_thr g_aw snd]. cbn [cp_step page cp_thr]. rewrite Hd, (away_d _ Ei). reflexivity.
  Qed.

  Lemma xstep_exact g s c q : xinv su sole ext m0 g s -> cshows g q -> paced (cp_chunks q) (g_thr g) -> wp (cstep su c) g (goal (moves_of c) q).
  Proof.
    intros (cs & C) Hs Hpa. rewrite (xpage_eq cs g s q C Hs) in *. cbn [page cp_chunks] in Hpa. clear Hs q.
    assert (Hstay : wp (ret []) g (goal (moves_of c) (page cs (g_tab g) (snd (g_aw g)) (g_thr g)))).
    { destruct g as [tab thr k [ar w]]. pose proof C as (R & _). apply wp_ret. apply (no_move _ cs tab thr k ar w _ R Hpa). }
    destruct c as [t o|t sp|t v|keep]; unfold cstep; apply wp_get_g.
    - destruct (nth_error (g_thr g) t) as [p|] eqn:Hp; [|exact Hstay].
      destruct p; try exact Hstay. apply (begin_exact cs g s); auto.
    - destruct (nth_error (g_thr g) t) as [p|] eqn:Hp; [|exact Hstay]. apply (go_exact cs g s); auto.
    - destruct (nth_error (g_thr g) t) as [p|] eqn:Hp; [|exact Hstay]. apply (stale_exact cs g s); auto.
    - destruct (forallb is_idle (g_thr g)) eqn:Ei; [|exact Hstay].
      apply (reset_exact cs g s keep (MReset keep)); auto; [apply idle_away; exact Ei|].
      cbn [cp_step page cp_thr]. rewrite (idle_d _ Ei). reflexivity.
  Qed.

  Lemma prun_app ms1 : forall ms2 q es1 q1 es2 q2, prun ms1 q = Some (es1, q1) -> prun ms2 q1 = Some (es2, q2) ->
    prun (ms1 ++ ms2) q = Some (es1 ++ es2, q2).
  Proof.
    induction ms1 as [|m ms1 IH]; intros ms2 q es1 q1 es2 q2 E1 E2; cbn [app cp_run] in *.
    - injection E1 as <- <-. exact E2.
    - destruct (pstep m q) as [[e1 qa]|]; [|discriminate E1]. destruct (prun ms1 qa) as [[e2 qb]|] eqn:E; [|discriminate E1].
      injection E1 as <- <-. rewrite (IH _ _ _ _ _ _ E E2), app_assoc. reflexivity.
  Qed.

End Facts.

Section Alone.
  Variable su : setup.
  Hypothesis Hok : setup_ok su.
  Notation prun := (cp_run (su_min su) (su_smax su) (su_strat su)).

  Lemma page_eq cs g s q : cinvx su cs g s -> cshows g q -> q = page cs (g_tab g) (snd (g_aw g)) (g_thr g).
  Proof.
    intros (H1 & H2 & H) Hs. apply (xpage_eq su Hok true [] (fun _ => Undef) cs g s q); [|exact Hs].
    split; [exact H1|]. split; [split; [reflexivity|exact H2]|exact H].
  Qed.
  Lemma step_exact g s c q : cinv su g s -> cshows g q -> paced (cp_chunks q) (g_thr g) ->
    wp (cstep su c) g (fun es g' => advance su (moves_of c) q es g').
  Proof.
    intros Hi. apply (xstep_exact su Hok true [] (fun _ => Undef) g s c q), sole_inv, Hi.
  Qed.

  Lemma run_exact sched : forall g s q es g', cinv su g s -> cshows g q -> paced (cp_chunks q) (g_thr g) ->
    crun su sched g = ORet es g' ->
    exists ms q', prun ms q = Some (es, q') /\ (length ms <= length sched)%nat /\ cshows g' q'.
  Proof.
    induction sched as [|c sched IH]; intros g s q es g' Hi Hs Hpa E; cbn [crun] in E.
    - injection E as <- <-. exists [], q. split; [reflexivity|]. split; [cbn; lia|exact Hs].
    - pose proof (wp_conj _ _ _ _ (cstep_ok su Hok g s c Hi) (step_exact g s c q Hi Hs Hpa)) as H. apply wp_inv in H.
      destruct H as (es1 & g1 & E1 & Hi1 & ms1 & q1 & Em1 & _ & L1 & Hs1 & Hpa1). unfold bind in E. rewrite E1 in E.
      destruct (crun su sched g1) as [es2 g2| | |] eqn:E2; try discriminate E. injection E as <- <-.
      destruct (IH g1 _ q1 es2 g2 Hi1 Hs1 Hpa1 E2) as (ms2 & q2 & Em2 & L2 & Hs2).
      exists (ms1 ++ ms2), q2. split; [apply (prun_app su _ _ _ _ _ _ _ Em1 Em2)|]. split; [rewrite app_length; cbn [length]; lia|exact Hs2].
  Qed.

  Lemma threads_exact n sched es g : crun su sched (cstart su n) = ORet es g ->
    exists ms q, prun ms (cp0 n) = Some (es, q) /\ (length ms <= length sched)%nat /\ cshows g q.
  Proof.
    intros E. apply (run_exact sched (cstart su n) [] (cp0 n) es g (cstart_inv su Hok n)); [| |exact E].
    - split; [exact I|]. split; [reflexivity|]. split; [reflexivity|]. cbn. clear. induction n; cbn; congruence.
    - cbn. unfold paced. rewrite Forall_forall. intros p Hp. apply repeat_spec in Hp. subst p. exact I.
  Qed.
End Alone.
