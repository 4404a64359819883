(** Facts about every state a client of [BlinkAlloc] can reach. *)
From Coq Require Import Permutation.
From Verif Require Import Base BaseFacts Alloc AllocFacts Arena ArenaFacts ArenaInv ArenaOps
  BlinkAlloc BlinkFacts History HistoryFacts Setup.

Lemma run_app {W} smax (A : Allocator W) reset ops1 : forall ops2 st,
  run smax A reset (ops1 ++ ops2) st =
  match run smax A reset ops1 st with
  | ORet rs1 st1 =>
      match run smax A reset ops2 st1 with
      | ORet rs2 st2 => ORet (rs1 ++ rs2) st2
      | OPanic w => OPanic w
      | OAbort => OAbort
      | OUB => OUB
      end
  | OPanic w => OPanic w
  | OAbort => OAbort
  | OUB => OUB
  end.
Proof.
  induction ops1 as [|o ops1 IH]; intros ops2 st.
  - cbn. destruct (run smax A reset ops2 st); reflexivity.
  - cbn [run app]. unfold bind. destruct (step smax A reset o st) as [r st1| | |]; try reflexivity.
    rewrite IH. destruct (run smax A reset ops1 st1) as [rs1 st2| | |]; try reflexivity.
    cbn. destruct (run smax A reset ops2 st2); reflexivity.
Qed.

Lemma reached_step su ops st o r st' :
  reached su ops st -> do_step su o st = ORet r st' -> reached su (ops ++ [o]) st'.
Proof.
  intros [rs H] E. exists (rs ++ [r]). unfold do_run in *. rewrite run_app, H. cbn. unfold bind.
  unfold do_step in E. rewrite E. reflexivity.
Qed.

Lemma reached_app su ops st ops2 rs st' :
  reached su ops st -> do_run su ops2 st = ORet rs st' -> reached su (ops ++ ops2) st'.
Proof.
  intros [rs0 H] E. exists (rs0 ++ rs). unfold do_run in *. rewrite run_app, H, E. reflexivity.
Qed.

Section Facts.
  Variable su : setup.
  Hypothesis Hok : setup_ok su.

  Notation amax := (su_amax su).
  Notation bown := (base_own (su_amax su) (su_bmax su)).
  Notation brep := (arep (su_amax su) (bot su) (base_own (su_amax su) (su_bmax su))).

  Lemma su_ct : contract amax (su_bmax su) (bot su) bown.
  Proof. destruct Hok as (H1 & H2 & H3 & _). apply base_contract; assumption. Qed.
  Lemma su_amax_ok : 0 <= amax <= USIZE_MAX.
  Proof. apply Hok. Qed.
  Lemma su_cfg : cfg_ok (su_dbg su) amax (su_smax su) (su_min su) (su_bmax su).
  Proof. destruct Hok as (_ & _ & _ & H4 & H5 & _ & H). repeat split; assumption. Qed.
  Lemma su_min_ok : 0 <= su_min su <= USIZE_MAX.
  Proof. apply Hok. Qed.
  Lemma su_smax_ok : su_smax su <= USIZE_MAX.
  Proof. apply Hok. Qed.

  (** The chunks of the arena are the blocks obtained from the bottom, in order. *)
  Definition held_j (us : list ublock) (w : bworld) : Prop := us = outstanding (bw_trace w).

  Lemma quiet_trace w w' : quiet (bot su) w w' -> bw_trace w' = bw_trace w.
  Proof. intros Q. apply (Q _ bw_trace). reflexivity. Qed.

  Lemma held_jinv : jinv (bot su) held_j.
  Proof.
    constructor.
    - unfold held_j. intros us w w' -> Q. rewrite (quiet_trace _ _ Q). reflexivity.
    - unfold held_j. intros us w w' l r -> E. cbn in E. unfold base_allocate in E.
      destruct (negb (req_okb (su_bmax su) l)); [discriminate|]. inversion E; subst. cbn.
      destruct (st_alloc (su_strat su) (bw_trace w) l); reflexivity.
  Qed.

  Definition sown : AW (W := bworld) -> list ublock -> Prop :=
    blink_own amax (bot su) bown held_j [] (su_min su).

  Lemma ba_contract : contract amax (su_smax su) (ba su) sown.
  Proof.
    apply (blink_contract amax (su_smax su) (su_bmax su) (bot su) bown su_ct su_amax_ok).
    - apply held_jinv.
    - apply su_cfg.
  Qed.

  Lemma reset_keep_ok cs ar w us :
    brep [] cs ar w us -> map c_u cs = outstanding (bw_trace w) ->
    wp (do_reset su true) (ar, w) (fun _ aw' =>
      brep [] (match cs with [] => [] | c :: _ => [set_cur c (c_base c)] end) (fst aw') (snd aw') [] /\
      outstanding (bw_trace (snd aw')) = map c_u (firstn 1 cs) /\
      ar_min (fst aw') = ar_min ar).
  Proof.
    intros R Hh.
    eapply wp_mono; [apply (arena_reset_keep_ok amax (su_bmax su) (bot su) bown su_ct [] cs ar w us R)|].
    intros _ [ar' w'] (_ & M1 & H). cbn [fst snd] in *. destruct cs as [|c cs].
    - inversion H; subst. split; [|split; [symmetry; exact Hh|reflexivity]].
      destruct R as [R1 R2 R3 R4 R5 R6 R7 R8]. constructor; auto; constructor.
    - split; [exact H|]. split; [|exact M1].
      pose proof (ar_own _ _ _ _ _ _ _ _ H) as [[_ P] _]. cbn in P.
      apply Permutation_length_1_inv in P. cbn. exact P.
  Qed.

  Lemma reset_final_ok cs ar w us :
    brep [] cs ar w us ->
    wp (do_reset su false) (ar, w) (fun _ aw' =>
      brep [] [] (fst aw') (snd aw') [] /\
      outstanding (bw_trace (snd aw')) = [] /\ ar_root (fst aw') = None /\
      ar_min (fst aw') = ar_min ar).
  Proof.
    intros R.
    eapply wp_mono; [apply (arena_reset_final_ok amax (su_bmax su) (bot su) bown su_ct [] cs ar w us R)|].
    intros _ [ar' w'] (_ & M1 & M2 & [[_ P] _] & H). cbn [fst snd] in *.
    apply Permutation_nil in P. auto.
  Qed.

  Lemma ba_reset k aw us : sown aw us -> wp (do_reset su k) aw (fun _ aw' => sown aw' []).
  Proof.
    intros (cs & R & Hj & Hm). destruct aw as [ar w]. cbn [fst snd] in *. destruct k.
    - eapply wp_mono; [apply (reset_keep_ok cs ar w us R Hj)|].
      intros _ aw' (H1 & H2 & H3). destruct cs as [|c cs].
      + exists []. split; [exact H1|]. split; [symmetry; exact H2|congruence].
      + exists [set_cur c (c_base c)]. split; [exact H1|]. split; [symmetry; exact H2|congruence].
    - eapply wp_mono; [apply (reset_final_ok cs ar w us R)|].
      intros _ aw' (H1 & H2 & _ & H3). exists []. split; [exact H1|]. split; [symmetry; exact H2|congruence].
  Qed.

  Notation sinv := (hinv (ba su) sown).

  Lemma start_inv : sinv (start su) [].
  Proof.
    split; [|constructor]. exists []. cbn. split; [|split; reflexivity].
    apply (arep_new amax (su_bmax su) (bot su) bown [] bworld0); [apply su_ct| |apply su_min_ok].
    split; [|exact I]. split; [|constructor]. split; [constructor|]. split; constructor.
  Qed.

  Lemma run_total ops : exists rs st, do_run su ops (start su) = ORet rs st /\
    length rs = length ops /\ sinv st (srun ops (map (option_map b_len) rs) []).
  Proof.
    pose proof (run_ok amax (su_smax su) (ba su) sown (do_reset su) ba_contract ba_reset ops
                  (start su) [] start_inv) as H.
    apply wp_inv in H. destruct H as (rs & st & E & L & H). eauto.
  Qed.

  Lemma reached_sinv ops st : reached su ops st -> exists s, sinv st s.
  Proof.
    intros [rs E]. destruct (run_total ops) as (rs' & st' & E' & _ & H).
    rewrite E in E'. inversion E'; subst. eauto.
  Qed.

  (** The representation in a reached state. *)
  Lemma reached_rep ops st : reached su ops st ->
    exists cs, brep [] cs (fst (c_w st)) (snd (c_w st)) (live (c_tab st)) /\
      map c_u cs = held st /\ ar_min (fst (c_w st)) = su_min su.
  Proof.
    intros Hr. destruct (reached_sinv ops st Hr) as (s & (cs & R & Hj & Hm) & _). eauto.
  Qed.

  Lemma reached_step_total ops st o : reached su ops st ->
    exists r st', do_step su o st = ORet r st' /\ reached su (ops ++ [o]) st'.
  Proof.
    intros Hr. destruct (reached_sinv ops st Hr) as (s & Hi).
    pose proof (step_ok amax (su_smax su) (ba su) sown (do_reset su) ba_contract ba_reset o st s Hi) as H.
    apply wp_inv in H. destruct H as (r & st' & E & _). exists r, st'. split; [exact E|].
    apply (reached_step su ops st o r st' Hr E).
  Qed.

  Lemma reached_run_total ops st ops2 : reached su ops st ->
    exists rs st', do_run su ops2 st = ORet rs st' /\ reached su (ops ++ ops2) st'.
  Proof.
    intros Hr. destruct (reached_sinv ops st Hr) as (s & Hi).
    pose proof (run_ok amax (su_smax su) (ba su) sown (do_reset su) ba_contract ba_reset ops2 st s Hi) as H.
    apply wp_inv in H. destruct H as (rs & st' & E & _). exists rs, st'. split; [exact E|].
    apply (reached_app su ops st ops2 rs st' Hr E).
  Qed.

  Lemma get_live {h st u} : get h (c_tab st) = Some u -> In u (live (c_tab (W := AW (W := bworld)) st)).
  Proof. intros G. apply live_in. eauto. Qed.

  (** ** C01, C02, C11 *)

  Lemma reached_block ops st h u :
    reached su ops st -> get h (c_tab st) = Some u ->
    0 < u_ptr u /\ u_ptr u mod l_align (u_layout u) = 0 /\
    l_size (u_layout u) <= u_len u /\ u_ptr u + u_len u <= amax /\
    exists k, In k (held st) /\ inside u k.
  Proof.
    intros Hr G. destruct (reached_rep ops st Hr) as (cs & R & Hh & _).
    pose proof (get_live G) as Hin.
    pose proof (ar_ok _ _ _ _ _ _ _ _ R) as Ho. rewrite Forall_forall in Ho.
    destruct (Ho u Hin) as ((G1 & G2 & G3 & G4) & _). unfold ublk in *. cbn in G1, G2, G3, G4.
    split; [exact G1|]. split; [exact G2|]. split; [exact G3|]. split; [exact G4|].
    pose proof (ar_placed _ _ _ _ _ _ _ _ R) as P. unfold placed in P. rewrite Forall_forall in P.
    destruct (P u Hin) as (c & Hc & P1 & P2).
    destruct (arep_chunk_ok _ _ _ _ su_ct _ _ _ _ _ c R Hc) as ((_ & _ & W1) & _).
    exists (c_u c). split; [rewrite <- Hh; apply in_map; exact Hc|].
    unfold inside, HEADER, c_base, c_end, c_ptr, HDR in *. lia.
  Qed.

  Lemma reached_disjoint ops st h1 h2 u1 u2 :
    reached su ops st -> h1 <> h2 -> get h1 (c_tab st) = Some u1 -> get h2 (c_tab st) = Some u2 ->
    disjoint_u u1 u2.
  Proof.
    intros Hr N G1 G2. destruct (reached_rep ops st Hr) as (cs & R & _).
    apply (get_pairwise disjoint_u disjoint_u_sym (c_tab st) h1 h2); auto.
    apply (ar_disj _ _ _ _ _ _ _ _ R).
  Qed.

  (** No block touches the header of any chunk. *)
  Lemma reached_header ops st h u k x :
    reached su ops st -> get h (c_tab st) = Some u -> In k (held st) ->
    in_u x u -> ~ (u_ptr k <= x < u_ptr k + HEADER).
  Proof.
    intros Hr G Hk Hx. destruct (reached_rep ops st Hr) as (cs & R & Hh & _).
    rewrite <- Hh in Hk. apply in_map_iff in Hk. destruct Hk as (c & <- & Hc).
    apply (arep_us_not _ _ _ _ su_ct _ _ _ _ _ c u x R Hc (get_live G) Hx).
  Qed.

  (** ** C12, C18 *)

  Lemma reached_legal ops st : reached su ops st -> legal (su_bmax su) (calls st).
  Proof.
    intros Hr. destruct (reached_rep ops st Hr) as (cs & R & _).
    apply (ar_own _ _ _ _ _ _ _ _ R).
  Qed.

  (** ** Running single operations *)

  Lemma step_eq o st : do_step su o st = step_at (su_smax su) (ba su) (do_reset su) o (c_tab st) st.
  Proof. reflexivity. Qed.

  Lemma wp_step o st (Q : option block -> cst (AW (W := bworld)) -> Prop) r st' :
    wp (step_at (su_smax su) (ba su) (do_reset su) o (c_tab st)) st Q ->
    do_step su o st = ORet r st' -> Q r st'.
  Proof. intros H E. rewrite step_eq in E. apply (wp_elim _ _ _ _ _ H E). Qed.

  (** [deallocate] changes nothing at all. *)
  Lemma store_same m a n v : load m a n = Some v -> forall x, store m a n v x = m x.
  Proof.
    unfold load, store. intros H x. destruct (m a) as [| |w|] eqn:Ea; try discriminate.
    destruct (all_cells is_tail m (a + 1) (Z.to_nat (n - 1))) eqn:E; [|discriminate].
    inversion H; subst w. destruct ((a <=? x) && (x <? a + n)) eqn:Ex; [|reflexivity].
    destruct (Z.eqb_spec x a); [subst; symmetry; exact Ea|].
    rewrite all_cells_spec in E. specialize (E x). destruct (m x); cbn in E; try reflexivity;
      exfalso; assert (false = true) by (apply E; lia); discriminate.
  Qed.

  Lemma blink_dealloc_nop cs ar w u us size :
    brep [] cs ar w (u :: us) -> 0 <= size <= u_len u ->
    wp (blink_deallocate (bot su) (u_ptr u) size) (ar, w) (fun _ aw' =>
      fst aw' = ar /\ bw_trace (snd aw') = bw_trace w /\ forall x, bw_mem (snd aw') x = bw_mem w x).
  Proof.
    intros R Hsz. unfold blink_deallocate, dealloc. apply wp_with_aw. cbn [fst snd].
    apply wp_bind. unfold arena_dealloc. rewrite (ar_head _ _ _ _ _ _ _ _ R).
    destruct cs as [|c cs']; cbn [head_ptr].
    - apply wp_ret. apply wp_ret. cbn. auto.
    - pose proof (ar_ok _ _ _ _ _ _ _ _ R) as Ho. inversion Ho as [|? ? Hu Ho']; subst.
      pose proof Hu as ((G1 & G2 & G3 & G4) & Hup & Hus). cbn in G1, G2, G3, G4.
      pose proof (ar_chain _ _ _ _ _ _ _ _ R) as Hch. cbn [chain] in Hch.
      destruct Hch as ((_ & _ & W1) & (H1 & _ & _) & _).
      pose proof su_amax_ok.
      unfold chunk_dealloc. apply wp_bind, wp_ptr_add; [lia|].
      apply wp_bind. unfold cell_cas. apply wp_bind. eapply wp_mload; [exact H1|].
      destruct (Z.eqb_spec (u_ptr u) (c_cur c)) as [E|N].
      + assert (Ez : u_ptr u + size = c_cur c).
        { destruct (arep_where amax (su_bmax su) (bot su) bown su_ct _ _ _ _ _ _ u R (or_introl eq_refl) ltac:(lia)) as [Hin|Hout].
          - lia.
          - unfold c_base, HDR in *. lia. }
        rewrite Ez. apply wp_bind, wp_mstore. apply wp_ret. apply wp_ret. apply wp_ret. cbn.
        split; [reflexivity|]. split; [reflexivity|]. apply store_same. exact H1.
      + apply wp_ret. apply wp_ret. apply wp_ret. cbn. auto.
  Qed.
End Facts.
