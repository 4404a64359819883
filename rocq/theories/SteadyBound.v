(** What is true of a workload repeated with a reset in between (C15): the memory it
    takes is bounded, however often it is repeated, and one chunk that is large enough is
    all it ever needs. *)
From Verif Require Import Base BaseFacts Alloc AllocFacts Arena ArenaFacts ArenaInv ArenaOps BlinkAlloc BlinkFacts History HistoryFacts
  Setup SetupFacts SetupOps SetupOps2 SetupOps3 SetupProps.

(** [n] rounds of the workload, each ending with a reset. *)
Definition rounds (work : list op) (n : nat) : list op := concat (repeat (work ++ [OpReset true]) n).

Lemma total_need_app a b : total_need (a ++ b) = total_need a + total_need b.
Proof. induction a as [|o a IH]; cbn; [reflexivity|]. unfold total_need in *. lia. Qed.

Section Bound.
  Variable su : setup.
  Hypothesis Hok : setup_ok su.
  Notation state := (cst (AW (W := bworld))).

  (** Operations since the last reset can have needed [used] bytes, [a] of them in the newest
      chunk: an abandoned chunk is smaller than what it holds and the request that did not
      fit. *)
  Definition lean (used : Z) (st : state) : Prop :=
    exists cs a, srep su cs st /\ 0 <= a <= used /\
      match cs with
      | [] => True
      | c :: older => c_cur c <= c_base c + a /\ sum_caps older <= 2 * used - a
      end.

  Lemma no_room cs c older st l : srep su cs st -> cs = c :: older -> req_ok (su_smax su) l -> fits_root cs l = false ->
    c_end c < c_cur c + (l_size l + (l_align l - 1)).
  Proof.
    intros (R & _ & _) -> Hl Fr. cbn [fits_root] in Fr. unfold room in Fr.
    destruct (req_ok_facts _ _ Hl) as (k & _ & _ & Hpos & Hsz & _).
    pose proof (round_up_spec (c_cur c) (l_align l) Hpos) as [Br _].
    destruct (arep_chunk_ok _ _ _ _ (su_ct su Hok) _ _ _ _ _ c R (or_introl eq_refl))
      as (_ & _ & _ & _ & _ & Q2). pose proof (su_amax_ok su Hok). lia.
  Qed.

  Lemma lean_step used st o r st' :
    lean used st -> is_reset o = false -> do_step su o st = ORet r st' -> lean (used + need o) st'.
  Proof.
    intros (cs & a & HS & Ha & Hc) Hnr E. pose proof (need_nonneg o) as Hn0.
    assert (Hsame : srep su cs st' -> lean (used + need o) st').
    { intros S1. exists cs, a. split; [exact S1|]. split; [lia|]. destruct cs as [|c older]; [exact I|]. lia. }
    destruct (requests_dec su st o) as [[l Hq]|[Hq|[Hq|Hq]]].
    - pose proof (requests_need su st o l Hq) as En.
      assert (Hl : req_ok (su_smax su) l) by (destruct o; cbn in Hq; try contradiction; apply Hq).
      destruct (step_request su Hok cs st o l r st' HS Hq E)
        as [(N & T & c & n & cs' & -> & Bn & S1)|[(_ & _ & _ & _ & S1)|(Fr & lay & ans & _ & _ & _ & _ & S1)]].
      + exists (set_cur c n :: cs'), (a + need o). split; [exact S1|]. split; [lia|].
        unfold c_base, c_ptr, set_cur in *. cbn [c_u c_cur]. lia.
      + auto.
      + destruct r as [b|]; [|auto]. destruct S1 as (c & Bc & S1).
        exists (c :: cs), (need o). split; [exact S1|]. split; [lia|]. split; [lia|].
        destruct cs as [|c0 older]; [cbn [sum_caps]; lia|].
        pose proof (no_room _ c0 older st l HS eq_refl Hl Fr). cbn [sum_caps]. unfold c_cap. lia.
    - congruence.
    - apply Hsame. apply (passive_step su Hok cs st o r st' HS Hq E).
    - rewrite Hq in E. inversion E; subst. auto.
  Qed.

  Lemma lean_run ops : forall used st rs st',
    lean used st -> existsb is_reset ops = false -> do_run su ops st = ORet rs st' -> lean (used + total_need ops) st'.
  Proof.
    induction ops as [|o ops IH]; intros used st rs st' Hl Hnr E.
    - cbn in E. inversion E; subst. cbn. rewrite Z.add_0_r. exact Hl.
    - cbn [existsb] in Hnr. apply orb_false_iff in Hnr. destruct Hnr as [N1 N2].
      destruct (run_cons su _ _ _ _ _ E) as (r & st1 & rs' & E1 & E2 & _).
      pose proof (IH _ st1 rs' st' (lean_step used st o r st1 Hl N1 E1) N2 E2) as H.
      cbn [total_need fold_right]. fold (total_need ops). rewrite Z.add_assoc. exact H.
  Qed.

  Lemma lean_reset used st r st' : lean used st -> do_step su (OpReset true) st = ORet r st' -> lean 0 st'.
  Proof.
    intros (cs & a & HS & _ & _) E. destruct (step_reset_keep su Hok cs st r st' HS E) as (_ & _ & S1).
    destruct cs as [|c cs].
    - exists [], 0. split; [exact S1|]. split; [lia|exact I].
    - exists [set_cur c (c_base c)], 0. split; [exact S1|]. split; [lia|].
      unfold c_base, c_ptr, set_cur. cbn. lia.
  Qed.

  Lemma run_split a : forall b st rs st', do_run su (a ++ b) st = ORet rs st' ->
    exists rs1 st1 rs2, do_run su a st = ORet rs1 st1 /\ do_run su b st1 = ORet rs2 st'.
  Proof.
    intros b st rs st' E. unfold do_run in *. rewrite run_app in E.
    destruct (run (su_smax su) (ba su) (do_reset su) a st) as [rs1 st1| | |]; try discriminate.
    exists rs1, st1. destruct (run (su_smax su) (ba su) (do_reset su) b st1) as [rs2 st2| | |] eqn:E2; try discriminate.
    inversion E; subst. eauto.
  Qed.

  Lemma lean_rounds work n : existsb is_reset work = false -> forall st rs st',
    lean 0 st -> do_run su (rounds work n) st = ORet rs st' -> lean 0 st'.
  Proof.
    intros Hw. induction n as [|n IH]; intros st rs st' Hl E.
    - cbn in E. inversion E; subst. exact Hl.
    - unfold rounds in E. cbn [repeat concat] in E. rewrite <- app_assoc in E.
      destruct (run_split _ _ _ _ _ E) as (rs1 & st1 & rs2 & E1 & E2). cbn [app] in E2.
      destruct (run_cons su _ _ _ _ _ E2) as (r & st2 & rs3 & E3 & E4 & _).
      apply (IH st2 rs3 st'); [|exact E4].
      apply (lean_reset _ _ _ _ (lean_run work 0 st rs1 st1 Hl Hw E1) E3).
  Qed.

  Lemma lean_start : lean 0 (start su).
  Proof.
    destruct (reached_srep su Hok [] (start su)) as (cs & HS); [exists []; reflexivity|].
    pose proof HS as (_ & Hh & _). destruct cs; [|discriminate]. exists [], 0. split; [exact HS|]. split; [lia|exact I].
  Qed.

  Lemma lean_reached work part rest n st : existsb is_reset work = false -> work = part ++ rest ->
    reached su (rounds work n ++ part) st -> lean (total_need part) st.
  Proof.
    intros Hw Ew (rs & E). destruct (run_split _ _ _ _ _ E) as (rs1 & st1 & rs2 & E1 & E2).
    change (total_need part) with (0 + total_need part).
    apply (lean_run part 0 st1 rs2 st); [|rewrite Ew, existsb_app in Hw; apply orb_false_iff in Hw; apply Hw|exact E2].
    apply (lean_rounds work n Hw _ _ _ lean_start E1).
  Qed.

  (** What is held besides the newest chunk, and how large a chunk may be asked for. *)
  Lemma steady_held work part rest n st : existsb is_reset work = false -> work = part ++ rest ->
    reached su (rounds work n ++ part) st -> capacity (tl (held st)) <= 2 * total_need work.
  Proof.
    intros Hw Ew Hr. destruct (lean_reached work part rest n st Hw Ew Hr) as (cs & a & HS & Ha & Hc).
    pose proof HS as (_ & Hh & _). rewrite <- Hh. rewrite Ew, total_need_app. pose proof (total_need_nonneg rest).
    destruct cs as [|c older]; cbn [map tl]; [change (capacity []) with 0; lia|]. rewrite capacity_caps. lia.
  Qed.

  Lemma steady_request work part o rest n st r st' lay ans :
    existsb is_reset work = false -> work = part ++ o :: rest ->
    reached su (rounds work n ++ part) st -> do_step su o st = ORet r st' -> calls st' = EvAlloc lay ans :: calls st ->
    l_size lay <= 2 * (Z.max (su_min su) (2 * total_need work) + total_need work + 97) + 2 ^ 14.
  Proof.
    intros Hw Ew Hr E Hc. destruct (lean_reached work part (o :: rest) n st Hw Ew Hr) as (cs & a & HS & Ha & Hl).
    assert (Hn : total_need part + need o <= total_need work).
    { rewrite Ew, total_need_app. cbn [total_need fold_right]. fold (total_need rest). pose proof (total_need_nonneg rest). lia. }
    pose proof (need_nonneg o) as Hn0. pose proof (total_need_nonneg part) as Hn1.
    destruct (requests_dec su st o) as [[l Hq]|[Hq|[Hq|Hq]]].
    - pose proof (requests_need su st o l Hq) as En.
      assert (Hrq : req_ok (su_smax su) l) by (destruct o; cbn in Hq; try contradiction; apply Hq).
      destruct (req_ok_facts _ _ Hrq) as (k & _ & _ & Hpos & Hsz & _).
      destruct (reached_request su Hok _ st o l r st' Hr Hq E) as [(_ & T)|[(lay' & ans' & T & _ & _ & _ & Rd)|(_ & T & _)]].
      + exfalso. rewrite T in Hc. apply (f_equal (@length _)) in Hc. cbn in Hc. lia.
      + rewrite T in Hc. injection Hc as <- <-.
        assert (Wd : wanted (su_min su) (held st) l <= Z.max (su_min su) (2 * total_need work) + total_need work + 97).
        { unfold wanted, HEADER. pose proof (proj1 (su_min_ok su Hok)). pose proof HS as (_ & Hh & _). rewrite <- Hh.
          destruct cs as [|c older]; cbn [map].
          - destruct (8 <? l_align l); lia.
          - rewrite capacity_caps. destruct (8 <? l_align l); lia. }
        pose proof (proj1 (su_min_ok su Hok)).
        destruct Rd as (_ & [(_ & _ & H3)|[(_ & _ & H3)|(_ & _ & H3)]]); lia.
      + exfalso. rewrite T in Hc. apply (f_equal (@length _)) in Hc. cbn in Hc. lia.
    - exfalso. rewrite Ew, existsb_app in Hw. cbn [existsb] in Hw. rewrite Hq in Hw. rewrite orb_true_r in Hw. discriminate.
    - exfalso. assert (T : calls st' = calls st).
      { destruct o as [l' z|h off bs|h l'|h old new|h old new|k]; try discriminate.
        - apply (step_write su Hok cs st h off bs r st' HS E).
        - destruct (get h (c_tab st)) as [u|] eqn:G.
          + destruct (fitsb l' u) eqn:F.
            * apply (step_dealloc su Hok cs st h u l' r st' HS G (proj1 (fitsb_spec l' u) F) E).
            * rewrite step_eq in E. unfold step_at in E. rewrite G, F in E. inversion E; subst. reflexivity.
          + rewrite step_eq in E. unfold step_at in E. rewrite G in E. inversion E; subst. reflexivity. }
      rewrite T in Hc. apply (f_equal (@length _)) in Hc. cbn in Hc. lia.
    - exfalso. rewrite Hq in E. inversion E; subst. apply (f_equal (@length _)) in Hc. cbn in Hc. lia.
  Qed.

  (** One chunk that is large enough. *)
  Lemma one_rounds work n : forall ops st r st1 k,
    reached su ops st -> do_step su (OpReset true) st = ORet r st1 -> held st1 = [k] ->
    existsb is_reset work = false -> total_need work <= u_len k - HEADER ->
    exists rs st2, do_run su (rounds work n) st1 = ORet rs st2 /\ held st2 = [k] /\
      exists ops' st' r', reached su ops' st' /\ do_step su (OpReset true) st' = ORet r' st2.
  Proof.
    induction n as [|n IH]; intros ops st r st1 k Hr E Hk Hw Hn.
    - exists [], st1. split; [reflexivity|]. split; [exact Hk|]. exists ops, st, r. auto.
    - pose proof (reached_step su ops st _ _ _ Hr E) as Hr1.
      destruct (reached_warm su Hok ops st r st1 k work Hr E Hk Hw Hn) as [(rs & st2 & E2 & T2) _].
      pose proof (reached_app su _ _ _ _ _ Hr1 E2) as Hr2.
      destruct (reached_step_total su Hok _ _ (OpReset true) Hr2) as (r3 & st3 & E3 & _).
      assert (H3 : held st3 = [k]).
      { destruct (reached_srep su Hok _ _ Hr2) as (cs2 & S2).
        rewrite (proj1 (proj2 (step_reset_keep su Hok cs2 st2 r3 st3 S2 E3))). unfold held in *. rewrite T2, Hk. reflexivity. }
      destruct (IH _ st2 r3 st3 k Hr2 E3 H3 Hw Hn) as (rs4 & st4 & E4 & H4 & X4).
      exists (rs ++ r3 :: rs4), st4. split; [|split; [exact H4|exact X4]].
      unfold rounds in *. cbn [repeat concat]. unfold do_run, do_step in *. rewrite <- app_assoc, run_app, E2. cbn [app run]. unfold bind.
      rewrite E3, E4. reflexivity.
  Qed.

  Lemma steady_one ops st r st1 k work n part o rest rs st2 :
    reached su ops st -> do_step su (OpReset true) st = ORet r st1 -> held st1 = [k] ->
    existsb is_reset work = false -> total_need work <= u_len k - HEADER -> work = part ++ o :: rest ->
    do_run su (rounds work n ++ part) st1 = ORet rs st2 ->
    held st2 = [k] /\
    exists r3 st3, do_step su o st2 = ORet r3 st3 /\ calls st3 = calls st2 /\
      forall l, requests su st2 o l -> r3 <> None.
  Proof.
    intros Hr E Hk Hw Hn Ew Er.
    destruct (one_rounds work n ops st r st1 k Hr E Hk Hw Hn) as (rs4 & st4 & E4 & H4 & ops' & st' & r' & Hr' & E').
    destruct (run_split _ _ _ _ _ Er) as (rs1 & st5 & rs2 & E5 & E6). rewrite E4 in E5. inversion E5; subst rs1 st5. clear E5.
    pose proof (reset_warm su Hok ops' st' r' st4 k Hr' E' H4) as Wm.
    rewrite Ew, existsb_app in Hw. cbn [existsb] in Hw. apply orb_false_iff in Hw. destruct Hw as [N1 Hw].
    apply orb_false_iff in Hw. destruct Hw as [N2 N3].
    rewrite Ew, total_need_app in Hn. cbn [total_need fold_right] in Hn. fold (total_need rest) in Hn.
    pose proof (total_need_nonneg rest). pose proof (need_nonneg o).
    destruct (warm_run su Hok part _ st4 rs2 st2 Wm N1 ltac:(lia) E6) as (T2 & W2).
    split; [unfold held in *; rewrite T2; exact H4|].
    pose proof (reached_app su _ _ _ _ _ (reached_step su _ _ _ _ _ Hr' E') E6) as Hr2.
    destruct (reached_step_total su Hok _ _ o Hr2) as (r3 & st3 & E3 & _). exists r3, st3. split; [exact E3|].
    destruct (warm_step su Hok _ st2 o r3 st3 W2 N2 ltac:(lia) E3) as (T3 & _ & X3). split; [exact T3|].
    exact X3.
  Qed.
End Bound.

Lemma steady_bounded su work part rest n st :
  setup_ok su -> existsb is_reset work = false -> work = part ++ rest ->
  reached su (rounds work n ++ part) st ->
  capacity (tl (held st)) <= 2 * total_need work /\
  forall o rest' r st' lay ans, rest = o :: rest' -> do_step su o st = ORet r st' ->
    calls st' = EvAlloc lay ans :: calls st ->
    l_size lay <= 2 * (Z.max (su_min su) (2 * total_need work) + total_need work + 97) + 2 ^ 14.
Proof.
  intros Hok Hw Ew Hr. split; [apply (steady_held su Hok work part rest n st Hw Ew Hr)|].
  intros o rest' r st' lay ans -> E Hc. exact (steady_request su Hok work part o rest' n st r st' lay ans Hw Ew Hr E Hc).
Qed.
