(** How much a BlinkAlloc takes from the underlying allocator in any history (C64): what it
    holds is in proportion to what was requested since the last reset, and the number of
    chunks grows with the logarithm of it. *)
From Verif Require Import Base BaseFacts Alloc AllocFacts Arena ArenaFacts ArenaInv ArenaOps BlinkAlloc BlinkFacts History HistoryFacts
  Setup SetupFacts SetupOps SetupOps2 SetupOps3 SetupProps SteadyBound.

(** [before] leaves nothing allocated: it is empty or ends with a reset of either kind. *)
Definition cleared (before : list op) : Prop := before = [] \/ exists b keep, before = b ++ [OpReset keep].

(** How often the underlying allocator gave memory, in the calls [tr]. *)
Definition given (tr : list uevent) : nat :=
  length (filter (fun e => match e with EvAlloc _ (Some _) => true | _ => false end) tr).

(** Every chunk is larger than all chunks but the one before it together. *)
Fixpoint growing (ks : list ublock) : Prop :=
  match ks with
  | [] => True
  | k :: older =>
      match older with
      | [] => 0 <= u_len k - HEADER
      | _ :: rest => capacity rest + 64 <= u_len k - HEADER
      end /\ growing older
  end.

Lemma growing_cap ks : growing ks -> 0 <= capacity ks.
Proof.
  assert (H : forall n ks, (length ks <= n)%nat -> growing ks -> 0 <= capacity ks).
  { clear ks. induction n as [|n IH]; intros ks Hn Hg.
    - destruct ks; [cbn; lia|cbn in Hn; lia].
    - destruct ks as [|k older]; [cbn; lia|]. cbn [length] in Hn. destruct Hg as [H1 H2].
      pose proof (IH older ltac:(lia) H2) as H3.
      change (capacity (k :: older)) with (u_len k - HEADER + capacity older).
      destruct older as [|k2 rest]; [lia|]. cbn [length] in Hn. pose proof (IH rest ltac:(lia) (proj2 H2)). lia. }
  apply (H (length ks)). lia.
Qed.

Lemma growing_pow ks : growing ks -> 64 * 2 ^ Z.of_nat (length ks / 2) <= capacity ks + 64.
Proof.
  assert (H : forall n ks, (length ks <= n)%nat -> growing ks -> 64 * 2 ^ Z.of_nat (length ks / 2) <= capacity ks + 64).
  { clear ks. induction n as [|n IH]; intros ks Hn Hg.
    - destruct ks; [cbn; lia|cbn in Hn; lia].
    - destruct ks as [|k [|k2 rest]]; [cbn; lia| |].
      + pose proof (growing_cap _ Hg). cbn [length]. change (64 * 2 ^ Z.of_nat (1 / 2)) with 64. lia.
      + destruct Hg as [H1 H2]. pose proof (growing_cap _ H2) as C2. cbn [length] in *.
        pose proof (IH rest ltac:(lia) (proj2 H2)) as H3.
        replace (S (S (length rest)) / 2)%nat with (S (length rest / 2)).
        2: { replace (S (S (length rest))) with (length rest + 1 * 2)%nat by lia. rewrite Nat.div_add by lia. lia. }
        rewrite Nat2Z.inj_succ, Z.pow_succ_r by lia.
        change (capacity (k :: k2 :: rest)) with (u_len k - HEADER + (u_len k2 - HEADER + capacity rest)).
        change (capacity (k2 :: rest)) with (u_len k2 - HEADER + capacity rest) in C2.
        destruct rest as [|k3 rest]; [cbn [length] in *; change (capacity []) with 0 in *;
          change (2 ^ Z.of_nat (0 / 2)) with 1 in *; lia|].
        assert (64 <= u_len k2 - HEADER).
        { destruct H2 as [H2 H4]. pose proof (growing_cap rest (proj2 H4)). lia. }
        lia. }
  apply (H (length ks)). lia.
Qed.

Section Growth.
  Variable su : setup.
  Hypothesis Hok : setup_ok su.
  Notation state := (cst (AW (W := bworld))).

  Lemma quiet_calls cs st o r st' :
    srep su cs st -> is_passive o = true -> do_step su o st = ORet r st' -> calls st' = calls st.
  Proof.
    intros HS Hq E. destruct o as [l' z|h off bs|h l'|h old new|h old new|k]; try discriminate.
    - apply (step_write su Hok cs st h off bs r st' HS E).
    - destruct (get h (c_tab st)) as [u|] eqn:G.
      + destruct (fitsb l' u) eqn:F.
        * apply (step_dealloc su Hok cs st h u l' r st' HS G (proj1 (fitsb_spec l' u) F) E).
        * rewrite step_eq in E. unfold step_at in E. rewrite G, F in E. inversion E; subst. reflexivity.
      + rewrite step_eq in E. unfold step_at in E. rewrite G in E. inversion E; subst. reflexivity.
  Qed.

  (** What a step that is not a reset does to the calls: nothing, or one request. *)
  Lemma step_calls ops st o r st' :
    reached su ops st -> is_reset o = false -> do_step su o st = ORet r st' ->
    calls st' = calls st \/
    exists l lay ans, requests su st o l /\ calls st' = EvAlloc lay ans :: calls st /\
      ans = st_alloc (su_strat su) (calls st) lay /\ rounded (wanted (su_min su) (held st) l) (l_size lay).
  Proof.
    intros Hr Hn E. destruct (reached_srep su Hok ops st Hr) as (cs & HS).
    destruct (requests_dec su st o) as [[l Hq]|[Hq|[Hq|Hq]]].
    - destruct (reached_request su Hok ops st o l r st' Hr Hq E) as [(_ & T)|[(lay & ans & T & A & _ & _ & Rd)|(_ & T & _)]]; auto.
      right. exists l, lay, ans. auto.
    - congruence.
    - left. apply (quiet_calls cs st o r st' HS Hq E).
    - left. rewrite Hq in E. inversion E; subst. reflexivity.
  Qed.

  Lemma growing_step ops st o r st' :
    reached su ops st -> growing (held st) -> do_step su o st = ORet r st' -> growing (held st').
  Proof.
    intros Hr Hg E. destruct (is_reset o) eqn:Eo.
    - destruct (reached_srep su Hok ops st Hr) as (cs & HS). destruct o as [| | | | |[|]]; try discriminate.
      + rewrite (proj1 (proj2 (step_reset_keep su Hok cs st r st' HS E))).
        destruct (held st) as [|k older]; [exact I|]. cbn [firstn growing]. split; [|exact I].
        destruct Hg as [H1 H2]. destruct older as [|k2 rest]; [exact H1|]. pose proof (growing_cap rest (proj2 H2)). lia.
      + rewrite (proj1 (proj2 (step_reset_final su Hok cs st r st' HS E))). exact I.
    - destruct (step_calls ops st o r st' Hr Eo E) as [T|(l & lay & ans & Hq & T & A & Rd)].
      + unfold held in *. rewrite T. exact Hg.
      + unfold held. rewrite T. destruct ans as [b|]; cbn [outstanding]; [|exact Hg].
        fold (held st). cbn [growing]. split; [|exact Hg].
        destruct Hok as (Hh & _). pose proof (proj1 Hh _ _ _ (eq_sym A)) as Hb.
        destruct Rd as [Rd _]. pose proof (proj1 (su_min_ok su Hok)) as Hm. cbn [u_len].
        assert (Hl : l_size lay <= b_len b) by (apply Hb).
        unfold wanted in Rd. destruct (held st) as [|k2 rest].
        * assert (0 <= (if 8 <? l_align l then l_align l else 0)) by (destruct (Z.ltb_spec 8 (l_align l)); lia). lia.
        * assert (0 <= (if 8 <? l_align l then l_align l else 0)) by (destruct (Z.ltb_spec 8 (l_align l)); lia). lia.
  Qed.

  Lemma growing_run ops2 : forall ops st rs st',
    reached su ops st -> growing (held st) -> do_run su ops2 st = ORet rs st' -> growing (held st').
  Proof.
    induction ops2 as [|o ops2 IH]; intros ops st rs st' Hr Hg E.
    - cbn in E. inversion E; subst. exact Hg.
    - destruct (run_cons su _ _ _ _ _ E) as (r & st1 & rs' & E1 & E2 & _).
      apply (IH (ops ++ [o]) st1 rs' st'); [apply (reached_step su ops st o r st1 Hr E1)| |exact E2].
      apply (growing_step ops st o r st1 Hr Hg E1).
  Qed.

  Lemma growing_reached ops st : reached su ops st -> growing (held st).
  Proof.
    intros (rs & E). apply (growing_run ops [] (start su) rs st); [exists []; reflexivity|exact I|exact E].
  Qed.

  Lemma lean_clear ops st r st' keep : reached su ops st -> do_step su (OpReset keep) st = ORet r st' -> lean su 0 st'.
  Proof.
    intros Hr E. destruct (reached_srep su Hok ops st Hr) as (cs & HS). destruct keep.
    - destruct (step_reset_keep su Hok cs st r st' HS E) as (_ & _ & S1). destruct cs as [|c cs].
      + exists [], 0. split; [exact S1|]. split; [lia|exact I].
      + exists [set_cur c (c_base c)], 0. split; [exact S1|]. split; [lia|]. unfold c_base, c_ptr, set_cur. cbn. lia.
    - destruct (step_reset_final su Hok cs st r st' HS E) as (_ & _ & _ & S1).
      exists [], 0. split; [exact S1|]. split; [lia|exact I].
  Qed.

  Lemma lean_cleared before st : cleared before -> reached su before st -> lean su 0 st.
  Proof.
    intros [->|(b & keep & ->)] (rs & E).
    - cbn in E. inversion E; subst. apply (lean_start su Hok).
    - destruct (run_split su _ _ _ _ _ E) as (rs1 & st1 & rs2 & E1 & E2).
      destruct (run_cons su _ _ _ _ _ E2) as (r & st2 & rs3 & E3 & E4 & _). cbn in E4. inversion E4; subst.
      apply (lean_clear b st1 r st keep); [exists rs1; exact E1|exact E3].
  Qed.

  Lemma lean_since before after st : cleared before -> existsb is_reset after = false ->
    reached su (before ++ after) st -> lean su (total_need after) st.
  Proof.
    intros Hb Ha (rs & E). destruct (run_split su _ _ _ _ _ E) as (rs1 & st1 & rs2 & E1 & E2).
    change (total_need after) with (0 + total_need after). apply (lean_run su Hok after 0 st1 rs2 st); auto.
    apply (lean_cleared before st1 Hb). exists rs1. exact E1.
  Qed.

  Lemma linear_held before after st : cleared before -> existsb is_reset after = false ->
    reached su (before ++ after) st -> capacity (tl (held st)) <= 2 * total_need after.
  Proof.
    intros Hb Ha Hr. destruct (lean_since before after st Hb Ha Hr) as (cs & a & HS & Hu & Hc).
    pose proof HS as (_ & Hh & _). rewrite <- Hh. pose proof (total_need_nonneg after).
    destruct cs as [|c older]; cbn [map tl]; [change (capacity []) with 0; lia|]. rewrite capacity_caps. lia.
  Qed.

  Lemma linear_request before after o st r st' lay ans :
    cleared before -> existsb is_reset after = false -> is_reset o = false ->
    reached su (before ++ after) st -> do_step su o st = ORet r st' -> calls st' = EvAlloc lay ans :: calls st ->
    l_size lay <= 2 * (Z.max (su_min su) (2 * total_need after) + need o + 97) + 2 ^ 14.
  Proof.
    intros Hb Ha Ho Hr E Hc.
    destruct (step_calls _ st o r st' Hr Ho E) as [T|(l & lay' & ans' & Hq & T & A & Rd)].
    { exfalso. rewrite T in Hc. apply (f_equal (@length _)) in Hc. cbn in Hc. lia. }
    rewrite T in Hc. injection Hc as <- <-.
    pose proof (linear_held before after st Hb Ha Hr) as Hl.
    pose proof (requests_need su st o l Hq) as En.
    assert (Hrq : req_ok (su_smax su) l) by (destruct o; cbn in Hq; try contradiction; apply Hq).
    destruct (req_ok_facts _ _ Hrq) as (k & _ & _ & Hpos & Hsz & _).
    pose proof (proj1 (su_min_ok su Hok)) as Hm. pose proof (total_need_nonneg after).
    assert (Wd : wanted (su_min su) (held st) l <= Z.max (su_min su) (2 * total_need after) + need o + 97).
    { unfold wanted, HEADER. destruct (held st) as [|c older]; cbn [tl] in Hl; destruct (8 <? l_align l); lia. }
    destruct Rd as (_ & [(_ & _ & H3)|[(_ & _ & H3)|(_ & _ & H3)]]); lia.
  Qed.

  Lemma log_held before after st : cleared before -> existsb is_reset after = false ->
    reached su (before ++ after) st ->
    32 * 2 ^ Z.of_nat ((length (held st) - 1) / 2) <= total_need after + 32.
  Proof.
    intros Hb Ha Hr. pose proof (linear_held before after st Hb Ha Hr) as Hl. pose proof (growing_reached _ _ Hr) as Hg.
    assert (Ht : growing (tl (held st))) by (destruct (held st); [exact I|apply Hg]).
    pose proof (growing_pow _ Ht) as Hp. replace (length (tl (held st))) with (length (held st) - 1)%nat in Hp; [lia|].
    destruct (held st); cbn [tl length]; lia.
  Qed.

  (** Without a reset, as many chunks are added as memory was given. *)
  Lemma given_run ops2 : forall ops st rs st',
    reached su ops st -> existsb is_reset ops2 = false -> do_run su ops2 st = ORet rs st' ->
    (given (calls st') + length (held st) = given (calls st) + length (held st'))%nat.
  Proof.
    induction ops2 as [|o ops2 IH]; intros ops st rs st' Hr Hn E.
    - cbn in E. inversion E; subst. reflexivity.
    - cbn [existsb] in Hn. apply orb_false_iff in Hn. destruct Hn as [N1 N2].
      destruct (run_cons su _ _ _ _ _ E) as (r & st1 & rs' & E1 & E2 & _).
      pose proof (IH (ops ++ [o]) st1 rs' st' (reached_step su ops st o r st1 Hr E1) N2 E2) as H.
      destruct (step_calls ops st o r st1 Hr N1 E1) as [T|(l & lay & ans & _ & T & _ & _)].
      + unfold held in *. rewrite T in H. exact H.
      + unfold held in *. rewrite T in H. destruct ans as [b|]; unfold given in *; cbn [outstanding filter length] in *; lia.
  Qed.

  Lemma log_given before after st0 rs st : cleared before -> existsb is_reset after = false ->
    reached su before st0 -> do_run su after st0 = ORet rs st ->
    32 * 2 ^ Z.of_nat ((given (calls st) - given (calls st0) - 1) / 2) <= total_need after + 32.
  Proof.
    intros Hb Ha Hr E. pose proof (log_held before after st Hb Ha (reached_app su _ _ _ _ _ Hr E)) as Hl.
    pose proof (given_run after before st0 rs st Hr Ha E) as Hg.
    assert (Hp : 2 ^ Z.of_nat ((given (calls st) - given (calls st0) - 1) / 2) <= 2 ^ Z.of_nat ((length (held st) - 1) / 2)).
    { apply Z.pow_le_mono_r; [lia|]. apply inj_le. apply Nat.div_le_mono; lia. }
    lia.
  Qed.
End Growth.
