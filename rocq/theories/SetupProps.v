(** The lemmas behind the properties of single operations and of warm runs. *)
From Coq Require Import Permutation.
From Verif Require Import Base BaseFacts Alloc AllocFacts Arena ArenaFacts ArenaInv ArenaOps
  BlinkAlloc BlinkFacts History HistoryFacts Setup SetupFacts SetupOps SetupOps2 SetupOps3.

Lemma capacity_caps cs : capacity (map c_u cs) = sum_caps cs.
Proof.
  induction cs as [|c cs IH]; cbn [map sum_caps capacity fold_right]; [reflexivity|].
  unfold capacity in IH. rewrite IH. unfold c_cap, c_end, c_base, HEADER, HDR. lia.
Qed.

Lemma wanted_raw min cs l : wanted min (map c_u cs) l = chunk_raw (cum_of cs) min l.
Proof.
  unfold wanted, chunk_raw. destruct cs as [|c cs]; cbn [map cum_of].
  - unfold HEADER, HDR, HDR_ALIGN. lia.
  - rewrite capacity_caps. unfold HEADER, HDR, HDR_ALIGN, CHUNK_MIN_GROW_STEP. lia.
Qed.

Lemma slow_req_wanted cs min l smax :
  0 <= min -> 0 <= sum_caps (tl cs) -> req_ok smax l ->
  match slow_req cs min l with
  | None => USIZE_MAX < wanted min (map c_u cs) l + 7
  | Some lay => l_align lay = 8 /\ rounded (wanted min (map c_u cs) l) (l_size lay) /\
                l_size lay <= USIZE_MAX
  end.
Proof.
  intros Hmin Hsum Hl. rewrite wanted_raw. unfold slow_req.
  assert (Hc : match cum_of cs with Some c => 0 <= c | None => True end) by (destruct cs; cbn in *; lia).
  rewrite (next_chunk_size_raw _ _ _ smax Hmin Hc Hl).
  destruct (chunk_raw_facts (cum_of cs) min l smax Hmin Hc Hl) as (F1 & F2 & _).
  set (raw := chunk_raw (cum_of cs) min l) in *. clearbody raw.
  destruct (Z.leb_spec raw USIZE_MAX) as [L|]; [|lia].
  unfold chunk_round, CHUNK_POWER_OF_TWO_THRESHOLD. unfold HDR in F2.
  destruct (Z.ltb_spec raw (2 ^ 14)) as [Lt|Ge].
  - destruct (next_power_of_two_spec raw ltac:(lia)) as (N1 & N2 & N3). specialize (N3 ltac:(lia)).
    assert (E8 : next_power_of_two raw mod 8 = 0).
    { unfold next_power_of_two. apply pow2_mod8.
      pose proof (Z.log2_up_le_mono 32 raw ltac:(lia)) as M. change (Z.log2_up 32) with 5 in M. lia. }
    rewrite (align_up8_id (next_power_of_two raw)); [|lia|exact E8|unfold USIZE_MAX; lia].
    cbn [l_align l_size]. split; [reflexivity|]. split; [|unfold USIZE_MAX; lia].
    split; [lia|]. left. auto.
  - rewrite align_up_spec by lia.
    destruct (Z.leb_spec (raw + (2 ^ 14 - 1)) USIZE_MAX) as [L2|G2].
    + pose proof (Z.mod_pos_bound (raw + (2 ^ 14 - 1)) (2 ^ 14) ltac:(lia)) as B.
      pose proof (Z.div_mod (raw + (2 ^ 14 - 1)) (2 ^ 14) ltac:(lia)) as D.
      set (q := (raw + (2 ^ 14 - 1)) / 2 ^ 14) in *.
      assert (Eq : raw + (2 ^ 14 - 1) - (raw + (2 ^ 14 - 1)) mod 2 ^ 14 = q * 2 ^ 14) by lia.
      rewrite Eq. rewrite align_up8_id; [|lia| |lia].
      2: { replace (q * 2 ^ 14) with (q * 2048 * 8) by lia. apply Z.mod_mul; lia. }
      cbn [l_align l_size]. split; [reflexivity|]. split; [|lia]. split; [lia|]. right. left.
      split; [lia|]. split; [apply Z.mod_mul; lia|lia].
    + destruct (align_up raw HDR_ALIGN) as [s|] eqn:Es.
      * destruct (align_up8 raw s ltac:(lia) Es) as (B & M & U). cbn [l_align l_size].
        split; [reflexivity|]. split; [|lia]. split; [lia|]. right. right. split; [lia|]. split; [exact M|lia].
      * change HDR_ALIGN with (2 ^ 3) in Es. rewrite align_up_spec in Es by lia.
        destruct (Z.leb_spec (raw + (2 ^ 3 - 1)) USIZE_MAX); [discriminate|]. lia.
Qed.

Section Props.
  Variable su : setup.
  Hypothesis Hok : setup_ok su.
  Notation state := (cst (AW (W := bworld))).

  Lemma srep_caps cs st : srep su cs st -> 0 <= sum_caps (tl cs).
  Proof.
    intros (R & _ & _). destruct cs as [|c cs]; cbn [tl]; [cbn; lia|].
    apply sum_caps_len. rewrite Forall_forall. intros c' Hc'.
    destruct (arep_chunk_ok _ _ _ _ (su_ct su Hok) _ _ _ _ _ c' R (or_intror Hc'))
      as (_ & _ & _ & _ & L1 & _). exact L1.
  Qed.

  (** ** What a request does *)

  Lemma step_request cs st o l r st' :
    srep su cs st -> requests su st o l -> do_step su o st = ORet r st' ->
    (r <> None /\ calls st' = calls st /\
       exists c n cs', cs = c :: cs' /\ c_cur c <= n <= c_cur c + (l_size l + (l_align l - 1)) /\
         srep su (set_cur c n :: cs') st') \/
    (fits_root cs l = false /\ r = None /\ calls st' = calls st /\ slow_req cs (su_min su) l = None /\
       srep su cs st') \/
    (fits_root cs l = false /\ exists lay ans, slow_req cs (su_min su) l = Some lay /\
       calls st' = EvAlloc lay ans :: calls st /\ (r = None <-> ans = None) /\ ans = st_alloc (su_strat su) (calls st) lay /\
       if r then exists c, c_cur c <= c_base c + (l_size l + (l_align l - 1)) /\ srep su (c :: cs) st' else srep su cs st').
  Proof.
    intros HS Hr E.
    assert (Hup : forall (r0 : option block) cs1, @upstream (su_strat su) (slow_req cs (su_min su) l) block r0 (calls st) (calls st') ->
      fits_root cs l = false -> r0 = r -> srep su cs1 st' -> (if r then exists c, c_cur c <= c_base c + (l_size l + (l_align l - 1)) /\ cs1 = c :: cs else cs1 = cs) ->
      (fits_root cs l = false /\ r = None /\ calls st' = calls st /\ slow_req cs (su_min su) l = None /\
       srep su cs st') \/
      (fits_root cs l = false /\ exists lay ans, slow_req cs (su_min su) l = Some lay /\
       calls st' = EvAlloc lay ans :: calls st /\ (r = None <-> ans = None) /\ ans = st_alloc (su_strat su) (calls st) lay /\
       if r then exists c, c_cur c <= c_base c + (l_size l + (l_align l - 1)) /\ srep su (c :: cs) st' else srep su cs st')).
    { intros r0 cs1 U Fr -> S1 Hcs. unfold upstream in U.
      destruct (slow_req cs (su_min su) l) as [lay|].
      - right. split; [exact Fr|]. destruct U as (ans & U1 & U2 & U3). exists lay, ans.
        split; [reflexivity|]. split; [exact U1|]. split; [exact U2|]. split; [exact U3|].
        destruct r; [destruct Hcs as (c & Bc & ->); eauto|subst cs1; exact S1].
      - left. destruct U as [-> U]. subst cs1. auto. }
    destruct o as [l' z|h off bs|h l'|h old new|h old new|k]; cbn [requests] in Hr; try contradiction.
    - destruct Hr as [-> Hl].
      destruct (step_alloc su Hok cs st l z r st' HS Hl E) as (_ & _ & _ & H).
      destruct (fits_root cs l) eqn:Fr.
      + left. destruct H as (T & c & cs' & b & -> & -> & Eb & S1). split; [discriminate|].
        split; [exact T|]. exists c, (b_ptr b + l_size l), cs'. split; [reflexivity|]. split; [|exact S1].
        destruct (req_ok_facts _ _ Hl) as (k & _ & _ & Hpos & Hsz & _).
        pose proof (round_up_spec (c_cur c) (l_align l) Hpos) as [Br _]. rewrite Eb. cbn [b_ptr]. lia.
      + right. destruct H as (U & H). destruct r as [b|].
        * destruct H as (_ & c & Ec & Eb & S1). apply (Hup _ (c :: cs) U eq_refl eq_refl S1). exists c. split; [lia|reflexivity].
        * apply (Hup _ cs U eq_refl eq_refl H). reflexivity.
    - destruct Hr as (-> & Hl & u & G & Hf).
      destruct (step_resize su Hok cs st h u old l r st' HS G Hf Hl E) as (_ & H).
      destruct r as [b|].
      + destruct H as (_ & _ & _ & [(T & c & n & cs' & Ecs & Bn & S1)|(Fr & U & c & Bc & S1)]).
        * left. split; [discriminate|]. split; [exact T|]. exists c, n, cs'. auto.
        * right. apply (Hup _ (c :: cs) U Fr eq_refl S1). eauto.
      + right. destruct H as (_ & _ & Fr & U & S1). apply (Hup _ cs U Fr eq_refl S1). reflexivity.
    - destruct Hr as (-> & Hl & Hle & u & G & Hf).
      destruct (step_grow_zeroed su Hok cs st h u old l r st' HS G Hf Hl Hle E) as (_ & H).
      destruct r as [b|].
      + destruct H as (_ & _ & _ & _ & [(T & c & n & cs' & Ecs & Bn & S1)|(Fr & U & c & Bc & S1)]).
        * left. split; [discriminate|]. split; [exact T|]. exists c, n, cs'. auto.
        * right. apply (Hup _ (c :: cs) U Fr eq_refl S1). eauto.
      + right. destruct H as (_ & _ & Fr & U & S1). apply (Hup _ cs U Fr eq_refl S1). reflexivity.
  Qed.

  (** ** C05 *)

  Lemma reached_fail ops st o l st' :
    reached su ops st -> requests su st o l -> do_step su o st = ORet None st' ->
    c_tab st' = c_tab st /\ held st' = held st /\
    forall h u x, get h (c_tab st) = Some u -> in_u x u -> memory st' x = memory st x.
  Proof.
    intros Hr Hq E. destruct (reached_srep su Hok ops st Hr) as (cs & HS).
    destruct (step_request cs st o l None st' HS Hq E) as [(N & _)|H]; [congruence|].
    assert (Hheld : held st' = held st).
    { destruct H as [(_ & _ & T & _)|(_ & lay & ans & _ & T & A & _)]; unfold held; rewrite T; [reflexivity|].
      cbn [outstanding]. rewrite (proj1 A eq_refl). reflexivity. }
    clear H. split; [|split; [exact Hheld|]].
    - destruct o as [l' z|h off bs|h l'|h old new|h old new|k]; cbn [requests] in Hq; try contradiction.
      + destruct Hq as [-> Hl].
        destruct (step_alloc su Hok cs st l z None st' HS Hl E) as (_ & _ & H & _). rewrite app_nil_r in H. exact H.
      + destruct Hq as (-> & Hl & u & G & Hf).
        destruct (step_resize su Hok cs st h u old l None st' HS G Hf Hl E) as (_ & H & _). exact H.
      + destruct Hq as (-> & Hl & Hle & u & G & Hf).
        destruct (step_grow_zeroed su Hok cs st h u old l None st' HS G Hf Hl Hle E) as (_ & H & _). exact H.
    - intros h0 u0 x G0 Hx. pose proof (get_live G0) as Hin.
      destruct o as [l' z|h off bs|h l'|h old new|h old new|k]; cbn [requests] in Hq; try contradiction.
      + destruct Hq as [-> Hl].
        destruct (step_alloc su Hok cs st l z None st' HS Hl E) as (H & _). apply (H u0 x Hin Hx).
      + destruct Hq as (-> & Hl & u & G & Hf).
        destruct (step_resize su Hok cs st h u old l None st' HS G Hf Hl E) as (_ & _ & H & _). apply (H u0 x Hin Hx).
      + destruct Hq as (-> & Hl & Hle & u & G & Hf).
        destruct (step_grow_zeroed su Hok cs st h u old l None st' HS G Hf Hl Hle E) as (_ & _ & H & _).
        apply (H u0 x Hin Hx).
  Qed.

  (** ** C04, C20: resize keeps the prefix, grow_zeroed adds zeroes *)

  Lemma reached_resize ops st h u old new b st' :
    reached su ops st -> get h (c_tab st) = Some u -> fits old u -> req_ok (su_smax su) new ->
    do_step su (OpResize h old new) st = ORet (Some b) st' ->
    get h (c_tab st') = Some (mkU (b_ptr b) (b_len b) new) /\
    0 < b_ptr b /\ b_ptr b mod l_align new = 0 /\ l_size new <= b_len b /\
    (forall i, 0 <= i < Z.min (l_size old) (l_size new) ->
       memory st' (b_ptr b + i) = memory st (u_ptr u + i)) /\
    (forall h' v x, h' <> h -> get h' (c_tab st) = Some v -> in_u x v ->
       get h' (c_tab st') = Some v /\ memory st' x = memory st x).
  Proof.
    intros Hr G Hf Hn E. destruct (reached_srep su Hok ops st Hr) as (cs & HS).
    destruct (step_resize su Hok cs st h u old new (Some b) st' HS G Hf Hn E) as (H1 & H2 & (B1 & B2 & B3 & _) & H4 & _).
    rewrite H2. pose proof (get_len _ _ _ G) as L. split.
    { rewrite get_set_nth by exact L. rewrite Nat.eqb_refl. reflexivity. }
    split; [exact B1|]. split; [exact B2|]. split; [exact B3|]. split.
    { intros i Hi. apply H4. lia. }
    intros h' v x N Gv Hx. split; [|apply (H1 h' v x N Gv Hx)].
    rewrite get_set_nth by exact L. destruct (Nat.eqb_spec h h'); [congruence|exact Gv].
  Qed.

  Lemma reached_grow_zeroed ops st h u old new b st' :
    reached su ops st -> get h (c_tab st) = Some u -> fits old u -> req_ok (su_smax su) new ->
    l_size old <= l_size new ->
    do_step su (OpGrowZeroed h old new) st = ORet (Some b) st' ->
    get h (c_tab st') = Some (mkU (b_ptr b) (b_len b) new) /\ l_size new <= b_len b /\
    (forall i, 0 <= i < l_size old -> memory st' (b_ptr b + i) = memory st (u_ptr u + i)) /\
    (forall i, l_size old <= i < b_len b -> memory st' (b_ptr b + i) = Byte 0).
  Proof.
    intros Hr G Hf Hn Hle E. destruct (reached_srep su Hok ops st Hr) as (cs & HS).
    destruct (step_grow_zeroed su Hok cs st h u old new (Some b) st' HS G Hf Hn Hle E)
      as (H1 & H2 & (B1 & B2 & B3 & _) & H4 & H5 & _).
    rewrite H2. pose proof (get_len _ _ _ G) as L. split.
    { rewrite get_set_nth by exact L. rewrite Nat.eqb_refl. reflexivity. }
    auto.
  Qed.

  Lemma reached_alloc_zeroed ops st l b st' :
    reached su ops st -> req_ok (su_smax su) l ->
    do_step su (OpAlloc l true) st = ORet (Some b) st' ->
    get (length (c_tab st)) (c_tab st') = Some (mkU (b_ptr b) (b_len b) l) /\ l_size l <= b_len b /\
    (forall i, 0 <= i < b_len b -> memory st' (b_ptr b + i) = Byte 0).
  Proof.
    intros Hr Hl E. destruct (reached_srep su Hok ops st Hr) as (cs & HS).
    destruct (step_alloc su Hok cs st l true (Some b) st' HS Hl E) as (H1 & H2 & H3 & H4).
    specialize (H2 eq_refl). rewrite H3. split; [apply get_last|]. split; [|exact H2].
    destruct (fits_root cs l).
    - destruct H4 as (_ & c & cs' & b' & _ & Eb & Eb' & _). injection Eb as Eb. rewrite <- Eb in Eb'.
      rewrite Eb'. cbn. lia.
    - destruct H4 as (_ & Eb & _). lia.
  Qed.

  (** ** C06 *)

  Lemma reached_shrink ops st h u old new :
    reached su ops st -> get h (c_tab st) = Some u -> fits old u -> req_ok (su_smax su) new ->
    l_size new <= l_size old -> l_align new <= l_align old ->
    exists st', do_step su (OpResize h old new) st = ORet (Some (mkBlock (u_ptr u) (l_size old))) st' /\
      calls st' = calls st /\ c_w st' = c_w st.
  Proof.
    intros Hr G Hf Hn Hs Ha. destruct (reached_srep su Hok ops st Hr) as (cs & HS).
    destruct (resize_at_root su Hok cs st h u old new HS G Hf Hn) as (c & cs' & _ & H & _).
    eexists. split; [apply H; auto|]. split; reflexivity.
  Qed.

  (** ** C08 *)

  Lemma reached_dealloc ops st h u l :
    reached su ops st -> get h (c_tab st) = Some u -> fits l u ->
    exists r st', do_step su (OpDealloc h l) st = ORet r st' /\
      fst (c_w st') = fst (c_w st) /\ calls st' = calls st /\
      (forall x, memory st' x = memory st x) /\
      (forall h' v, h' <> h -> get h' (c_tab st) = Some v -> get h' (c_tab st') = Some v).
  Proof.
    intros Hr G Hf. destruct (reached_srep su Hok ops st Hr) as (cs & HS).
    destruct (reached_step_total su Hok ops st (OpDealloc h l) Hr) as (r & st' & E & _).
    exists r, st'. split; [exact E|].
    destruct (step_dealloc su Hok cs st h u l r st' HS G Hf E) as (H1 & H2 & H3 & H4 & _).
    split; [exact H2|]. split; [exact H3|]. split; [exact H4|].
    intros h' v N Gv. rewrite H1, get_set_nth by (apply (get_len _ _ _ G)).
    destruct (Nat.eqb_spec h h'); [congruence|exact Gv].
  Qed.

  (** ** C09 *)

  Lemma passive_step cs st o r st' :
    srep su cs st -> is_passive o = true -> do_step su o st = ORet r st' ->
    srep su cs st' /\ forall h u, get h (c_tab st') = Some u -> get h (c_tab st) = Some u.
  Proof.
    intros HS Hp E. destruct o as [l' z|h off bs|h l'|h old new|h old new|k]; try discriminate.
    - destruct (step_write su Hok cs st h off bs r st' HS E) as (H1 & _ & _ & _ & H2).
      split; [exact H2|]. rewrite H1. auto.
    - destruct (get h (c_tab st)) as [u|] eqn:G.
      + destruct (fitsb l' u) eqn:F.
        * destruct (step_dealloc su Hok cs st h u l' r st' HS G (proj1 (fitsb_spec l' u) F) E) as (H1 & _ & _ & _ & H2).
          split; [exact H2|]. intros h' v. rewrite H1, get_set_nth by (apply (get_len _ _ _ G)).
          destruct (Nat.eqb_spec h h'); [discriminate|auto].
        * rewrite step_eq in E. unfold step_at in E. rewrite G, F in E. inversion E; subst. auto.
      + rewrite step_eq in E. unfold step_at in E. rewrite G in E. inversion E; subst. auto.
  Qed.

  Lemma run_cons o ops st rs st' : do_run su (o :: ops) st = ORet rs st' ->
    exists r st1 rs', do_step su o st = ORet r st1 /\ do_run su ops st1 = ORet rs' st' /\ rs = r :: rs'.
  Proof.
    unfold do_run, do_step. cbn [run]. unfold bind.
    destruct (step (su_smax su) (ba su) (do_reset su) o st) as [r st1| | |]; try discriminate.
    intros E. exists r, st1.
    destruct (run (su_smax su) (ba su) (do_reset su) ops st1) as [rs' st2| | |]; try discriminate.
    cbn in E. inversion E; subst. eauto.
  Qed.

  Lemma passive_run ops : forall cs st rs st',
    srep su cs st -> forallb is_passive ops = true -> do_run su ops st = ORet rs st' ->
    srep su cs st' /\ forall h u, get h (c_tab st') = Some u -> get h (c_tab st) = Some u.
  Proof.
    induction ops as [|o ops IH]; intros cs st rs st' HS Hp E.
    - cbn in E. inversion E; subst. auto.
    - cbn [forallb] in Hp. apply andb_true_iff in Hp. destruct Hp as [Hp1 Hp2].
      destruct (run_cons _ _ _ _ _ E) as (r & st1 & rs' & E1 & E2 & _).
      destruct (passive_step cs st o r st1 HS Hp1 E1) as [S1 G1].
      destruct (IH cs st1 rs' st' S1 Hp2 E2) as [S2 G2]. split; [exact S2|]. auto.
  Qed.

  Lemma reached_tip ops st l z b st1 mid rs st2 u old new k :
    reached su ops st -> req_ok (su_smax su) l -> do_step su (OpAlloc l z) st = ORet (Some b) st1 ->
    forallb is_passive mid = true -> do_run su mid st1 = ORet rs st2 ->
    get (length (c_tab st)) (c_tab st2) = Some u -> fits old u -> req_ok (su_smax su) new ->
    l_align new <= l_align old -> l_size old <= l_size new ->
    In k (held st2) -> inside u k -> u_ptr u + l_size new <= u_ptr k + u_len k ->
    exists b' st3, do_step su (OpResize (length (c_tab st)) old new) st2 = ORet (Some b') st3 /\
      b_ptr b' = u_ptr u /\ b_len b' = l_size new /\ calls st3 = calls st2 /\
      forall x, ~ (u_ptr k <= x < u_ptr k + HEADER) -> memory st3 x = memory st2 x.
  Proof.
    intros Hr Hl E1 Hp E2 G Hf Hn Ha Hs Hk Hin Hroom.
    destruct (reached_srep su Hok ops st Hr) as (cs & HS).
    destruct (step_alloc su Hok cs st l z (Some b) st1 HS Hl E1) as (_ & _ & T1 & H).
    assert (Htip : exists c cs', srep su (c :: cs') st1 /\ c_cur c = b_ptr b + l_size l /\ b_len b = l_size l).
    { destruct (fits_root cs l).
      - destruct H as (_ & c & cs' & b' & _ & Eb & Eb' & S1). injection Eb as Eb. rewrite <- Eb in *.
        eexists _, _. split; [exact S1|]. cbn. split; [reflexivity|]. rewrite Eb'. reflexivity.
      - destruct H as (_ & Lb & c & Ec & _ & S1). exists c, cs. auto. }
    destruct Htip as (c & cs' & S1 & Ec & Lb).
    destruct (passive_run mid (c :: cs') st1 rs st2 S1 Hp E2) as [S2 G2].
    assert (Eu : u = mku b l).
    { apply G2 in G. rewrite T1, get_last in G. congruence. }
    destruct (resize_at_root su Hok _ st2 _ u old new S2 G Hf Hn) as (c0 & cs0 & Ecs & R1 & R2).
    inversion Ecs; subst c0 cs0. clear Ecs.
    pose proof Hf as [F1 F2].
    assert (Eold : l_size old = l_size l) by (subst u; cbn in F2; lia).
    assert (Hcu : c_cur c = u_ptr u + l_size old) by (subst u; cbn; lia).
    destruct S2 as (R & Hh & _).
    destruct (arep_chunk_ok _ _ _ _ (su_ct su Hok) _ _ _ _ _ c R (or_introl eq_refl))
      as ((_ & _ & W1) & _ & Q1 & Q8 & L1 & Q2).
    assert (Hkc : k = c_u c).
    { rewrite <- Hh in Hk. destruct Hk as [Hk|Hk]; [auto|exfalso].
      apply in_map_iff in Hk. destruct Hk as (ck & <- & Hck).
      pose proof (ar_own _ _ _ _ _ _ _ _ R) as Hown.
      destruct (ct_wf _ _ _ _ (su_ct su Hok) _ _ Hown) as [_ Hd].
      cbn [map app pairwise] in Hd. destruct Hd as [Hd _]. rewrite Forall_forall in Hd.
      assert (Hd' := Hd (c_u ck) ltac:(apply in_or_app; left; apply in_map; exact Hck)).
      specialize (Hd' (u_ptr u - 1)).
      assert (Hub : c_base c <= u_ptr u).
      { destruct (fits_root cs l) eqn:Fr; clear Hd Hd'.
        - pose proof (ar_placed _ _ _ _ _ _ _ _ R) as P. unfold placed in P. rewrite Forall_forall in P.
          destruct H as (_ & c1 & cs1 & b' & Ecs1 & Eb & Eb' & S3). injection Eb as Eb. rewrite <- Eb in *.
          destruct HS as (R0 & _ & _).
          subst cs.
          destruct (arep_chunk_ok _ _ _ _ (su_ct su Hok) _ _ _ _ _ c1 R0 (or_introl eq_refl)) as ((_ & _ & W0) & _).
          destruct S3 as (R3 & _ & _). destruct S1 as (R4 & _ & _).
          pose proof (ar_head _ _ _ _ _ _ _ _ R3) as X3. pose proof (ar_head _ _ _ _ _ _ _ _ R4) as X4.
          rewrite X3 in X4. cbn in X4. injection X4 as X4. unfold c_ptr in X4. cbn in X4.
          subst u. cbn. rewrite Eb'. cbn.
          destruct (req_ok_facts _ _ Hl) as (k & _ & _ & Hpos & _ & _).
          pose proof (round_up_spec (c_cur c1) (l_align l) Hpos) as [Br _].
          unfold c_base, c_ptr in *. lia.
        - destruct H as (_ & _ & c1 & Ec1 & Ec2 & S3).
          destruct S3 as (R3 & _ & _). destruct S1 as (R4 & _ & _).
          pose proof (ar_head _ _ _ _ _ _ _ _ R3) as X3. pose proof (ar_head _ _ _ _ _ _ _ _ R4) as X4.
          rewrite X3 in X4. cbn in X4. injection X4 as X4.
          subst u. cbn. unfold c_base, c_ptr in *. lia. }
      unfold inside, HEADER, in_u, c_base, c_end, c_ptr, HDR in *.
      assert (0 <= u_len u).
      { pose proof (ar_ok _ _ _ _ _ _ _ _ R) as Ho. rewrite Forall_forall in Ho.
        destruct (Ho u (get_live G)) as ((_ & _ & X & _) & _ & Y). cbn in X. lia. }
      subst u. cbn [u_ptr u_len mku] in *. lia. }
    subst k. destruct (Z.eq_dec (l_size old) (l_size new)) as [Eq|Ne].
    - exists (mkBlock (u_ptr u) (l_size old)). eexists. split; [apply R1; lia|].
      split; [reflexivity|]. split; [exact Eq|]. split; [reflexivity|]. intros x _. reflexivity.
    - exists (mkBlock (u_ptr u) (l_size new)). eexists. split.
      { apply R2; [exact Ha|lia|exact Hcu|]. unfold c_end, c_ptr. exact Hroom. }
      split; [reflexivity|]. split; [reflexivity|]. split; [reflexivity|].
      intros x Hx. unfold memory. cbn [c_w snd bw_mem]. unfold store.
      replace ((c_ptr c + CURSOR <=? x) && (x <? c_ptr c + CURSOR + 8)) with false; [reflexivity|].
      unfold HEADER, CURSOR, c_ptr in *. lia.
  Qed.

  (** ** C13 *)

  Lemma reached_reset ops st :
    reached su ops st ->
    (exists r st', do_step su (OpReset true) st = ORet r st' /\ held st' = firstn 1 (held st)) /\
    (exists r st', do_step su (OpReset false) st = ORet r st' /\ held st' = []) /\
    (exists aw', blink_drop (bot su) (su_dbg su) (c_w st) = ORet tt aw' /\
       outstanding (bw_trace (snd aw')) = []).
  Proof.
    intros Hr. destruct (reached_srep su Hok ops st Hr) as (cs & HS).
    destruct (reached_step_total su Hok ops st (OpReset true) Hr) as (r1 & st1 & E1 & _).
    destruct (reached_step_total su Hok ops st (OpReset false) Hr) as (r2 & st2 & E2 & _).
    split; [|split].
    - exists r1, st1. split; [exact E1|]. apply (step_reset_keep su Hok cs st r1 st1 HS E1).
    - exists r2, st2. split; [exact E2|]. apply (step_reset_final su Hok cs st r2 st2 HS E2).
    - pose proof (drop_ok su Hok cs st HS) as H. apply wp_inv in H. destruct H as ([] & aw' & E & H). eauto.
  Qed.

  (** ** C14 *)

  Lemma requests_dec st o :
    (exists l, requests su st o l) \/ is_reset o = true \/ is_passive o = true \/
    (do_step su o st = ORet None st).
  Proof.
    destruct o as [l' z|h off bs|h l'|h old new|h old new|k]; cbn [is_reset is_passive]; auto.
    - destruct (req_okb (su_smax su) l') eqn:E.
      + left. exists l'. cbn. auto.
      + right. right. right. rewrite step_eq. unfold step_at. rewrite E. reflexivity.
    - destruct (get h (c_tab st)) as [u|] eqn:G.
      + destruct (fitsb old u && req_okb (su_smax su) new) eqn:E.
        * left. exists new. cbn. apply andb_true_iff in E. destruct E as [E1 E2]. split; [reflexivity|].
          split; [exact E2|]. exists u. split; [exact G|]. apply fitsb_spec. exact E1.
        * right. right. right. rewrite step_eq. unfold step_at. rewrite G, E. reflexivity.
      + right. right. right. rewrite step_eq. unfold step_at. rewrite G. reflexivity.
    - destruct (get h (c_tab st)) as [u|] eqn:G.
      + destruct (fitsb old u && req_okb (su_smax su) new && (l_size old <=? l_size new)) eqn:E.
        * left. exists new. cbn. apply andb_true_iff in E. destruct E as [E E3].
          apply andb_true_iff in E. destruct E as [E1 E2]. split; [reflexivity|].
          split; [exact E2|]. split; [lia|]. exists u. split; [exact G|]. apply fitsb_spec. exact E1.
        * right. right. right. rewrite step_eq. unfold step_at. rewrite G, E. reflexivity.
      + right. right. right. rewrite step_eq. unfold step_at. rewrite G. reflexivity.
  Qed.

  Lemma requests_need st o l : requests su st o l -> need o = l_size l + (l_align l - 1).
  Proof.
    intros H. assert (Hl : req_ok (su_smax su) l).
    { destruct o; cbn in H; try contradiction; apply H. }
    destruct (req_ok_facts _ _ Hl) as (k & _ & _ & Hpos & Hsz & _).
    destruct o; cbn in H; try contradiction; destruct H as [<- _]; cbn [need]; lia.
  Qed.

  Lemma need_nonneg o : 0 <= need o.
  Proof. destruct o; cbn; lia. Qed.
  Lemma total_need_nonneg ops : 0 <= total_need ops.
  Proof.
    induction ops as [|o ops IH]; cbn; [lia|]. pose proof (need_nonneg o). unfold total_need in IH. lia.
  Qed.

  (** [n] more bytes are available in the only chunk. *)
  Definition warm (n : Z) (st : state) : Prop :=
    exists c, srep su [c] st /\ c_cur c + n <= c_end c.

  Lemma warm_step n st o r st' :
    warm n st -> is_reset o = false -> need o <= n -> do_step su o st = ORet r st' ->
    calls st' = calls st /\ warm (n - need o) st' /\ (forall l, requests su st o l -> r <> None).
  Proof.
    intros (c & HS & Hc) Hnr Hn E.
    destruct (requests_dec st o) as [[l Hq]|[Hq|[Hq|Hq]]].
    - pose proof (requests_need st o l Hq) as En.
      assert (Hl : req_ok (su_smax su) l).
      { destruct o; cbn in Hq; try contradiction; apply Hq. }
      assert (Fr : fits_root [c] l = true).
      { cbn [fits_root]. unfold room.
        destruct (req_ok_facts _ _ Hl) as (k & _ & _ & Hpos & Hsz & _).
        pose proof (round_up_spec (c_cur c) (l_align l) Hpos) as [Br _].
        destruct HS as (R & _ & _).
        destruct (arep_chunk_ok _ _ _ _ (su_ct su Hok) _ _ _ _ _ c R (or_introl eq_refl))
          as (_ & _ & _ & _ & _ & Q2). pose proof (su_amax_ok su Hok). lia. }
      destruct (step_request [c] st o l r st' HS Hq E) as [(N & T & c1 & n1 & cs1 & Ec & Bn & S1)|[(F & _)|(F & _)]];
        [|congruence|congruence].
      inversion Ec; subst c1 cs1. split; [exact T|]. split; [|auto].
      exists (set_cur c n1). split; [exact S1|]. unfold c_end, c_ptr, set_cur in *. cbn. lia.
    - congruence.
    - destruct (passive_step [c] st o r st' HS Hq E) as [S1 _].
      assert (Hcalls : calls st' = calls st).
      { destruct o as [l' z|h off bs|h l'|h old new|h old new|k]; try discriminate.
        - apply (step_write su Hok [c] st h off bs r st' HS E).
        - destruct (get h (c_tab st)) as [u|] eqn:G.
          + destruct (fitsb l' u) eqn:F.
            * apply (step_dealloc su Hok [c] st h u l' r st' HS G (proj1 (fitsb_spec l' u) F) E).
            * rewrite step_eq in E. unfold step_at in E. rewrite G, F in E. inversion E; subst. reflexivity.
          + rewrite step_eq in E. unfold step_at in E. rewrite G in E. inversion E; subst. reflexivity. }
      split; [exact Hcalls|]. split.
      + exists c. split; [exact S1|]. pose proof (need_nonneg o). lia.
      + intros l H. destruct o; cbn in H, Hq; try discriminate; contradiction.
    - rewrite Hq in E. inversion E; subst. split; [reflexivity|]. split.
      + exists c. split; [exact HS|]. pose proof (need_nonneg o). lia.
      + intros l Hl. exfalso. assert (El := requests_need st' o l Hl).
        (* a skipped request is not a request *)
        assert (Hl2 : req_ok (su_smax su) l) by (destruct o; cbn in Hl; try contradiction; apply Hl).
        assert (Fr : fits_root [c] l = true).
        { cbn [fits_root]. unfold room.
          destruct (req_ok_facts _ _ Hl2) as (k & _ & _ & Hpos & Hsz & _).
          pose proof (round_up_spec (c_cur c) (l_align l) Hpos) as [Br _].
          destruct HS as (R & _ & _).
          destruct (arep_chunk_ok _ _ _ _ (su_ct su Hok) _ _ _ _ _ c R (or_introl eq_refl))
            as (_ & _ & _ & _ & _ & Q2). pose proof (su_amax_ok su Hok). lia. }
        destruct (step_request [c] st' o l None st' HS Hl Hq) as [(N & _)|[(F & _)|(F & _)]]; congruence.
  Qed.

  Lemma warm_run ops : forall n st rs st',
    warm n st -> existsb is_reset ops = false -> total_need ops <= n -> do_run su ops st = ORet rs st' ->
    calls st' = calls st /\ warm (n - total_need ops) st'.
  Proof.
    induction ops as [|o ops IH]; intros n st rs st' Hw Hnr Hn E.
    - cbn in E. inversion E; subst. split; [reflexivity|]. cbn. rewrite Z.sub_0_r. exact Hw.
    - cbn [existsb] in Hnr. apply orb_false_iff in Hnr. destruct Hnr as [N1 N2].
      cbn [total_need fold_right] in Hn. fold (total_need ops) in Hn.
      pose proof (total_need_nonneg ops).
      destruct (run_cons _ _ _ _ _ E) as (r & st1 & rs' & E1 & E2 & _).
      destruct (warm_step n st o r st1 Hw N1 ltac:(lia) E1) as (T1 & W1 & _).
      destruct (IH (n - need o) st1 rs' st' W1 N2 ltac:(lia) E2) as (T2 & W2).
      split; [congruence|]. cbn [total_need fold_right]. fold (total_need ops).
      replace (n - (need o + total_need ops)) with (n - need o - total_need ops) by lia. exact W2.
  Qed.

  Lemma reset_warm ops st r st' k :
    reached su ops st -> do_step su (OpReset true) st = ORet r st' -> held st' = [k] ->
    warm (u_len k - HEADER) st'.
  Proof.
    intros Hr E Hk. destruct (reached_srep su Hok ops st Hr) as (cs & HS).
    destruct (step_reset_keep su Hok cs st r st' HS E) as (_ & _ & S1).
    destruct cs as [|c cs]; [destruct S1 as (_ & Hh & _); rewrite Hk in Hh; discriminate|].
    exists (set_cur c (c_base c)). split; [exact S1|].
    destruct S1 as (_ & Hh & _). rewrite Hk in Hh. cbn in Hh. inversion Hh as [Ek].
    unfold c_end, c_base, c_ptr, HEADER, HDR. cbn. lia.
  Qed.

  Lemma reached_warm ops st r st1 k work :
    reached su ops st -> do_step su (OpReset true) st = ORet r st1 -> held st1 = [k] ->
    existsb is_reset work = false -> total_need work <= u_len k - HEADER ->
    (exists rs st2, do_run su work st1 = ORet rs st2 /\ calls st2 = calls st1) /\
    (forall before o after rs st2 l, work = before ++ o :: after ->
       do_run su before st1 = ORet rs st2 -> requests su st2 o l ->
       exists b st3, do_step su o st2 = ORet (Some b) st3).
  Proof.
    intros Hr E Hk Hnr Hn. pose proof (reset_warm ops st r st1 k Hr E Hk) as Hw.
    pose proof (reached_step su ops st _ _ _ Hr E) as Hr1. split.
    - destruct (reached_run_total su Hok _ _ work Hr1) as (rs & st2 & E2 & _).
      exists rs, st2. split; [exact E2|]. apply (warm_run work _ _ _ _ Hw Hnr Hn E2).
    - intros before o after rs st2 l -> E2 Hq. rewrite existsb_app in Hnr.
      apply orb_false_iff in Hnr. destruct Hnr as [N1 N2]. cbn [existsb] in N2.
      apply orb_false_iff in N2. destruct N2 as [N2 _].
      assert (En : total_need (before ++ o :: after) = total_need before + (need o + total_need after)).
      { clear. induction before as [|o' b IH]; cbn; [reflexivity|]. unfold total_need in IH. rewrite IH. cbn. unfold total_need. lia. }
      pose proof (total_need_nonneg before). pose proof (total_need_nonneg after). pose proof (need_nonneg o).
      destruct (warm_run before _ _ _ _ Hw N1 ltac:(lia) E2) as (T2 & W2).
      pose proof (reached_app su _ _ _ _ _ Hr1 E2) as Hr2.
      destruct (reached_step_total su Hok _ _ o Hr2) as (r3 & st3 & E3 & _).
      destruct (warm_step _ st2 o r3 st3 W2 N2 ltac:(lia) E3) as (_ & _ & H3).
      specialize (H3 l Hq). destruct r3 as [b|]; [|congruence]. eauto.
  Qed.

  (** ** C16, C17 *)

  Lemma reached_request ops st o l r st' :
    reached su ops st -> requests su st o l -> do_step su o st = ORet r st' ->
    (r <> None /\ calls st' = calls st) \/
    (exists lay ans, calls st' = EvAlloc lay ans :: calls st /\ ans = st_alloc (su_strat su) (calls st) lay /\
       (r = None <-> ans = None) /\ l_align lay = 8 /\ rounded (wanted (su_min su) (held st) l) (l_size lay)) \/
    (r = None /\ calls st' = calls st /\ USIZE_MAX < wanted (su_min su) (held st) l + 7).
  Proof.
    intros Hr Hq E. destruct (reached_srep su Hok ops st Hr) as (cs & HS).
    assert (Hl : req_ok (su_smax su) l).
    { destruct o; cbn in Hq; try contradiction; apply Hq. }
    pose proof (slow_req_wanted cs (su_min su) l _ (proj1 (su_min_ok su Hok)) (srep_caps cs st HS) Hl) as Hw.
    pose proof HS as (_ & Hh & _). rewrite Hh in Hw.
    destruct (step_request cs st o l r st' HS Hq E)
      as [(N & T & _)|[(_ & N & T & Sr & _)|(_ & lay & ans & Sr & T & A & An & _)]]; rewrite ?Sr in Hw.
    - left. auto.
    - right. right. auto.
    - right. left. exists lay, ans. destruct Hw as (W1 & W2 & _). auto.
  Qed.
End Props.
