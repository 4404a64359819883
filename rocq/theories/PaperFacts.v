(** The model of the code does what Paper.v says: proofs for C77. *)
From Coq Require Import Permutation.
From Verif Require Import Base BaseFacts Alloc AllocFacts Arena ArenaFacts ArenaInv ArenaOps
  BlinkAlloc BlinkFacts History HistoryFacts Setup SetupFacts SetupOps SetupOps2 SetupOps3 Paper.

Lemma least_multiple_eq n a : least_multiple n a = round_up n a.
Proof. reflexivity. Qed.

Lemma align_up_least v k : 0 <= v -> 0 <= k <= 63 ->
  align_up v (2 ^ k) = if USIZE_MAX <? v + (2 ^ k - 1) then None else Some (least_multiple v (2 ^ k)).
Proof.
  intros Hv Hk. rewrite align_up_spec by lia.
  assert (Hp : 0 < 2 ^ k) by (apply Z.pow_pos_nonneg; lia).
  replace (USIZE_MAX <? v + (2 ^ k - 1)) with (negb (v + (2 ^ k - 1) <=? USIZE_MAX)) by lia.
  destruct (v + (2 ^ k - 1) <=? USIZE_MAX); cbn [negb]; [|reflexivity].
  f_equal. unfold least_multiple.
  pose proof (Z.div_mod (v + (2 ^ k - 1)) (2 ^ k) ltac:(lia)). lia.
Qed.

Definition bump (c : chunk) : pchunk := mkP (c_ptr c) (u_len (c_u c)) (c_cur c).
Definition bumps : list chunk -> list pchunk := map bump.

Lemma space_caps cs : space (bumps cs) = sum_caps cs.
Proof.
  induction cs as [|c cs IH]; cbn; [reflexivity|]. unfold space, bumps in *. rewrite IH.
  unfold p_end, p_first, c_cap, c_end, c_base, HDR. cbn. lia.
Qed.

Lemma chunk_size_eq cs min l smax :
  0 <= min -> 0 <= sum_caps (tl cs) -> req_ok smax l ->
  slow_req cs min l = option_map (fun n => mkLayout n 8) (chunk_size min (bumps cs) l).
Proof.
  intros Hmin Hs Hl. unfold slow_req, chunk_size.
  assert (Hc : match cum_of cs with Some c => 0 <= c | None => True end) by (destruct cs; cbn in *; lia).
  rewrite (next_chunk_size_raw _ _ _ smax Hmin Hc Hl).
  assert (Er : 32 + (if 8 <? l_align l then l_align l else 0) +
             match bumps cs with
             | [] => Z.max min (l_size l)
             | _ :: older => Z.max min (space older) + Z.max (l_size l) 64
             end = chunk_raw (cum_of cs) min l).
  { unfold chunk_raw, HDR, HDR_ALIGN, CHUNK_MIN_GROW_STEP. destruct cs as [|c cs]; cbn [bumps map cum_of].
    - lia.
    - fold bumps. change (map bump cs) with (bumps cs). rewrite space_caps. lia. }
  rewrite Er. clear Er.
  destruct (chunk_raw_facts (cum_of cs) min l smax Hmin Hc Hl) as (F1 & F2 & _).
  set (raw := chunk_raw (cum_of cs) min l) in *.
  replace (USIZE_MAX <? raw) with (negb (raw <=? USIZE_MAX)) by lia.
  destruct (Z.leb_spec raw USIZE_MAX) as [L|G]; cbn [negb]; [|reflexivity].
  destruct (chunk_round_spec raw) as (R1 & R2 & R3); [unfold HDR in *; lia|].
  assert (Ec : chunk_round raw = if raw <? 2 ^ 14 then 2 ^ Z.log2_up raw
             else if USIZE_MAX <? raw + (2 ^ 14 - 1) then raw
             else least_multiple raw (2 ^ 14)).
  { unfold chunk_round, CHUNK_POWER_OF_TWO_THRESHOLD. destruct (raw <? 2 ^ 14); [reflexivity|].
    rewrite align_up_least by (unfold HDR in *; lia).
    destruct (USIZE_MAX <? raw + (2 ^ 14 - 1)); reflexivity. }
  rewrite <- Ec. clear Ec. set (s := chunk_round raw) in *.
  change HDR_ALIGN with (2 ^ 3) at 1. rewrite align_up_least by (unfold HDR in *; lia).
  change (2 ^ 3 - 1) with 7. change (2 ^ 3) with 8.
  destruct (USIZE_MAX <? s + 7); reflexivity.
Qed.

(** ** Taking from the newest chunk, or from a new one *)
Section Take.
  Variables (min : Z) (S : strategy).

  Lemma take_fast c cs l tr :
    fits_root (c :: cs) l = true ->
    take min S (bumps (c :: cs)) l tr =
    (Some (round_up (c_cur c) (l_align l)),
     bumps (set_cur c (round_up (c_cur c) (l_align l) + l_size l) :: cs), tr).
  Proof.
    cbn [fits_root]. intros Hr.
    change (take min S (bumps (c :: cs)) l tr) with
      (if room (c_cur c) (c_end c) l
       then (Some (round_up (c_cur c) (l_align l)),
             bumps (set_cur c (round_up (c_cur c) (l_align l) + l_size l) :: cs), tr)
       else fresh min S (bumps (c :: cs)) l tr).
    rewrite Hr. reflexivity.
  Qed.

  Lemma take_full cs l tr :
    fits_root cs l = false -> take min S (bumps cs) l tr = fresh min S (bumps cs) l tr.
  Proof.
    destruct cs as [|c cs]; [reflexivity|]. cbn [fits_root]. intros Hr.
    change (take min S (bumps (c :: cs)) l tr) with
      (if room (c_cur c) (c_end c) l
       then (Some (round_up (c_cur c) (l_align l)),
             bumps (set_cur c (round_up (c_cur c) (l_align l) + l_size l) :: cs), tr)
       else fresh min S (bumps (c :: cs)) l tr).
    rewrite Hr. reflexivity.
  Qed.
End Take.

(** ** [resize], exactly *)
Section Resize.
  Context {W : Type}.
  Variables (amax smax smax' : Z) (A : Allocator W) (own : W -> list ublock -> Prop).
  Hypothesis Hct : contract amax smax' A own.
  Hypothesis Hamax : 0 <= amax <= USIZE_MAX.
  Variable dbg : bool.

  (** Where a resize in the newest chunk leads: address, length, new cursor. *)
  Definition way (c : chunk) (ptr : Z) (old new : Layout) : option (Z * Z * Z) :=
    if (l_align new <=? l_align old) && (l_size new <=? l_size old)
    then Some (ptr, l_size old, c_cur c)
    else if (l_align new <=? l_align old) && (c_cur c =? ptr + l_size old)
    then if ptr + l_size new <=? c_end c then Some (ptr, l_size new, ptr + l_size new) else None
    else if room (c_cur c) (c_end c) new
    then Some (round_up (c_cur c) (l_align new), l_size new, round_up (c_cur c) (l_align new) + l_size new)
    else None.

  Lemma chunk_resize_way ext c cs ar w u us old new :
    arep amax A own ext (c :: cs) ar w (u :: us) -> fits old u -> req_ok smax new -> smax <= USIZE_MAX ->
    wp (chunk_resize A dbg (c_ptr c) (u_ptr u) old new) w (fun r w' =>
      match way c (u_ptr u) old new with
      | None => r = None /\ w' = w /\ room (c_cur c) (c_end c) new = false
      | Some (p, n, k) => r = Some (mkBlock p n) /\ quiet A w w' /\
          arep amax A own ext (set_cur c k :: cs) ar w' (mkU p n new :: us)
      end).
  Proof.
    intros R Hf Hn Hs.
    pose proof (chunk_resize_ok amax smax smax' A own Hct Hamax dbg ext c cs ar w u us old new R Hf Hn Hs) as H.
    destruct (req_ok_facts _ _ Hn) as (k & Hk & Ea & Hpos & Hsz & Hsum).
    destruct (arep_chunk_ok _ _ _ _ Hct _ _ _ _ _ c R (or_introl eq_refl))
      as ((_ & _ & W1) & _ & P1 & P8 & L1 & E1).
    pose proof (ar_chain _ _ _ _ _ _ _ _ R) as Hch. cbn [chain] in Hch.
    destruct Hch as (_ & (H1 & H2 & _) & _).
    pose proof (ar_ok _ _ _ _ _ _ _ _ R) as Hok. inversion Hok as [|? ? Hu Hok']; subst.
    pose proof Hu as ((G1 & G2 & G3 & G4) & Hup & Hus). cbn in G1, G2, G3, G4.
    pose proof Hf as [F1 F2].
    assert (Hov : u_ptr u + l_size old <= c_cur c \/ c_end c <= u_ptr u).
    { destruct (arep_where amax smax' A own Hct _ _ _ _ _ _ u R (or_introl eq_refl) ltac:(lia)) as [X|X];
        unfold c_base, HDR in *; lia. }
    pose proof (chunk_resize_eq smax A dbg (c_ptr c) (u_ptr u) old new (c_cur c) (c_end c) w Hn Hs
      ltac:(unfold c_base, HDR in *; lia) ltac:(lia) ltac:(lia) ltac:(lia) Hov H1 H2) as E.
    apply wp_inv in H. destruct H as (r & w' & E' & Q & _ & H).
    rewrite E' in E. unfold wp. rewrite E'. clear E'.
    (* the cursor of the chunk in the final state *)
    assert (Hcur : forall n cs0 us0, arep amax A own ext (set_cur c n :: cs0) ar w' us0 ->
                   load (al_mem A w') (c_ptr c + CURSOR) 8 = Some n).
    { intros n cs0 us0 R0. pose proof (ar_chain _ _ _ _ _ _ _ _ R0) as Hc0. cbn [chain] in Hc0.
      destruct Hc0 as (_ & (X & _) & _). exact X. }
    unfold way.
    destruct ((l_align new <=? l_align old) && (l_size new <=? l_size old)) eqn:C1.
    - inversion E; subst r w'. destruct H as (_ & (n & _ & R1) & _).
      split; [reflexivity|]. split; [exact Q|].
      pose proof (Hcur _ _ _ R1) as X. rewrite H1 in X. injection X as X. subst n. exact R1.
    - destruct ((l_align new <=? l_align old) && (c_cur c =? u_ptr u + l_size old)) eqn:C2.
      + destruct (u_ptr u + l_size new <=? c_end c) eqn:C3.
        * inversion E; subst r w'. destruct H as (_ & (n & _ & R1) & _).
          split; [reflexivity|]. split; [exact Q|].
          pose proof (Hcur _ _ _ R1) as X. rewrite (ct_mem _ _ _ _ Hct), load_store_same in X by lia.
          injection X as X. subst n. exact R1.
        * inversion E; subst r w'. destruct H as [_ Rm]. auto.
      + cbv zeta in E. destruct (room (c_cur c) (c_end c) new) eqn:Rm.
        * inversion E; subst r w'. destruct H as (_ & (n & _ & R1) & _).
          split; [reflexivity|]. split; [exact Q|].
          pose proof (Hcur _ _ _ R1) as X. rewrite !(ct_mem _ _ _ _ Hct) in X.
          rewrite (load_ext (store (al_mem A w) (c_ptr c + CURSOR) 8 (round_up (c_cur c) (l_align new) + l_size new))) in X;
            [| lia |].
          { rewrite load_store_same in X by lia. injection X as X. subst n. exact R1. }
          intros x Hx. apply copy_other. destruct (round_up_spec (c_cur c) (l_align new) Hpos) as [B _].
          unfold CURSOR, c_base, HDR in *. lia.
        * inversion E; subst r w'. destruct H as [_ Rm']. auto.
  Qed.

  Lemma blink_resize_way ext cs ar w u us old new :
    arep amax A own ext cs ar w (u :: us) -> fits old u -> req_ok smax new ->
    cfg_for dbg amax smax (ar_min ar) smax' (ar_root ar) new ->
    wp (blink_resize A dbg (u_ptr u) old new) (ar, w) (fun r aw' =>
      ar_min (fst aw') = ar_min ar /\
      exists c cs', cs = c :: cs' /\
      match way c (u_ptr u) old new with
      | Some (p, n, k) => r = Some (mkBlock p n) /\ quiet A w (snd aw') /\
          arep amax A own ext (set_cur c k :: cs') (fst aw') (snd aw') (mkU p n new :: us)
      | None => room (c_cur c) (c_end c) new = false /\
          match r with
          | None => slow_info A cs (ar_min ar) new w None (snd aw') /\
                    arep amax A own ext cs (fst aw') (snd aw') (u :: us)
          | Some b => good_block amax new b /\ b_len b = l_size new /\
              exists c1, slow_info A cs (ar_min ar) new w (Some c1) (snd aw') /\
                c_cur c1 = b_ptr b + l_size new /\ b_ptr b = round_up (c_base c1) (l_align new) /\
                arep amax A own ext (c1 :: cs) (fst aw') (snd aw') (mku b new :: us)
          end
      end).
  Proof.
    intros R Hf Hn Hcfg. assert (Hs : smax <= USIZE_MAX) by apply Hcfg.
    pose proof (ar_placed _ _ _ _ _ _ _ _ R) as P. inversion P as [|? ? Pu _]; subst.
    destruct Pu as (c0 & Hc0 & _). destruct cs as [|c cs']; [destruct Hc0|]. clear c0 Hc0.
    unfold blink_resize. apply wp_bind. unfold resize_fast. apply wp_with_aw. cbn [fst snd].
    rewrite (ar_head _ _ _ _ _ _ _ _ R). cbn [head_ptr]. apply wp_bind.
    eapply wp_mono; [apply (chunk_resize_way _ _ _ _ _ _ _ old new R Hf Hn Hs)|].
    intros r w1 H. apply wp_ret. cbn [fst snd].
    destruct (way c (u_ptr u) old new) as [[[p n] k]|] eqn:Ew.
    - destruct H as (-> & Q & R1). apply wp_ret. cbn [fst snd]. split; [reflexivity|].
      exists c, cs'. split; [reflexivity|]. rewrite Ew. auto.
    - destruct H as (-> & -> & Rm). unfold arena_resize_slow. apply wp_with_aw. cbn [fst snd]. apply wp_bind.
      eapply wp_mono; [apply (resize_slow_ok amax smax smax' A own Hct Hamax dbg ext (c :: cs') ar w u us old new R Hf Hn Hcfg)|].
      intros r w1 (S1 & R1). destruct r as [[b p]|]; apply wp_ret; cbn [fst snd]; (split; [reflexivity|]);
        exists c, cs'; rewrite Ew; (split; [reflexivity|]); (split; [exact Rm|]).
      + destruct R1 as (X1 & X2 & (c1 & X0 & X3 & (X4 & X7) & X5) & X6).
        split; [exact X1|]. split; [exact X2|]. exists c1. auto.
      + destruct R1 as (X1 & _ & X2). auto.
  Qed.
End Resize.

Lemma moves_eq min S c cs ptr old new tr :
  moves min S (bumps (c :: cs)) ptr old new tr =
  (let e := let '(r, ks', tr') := take min S (bumps (c :: cs)) new tr in
            (option_map (fun a => mkBlock a (l_size new)) r, ks', tr') in
   if l_align new <=? l_align old then
     if l_size new <=? l_size old then (Some (mkBlock ptr (l_size old)), bumps (c :: cs), tr)
     else if (c_cur c =? ptr + l_size old) && (ptr + l_size new <=? c_end c)
     then (Some (mkBlock ptr (l_size new)), bumps (set_cur c (ptr + l_size new) :: cs), tr)
     else e
   else e).
Proof. reflexivity. Qed.

Lemma moves_way min S c cs ptr old new tr p n k :
  way c ptr old new = Some (p, n, k) ->
  moves min S (bumps (c :: cs)) ptr old new tr = (Some (mkBlock p n), bumps (set_cur c k :: cs), tr).
Proof.
  rewrite moves_eq. unfold way. cbv zeta. intros H.
  destruct (l_align new <=? l_align old); cbn [andb] in H.
  - destruct (l_size new <=? l_size old).
    + inversion H; subst. destruct c as [cu cc]. reflexivity.
    + destruct (c_cur c =? ptr + l_size old); cbn [andb].
      * destruct (ptr + l_size new <=? c_end c); [|discriminate H]. inversion H; subst. reflexivity.
      * destruct (room (c_cur c) (c_end c) new) eqn:Rm; [|discriminate H].
        rewrite (take_fast min S c cs new tr Rm). inversion H; subst. reflexivity.
  - destruct (room (c_cur c) (c_end c) new) eqn:Rm; [|discriminate H].
    rewrite (take_fast min S c cs new tr Rm). inversion H; subst. reflexivity.
Qed.

Lemma moves_full min S c cs ptr old new tr :
  way c ptr old new = None -> room (c_cur c) (c_end c) new = false ->
  moves min S (bumps (c :: cs)) ptr old new tr =
  (let '(r, ks', tr') := fresh min S (bumps (c :: cs)) new tr in
   (option_map (fun a => mkBlock a (l_size new)) r, ks', tr')).
Proof.
  rewrite moves_eq. unfold way. cbv zeta. intros H Rm.
  rewrite (take_full min S (c :: cs) new tr Rm).
  destruct (l_align new <=? l_align old); cbn [andb] in H; [|reflexivity].
  destruct (l_size new <=? l_size old); [discriminate H|].
  destruct (c_cur c =? ptr + l_size old); cbn [andb]; [|reflexivity].
  destruct (ptr + l_size new <=? c_end c); [discriminate H|reflexivity].
Qed.

(** ** Every operation *)
Section Exact.
  Variable su : setup.
  Hypothesis Hok : setup_ok su.

  Notation amax := (su_amax su).
  Notation bown := (base_own (su_amax su) (su_bmax su)).
  Notation brep := (arep (su_amax su) (bot su) (base_own (su_amax su) (su_bmax su))).
  Notation state := (cst (AW (W := bworld))).
  Notation pstep := (paper_step (su_min su) (su_smax su) (su_strat su)).
  Notation prun := (paper_run (su_min su) (su_smax su) (su_strat su)).

  Definition sheet (cs : list chunk) (st : state) : paper := mkPaper (bumps cs) (c_tab st) (calls st).

  Lemma caps_tl cs ar w us : brep [] cs ar w us -> 0 <= sum_caps (tl cs).
  Proof.
    intros R. destruct cs as [|c cs]; cbn [tl]; [cbn; lia|].
    apply sum_caps_len. rewrite Forall_forall. intros c' Hc'.
    destruct (arep_chunk_ok _ _ _ _ (su_ct su Hok) _ _ _ _ _ c' R (or_intror Hc')) as (_ & _ & _ & _ & L & _).
    exact L.
  Qed.

  Lemma fresh_none cs ar w us l tr tr' :
    brep [] cs ar w us -> req_ok (su_smax su) l ->
    @upstream (su_strat su) (slow_req cs (su_min su) l) block None tr tr' ->
    fresh (su_min su) (su_strat su) (bumps cs) l tr = (None, bumps cs, tr').
  Proof.
    intros R Hl U. pose proof (su_min_ok su Hok) as Hm.
    rewrite (chunk_size_eq cs (su_min su) l (su_smax su) ltac:(lia) (caps_tl _ _ _ _ R) Hl) in U.
    unfold fresh. destruct (chunk_size (su_min su) (bumps cs) l) as [n|]; cbn [option_map upstream] in U.
    - destruct U as (ans & -> & [X _] & Ea). rewrite (X eq_refl) in *. rewrite <- Ea. reflexivity.
    - destruct U as [_ ->]. reflexivity.
  Qed.

  Lemma fresh_some cs c ar w us l tr b :
    brep [] (c :: cs) ar w us -> In (mku b l) us -> req_ok (su_smax su) l ->
    map c_u cs = outstanding tr ->
    upstream (su_strat su) (slow_req cs (su_min su) l) (Some b) tr (bw_trace w) ->
    c_cur c = b_ptr b + l_size l -> c_base c <= b_ptr b <= c_base c + (l_align l - 1) ->
    fresh (su_min su) (su_strat su) (bumps cs) l tr = (Some (b_ptr b), bumps (c :: cs), bw_trace w).
  Proof.
    intros R Hb Hl Hh U Ec Bb. pose proof (su_min_ok su Hok) as Hm.
    pose proof (held_slow su cs c ar w us l b tr R Hh U) as Hh'.
    pose proof (ar_ok _ _ _ _ _ _ _ _ R) as Ho. rewrite Forall_forall in Ho.
    destruct (Ho _ Hb) as ((_ & Ha & _) & _). change (b_ptr b mod l_align l = 0) in Ha.
    destruct (req_ok_facts _ _ Hl) as (k & _ & _ & Hpos & _ & _).
    assert (Eb : b_ptr b = round_up (c_base c) (l_align l)).
    { destruct (round_up_spec (c_base c) (l_align l) Hpos) as [B1 B2].
      set (r := round_up (c_base c) (l_align l)) in *.
      apply Z.mod_divide in Ha; [|lia]. apply Z.mod_divide in B2; [|lia].
      destruct Ha as [x Hx]. destruct B2 as [y Hy].
      assert (x < y + 1) by (apply (Z.mul_lt_mono_pos_r (l_align l)); lia).
      assert (y < x + 1) by (apply (Z.mul_lt_mono_pos_r (l_align l)); lia).
      assert (x = y) by lia. subst x. lia. }
    rewrite (chunk_size_eq cs (su_min su) l (su_smax su) ltac:(lia)) in U; [| |exact Hl].
    2: { destruct cs as [|c2 cs]; cbn [tl]; [cbn; lia|].
         apply sum_caps_len. rewrite Forall_forall. intros c' Hc'.
         destruct (arep_chunk_ok _ _ _ _ (su_ct su Hok) _ _ _ _ _ c' R (or_intror (or_intror Hc')))
           as (_ & _ & _ & _ & L & _). exact L. }
    unfold fresh. destruct (chunk_size (su_min su) (bumps cs) l) as [n|]; cbn [option_map upstream] in U.
    2: { destruct U as [X _]. discriminate X. }
    destruct U as (ans & Et & [_ X] & Ea). destruct ans as [blk|]; [|discriminate (X eq_refl)].
    rewrite <- Ea. rewrite Et in *. cbn [outstanding] in Hh'. rewrite <- Hh in Hh'.
    cbn [map] in Hh'. injection Hh' as Hc. rewrite least_multiple_eq.
    assert (E1 : c_ptr c = b_ptr blk) by (unfold c_ptr; rewrite Hc; reflexivity).
    assert (E2 : u_len (c_u c) = b_len blk) by (rewrite Hc; reflexivity).
    change (b_ptr blk + 32) with (b_ptr blk + HDR). rewrite <- E1. fold (c_base c). rewrite <- Eb, <- Ec.
    cbn [bumps map]. unfold bump at 1. rewrite E2, E1. reflexivity.
  Qed.

  Lemma resize_exact h old new st cs r st' u :
    srep su cs st -> get h (c_tab st) = Some u -> fits old u -> req_ok (su_smax su) new ->
    do_step su (OpResize h old new) st = ORet r st' ->
    exists cs', srep su cs' st' /\
      moves (su_min su) (su_strat su) (bumps cs) (u_ptr u) old new (calls st) = (r, bumps cs', calls st') /\
      c_tab st' = match r with
                  | Some b => set_nth h (Some (mkU (b_ptr b) (b_len b) new)) (c_tab st)
                  | None => c_tab st
                  end.
  Proof.
    intros HS G Hf Hn E. destruct (get_split _ _ _ G) as (t1 & t2 & Et & Lt).
    pose proof HS as (R & Hh & Hm).
    assert (R0 : brep [] cs (fst (c_w st)) (snd (c_w st)) (u :: live (t1 ++ t2))).
    { rewrite Et in R. apply (arep_perm _ _ _ _ _ _ _ _ _ (live_perm_mid t1 t2 u) R). }
    assert (Hcfg : cfg_ok (su_dbg su) amax (su_smax su) (ar_min (fst (c_w st))) (su_bmax su))
      by (rewrite Hm; apply su_cfg; exact Hok).
    pose proof (blink_resize_way amax (su_smax su) (su_bmax su) (bot su) bown (su_ct su Hok)
                  (su_amax_ok su Hok) (su_dbg su) [] cs _ _ u _ old new R0 Hf Hn (cfg_ok_for Hcfg)) as H.
    rewrite step_eq in E. unfold step_at in E. rewrite G in E.
    rewrite (proj2 (fitsb_spec old u) Hf) in E. pose proof Hn as Hn'. unfold req_ok in Hn'. rewrite Hn' in E.
    cbn [andb] in E.
    assert (Ec : call (blink_resize (bot su) (su_dbg su) (u_ptr u) old new)
                   (on_ok (fun u' => set_nth h (Some u')) new) st = ORet r st').
    { destruct (l_size old <=? l_size new); exact E. }
    unfold call in Ec. rewrite (cst_eta st) in Ec.
    apply wp_inv in H. destruct H as (r0 & [ar' w'] & Eb & M1 & c & cs' & Ecs & H). rewrite Eb in Ec.
    inversion Ec; subst r0 st'. clear Ec E Eb. cbn [fst snd] in *.
    rewrite Hm in H, M1. subst cs.
    assert (Hperm : forall v, Permutation (v :: live (t1 ++ t2)) (live (set_nth h (Some v) (c_tab st)))).
    { intros v. rewrite Et, <- Lt, set_nth_split. symmetry. apply live_perm_mid. }
    destruct (way c (u_ptr u) old new) as [[[p n] k]|] eqn:Ew.
    - destruct H as (-> & Q & R1). exists (set_cur c k :: cs').
      pose proof (quiet_trace su _ _ Q) as T. split; [|split].
      + split; cbn [c_tab c_w fst snd on_ok b_ptr b_len].
        * apply (arep_perm _ _ _ _ _ _ _ _ _ (Hperm _) R1).
        * split; [|exact M1]. unfold held, calls. cbn [c_w snd]. rewrite T. exact Hh.
      + rewrite (moves_way _ _ c cs' (u_ptr u) old new _ p n k Ew). unfold calls. cbn [c_w snd]. rewrite T. reflexivity.
      + reflexivity.
    - destruct H as (Rm & H). rewrite (moves_full _ _ c cs' (u_ptr u) old new _ Ew Rm).
      destruct r as [b|].
      + destruct H as (_ & Lb & c1 & I1 & E2 & E3 & R1).
        assert (U : upstream (su_strat su) (slow_req (c :: cs') (su_min su) new) (Some b) (calls st) (bw_trace w')).
        { apply (slow_info_upstream su _ _ _ _ _ (Some b) I1). split; discriminate. }
        exists (c1 :: c :: cs'). split; [|split].
        * split; cbn [c_tab c_w fst snd on_ok].
          -- apply (arep_perm _ _ _ _ _ _ _ _ _ (Hperm _) R1).
          -- split; [|exact M1]. apply (held_slow su (c :: cs') c1 ar' w' _ new b _ R1 Hh U).
        * destruct (req_ok_facts _ _ Hn) as (k & _ & _ & Hpos & _ & _).
          pose proof (round_up_spec (c_base c1) (l_align new) Hpos) as [Br _].
          rewrite (fresh_some (c :: cs') c1 _ _ _ new _ b R1 (or_introl eq_refl) Hn Hh U E2 ltac:(lia)).
          cbn [option_map]. rewrite <- Lb. destruct b; reflexivity.
        * reflexivity.
      + destruct H as (I1 & R1).
        assert (U : @upstream (su_strat su) (slow_req (c :: cs') (su_min su) new) block None (calls st) (bw_trace w')).
        { apply (slow_info_upstream su _ _ _ _ _ None I1). split; reflexivity. }
        exists (c :: cs'). split; [|split].
        * split; cbn [c_tab c_w fst snd on_ok].
          -- rewrite Et. apply (arep_perm _ _ _ _ _ _ _ _ _ (Permutation_sym (live_perm_mid t1 t2 u)) R1).
          -- split; [|exact M1]. apply (held_fail su _ _ _ _ Hh U).
        * rewrite (fresh_none (c :: cs') _ _ _ new _ _ R Hn U). reflexivity.
        * reflexivity.
  Qed.

  Lemma grow_zeroed_exact h old new st cs r st' u :
    srep su cs st -> get h (c_tab st) = Some u -> fits old u -> req_ok (su_smax su) new ->
    l_size old <= l_size new ->
    do_step su (OpGrowZeroed h old new) st = ORet r st' ->
    exists cs', srep su cs' st' /\
      take (su_min su) (su_strat su) (bumps cs) new (calls st) = (option_map b_ptr r, bumps cs', calls st') /\
      match r with
      | Some b => b_len b = l_size new /\
          c_tab st' = set_nth h (Some (mkU (b_ptr b) (b_len b) new)) (c_tab st)
      | None => c_tab st' = c_tab st
      end.
  Proof.
    intros HS G Hf Hn Hs E. destruct (get_split _ _ _ G) as (t1 & t2 & Et & Lt).
    pose proof HS as (R & Hh & Hm).
    pose proof (alloc_any_call_ok su Hok cs st new true HS Hn) as H. apply wp_inv in H.
    destruct H as (r0 & [ar1 w1] & Ea & _ & _ & H). cbn [fst snd] in *.
    rewrite step_eq in E. unfold step_at in E. rewrite G in E.
    pose proof Hn as Hn'. unfold req_ok in Hn'.
    rewrite (proj2 (fitsb_spec old u) Hf), Hn' in E.
    replace (l_size old <=? l_size new) with true in E by lia. cbn [andb] in E.
    unfold call, al_grow_zeroed, bind at 1 in E. rewrite Ea in E.
    assert (Hmin : ar_min ar1 = su_min su).
    { unfold al_allocate_zeroed, bind in Ea. cbn [al_allocate ba blink] in Ea.
      destruct (alloc_min su Hok cs st new HS Hn) as (r2 & aw2 & E3 & M3).
      rewrite E3 in Ea. destruct r2 as [b2|].
      - unfold mfill in Ea. cbn in Ea. inversion Ea; subst. exact M3.
      - inversion Ea; subst. exact M3. }
    destruct r0 as [b|].
    2: { inversion E; subst r st'. clear E. destruct (fits_root cs new) eqn:Fr.
         { destruct H as (_ & c & cs' & b & _ & E2 & _). discriminate E2. }
         destruct H as [U R1]. exists cs. split; [|split].
         - split; cbn [c_tab c_w fst snd on_ok]; [exact R1|]. split; [apply (held_fail su _ _ _ _ Hh U)|exact Hmin].
         - rewrite (take_full _ _ cs new _ Fr). rewrite (fresh_none cs _ _ _ new _ _ R Hn U). reflexivity.
         - reflexivity. }
    assert (Hperm : forall v, Permutation (v :: live (t1 ++ t2)) (live (set_nth h (Some v) (c_tab st)))).
    { intros v. rewrite Et, <- Lt, set_nth_split. symmetry. apply live_perm_mid. }
    assert (Hpl : Permutation (live (c_tab st)) (u :: live (t1 ++ t2))).
    { rewrite Et. apply live_perm_mid. }
    assert (HR : exists cs1, brep [] cs1 ar1 w1 (mku b new :: u :: live (t1 ++ t2)) /\ b_len b = l_size new /\
       take (su_min su) (su_strat su) (bumps cs) new (calls st) = (Some (b_ptr b), bumps cs1, bw_trace w1) /\
       map c_u cs1 = outstanding (bw_trace w1)).
    { destruct (fits_root cs new) eqn:Fr.
      - destruct H as (T & c & cs' & b' & E1 & E2 & E3 & R1). injection E2 as E2'. rewrite <- E2' in *.
        exists (set_cur c (b_ptr b + l_size new) :: cs').
        split; [apply (arep_perm _ _ _ _ _ _ _ _ _ (perm_skip _ Hpl) R1)|].
        subst cs. rewrite (take_fast _ _ c cs' new _ Fr), T. rewrite E3. split; [reflexivity|].
        split; [reflexivity|]. exact Hh.
      - destruct H as (U & E1 & c & E2 & E3 & R1). exists (c :: cs).
        split; [apply (arep_perm _ _ _ _ _ _ _ _ _ (perm_skip _ Hpl) R1)|].
        split; [exact E1|]. rewrite (take_full _ _ cs new _ Fr).
        split; [apply (fresh_some cs c _ _ _ new _ b R1 (or_introl eq_refl) Hn Hh U E2 E3)|].
        apply (held_slow su cs c ar1 w1 _ new b _ R1 Hh U). }
    destruct HR as (cs1 & R1 & Lb & Tk & Hh1).
    pose proof (grow_zeroed_rest su Hok cs1 ar1 w1 u _ b old new R1 Hf Hs ltac:(lia)) as Hw.
    apply wp_inv in Hw. destruct Hw as (r2 & [ar2 w2] & E2 & -> & A1 & A2 & _ & _ & _ & R2).
    rewrite E2 in E. inversion E; subst r st'. clear E E2. cbn [fst snd] in *. subst ar2.
    exists cs1. split; [|split].
    - split; cbn [c_tab c_w fst snd on_ok].
      + apply (arep_perm _ _ _ _ _ _ _ _ _ (Hperm (mku b new)) R2).
      + split; [|exact Hmin]. unfold held, calls. cbn [c_w snd]. rewrite A2. exact Hh1.
    - cbn [option_map]. unfold calls at 2. cbn [c_w snd]. rewrite A2. exact Tk.
    - split; [exact Lb|reflexivity].
  Qed.

  (** ** reset *)

  Lemma free_chain_trace cs : forall n w rest,
    chain (bw_mem w) cs -> bown w (map c_u cs ++ rest) -> (length cs <= n)%nat ->
    wp (free_chain (bot su) n (head_ptr cs)) w (fun _ w' =>
      bw_trace w' = give_back (bumps cs) (bw_trace w)).
  Proof.
    pose proof (su_ct su Hok) as Hct.
    induction cs as [|c cs IH]; intros n w rest Hch Ho Hn.
    - destruct n; cbn; reflexivity.
    - destruct n as [|n]; [cbn in Hn; lia|]. cbn [head_ptr free_chain].
      cbn [chain] in Hch. destruct Hch as (Hw & (X1 & X2 & X3 & X4) & Hch).
      destruct (ct_wf _ _ _ _ Hct _ _ Ho) as [Hwf Hpw].
      rewrite Forall_forall in Hwf.
      assert (Hpos : forall c', In c' (c :: cs) -> 0 < c_ptr c').
      { intros c' Hc'. assert (Hu : u_ok amax (c_u c')).
        { apply Hwf. apply in_or_app; left. apply in_map. exact Hc'. }
        apply Hu. }
      assert (Hlen : forall c', In c' cs -> HDR <= u_len (c_u c')).
      { intros c' Hc'. assert (Hu : u_ok amax (c_u c')).
        { apply Hwf. apply in_or_app; left. apply in_map. right; exact Hc'. }
        destruct (chain_cwf _ _ _ Hch Hc') as (_ & Z2 & _).
        destruct Hu as ((_ & _ & Z3 & _) & _). cbn in Z3. lia. }
      apply wp_bind. unfold dealloc_chunk.
      apply wp_bind. eapply wp_mload; [exact X3|].
      apply wp_bind. eapply wp_mload; [exact X2|].
      apply wp_bind.
      cbn [map app] in Ho.
      assert (Hf : fits (mkLayout (c_end c - c_ptr c) HDR_ALIGN) (c_u c)).
      { destruct Hw as (Z1 & Z2 & Z3). split; cbn; [symmetry; exact Z1|].
        assert (Hu : u_ok amax (c_u c)) by (apply Hwf; left; reflexivity).
        destruct Hu as ((_ & _ & Z4 & _) & _). cbn in Z4. unfold c_end. unfold c_ptr. lia. }
      pose proof (ct_deallocate _ _ _ _ Hct w _ (c_u c) _ Ho Hf) as Hd.
      apply wp_inv in Hd. destruct Hd as (v & w1 & Ed & Hs1 & Ho1).
      unfold wp at 1. unfold c_ptr at 1. rewrite Ed.
      assert (T : bw_trace w1 = EvDealloc (c_ptr c) (mkLayout (u_len (c_u c)) 8) :: bw_trace w).
      { cbn [bot base al_deallocate] in Ed. unfold base_deallocate in Ed.
        destruct (negb (req_okb (su_bmax su) (mkLayout (c_end c - c_ptr c) HDR_ALIGN))); [discriminate Ed|].
        destruct (remove_fit (u_ptr (c_u c)) (mkLayout (c_end c - c_ptr c) HDR_ALIGN) (outstanding (bw_trace w)));
          [|discriminate Ed].
        inversion Ed. cbn [bw_trace]. unfold HDR_ALIGN. unfold c_end. unfold c_ptr.
        replace (u_ptr (c_u c) + u_len (c_u c) - u_ptr (c_u c)) with (u_len (c_u c)) by lia. reflexivity. }
      change (wp (ret (opt_ptr (ptr_opt (head_ptr cs)))) w1 (fun a w' => wp (free_chain (bot su) n a) w' (fun _ w'' =>
        bw_trace w'' = give_back (bumps (c :: cs)) (bw_trace w)))).
      apply wp_ret.
      rewrite opt_ptr_head by (intros c' Hc'; apply Hpos; right; exact Hc').
      eapply wp_mono; [apply (IH n w1 rest)|].
      + apply (chain_same_on (bw_mem w) _ _ rest Hs1 Hlen). exact Hch.
      + exact Ho1.
      + cbn in Hn. lia.
      + intros ? w2 H2. rewrite H2, T. reflexivity.
  Qed.

  Lemma reset_trace cs st keep : srep su cs st ->
    wp (do_reset su keep) (c_w st) (fun _ aw' =>
      bw_trace (snd aw') = give_back (bumps (if keep then tl cs else cs)) (calls st)).
  Proof.
    intros (R & Hh & Hm). rewrite (cst_eta st). pose proof (ar_own _ _ _ _ _ _ _ _ R) as Ho.
    destruct keep; unfold do_reset, blink_reset, blink_reset_final, arena_reset; apply wp_with_aw; cbn [fst snd];
      rewrite (ar_head _ _ _ _ _ _ _ _ R).
    - destruct cs as [|c cs']; cbn [head_ptr tl]; [apply wp_ret; reflexivity|].
      apply wp_bind.
      eapply wp_mono; [apply (chunk_reset_ok amax (su_bmax su) (bot su) bown (su_ct su Hok) _ _ _ _ _ _ R)|].
      intros prev w1 (-> & Q1 & Hch & R1 & _). apply wp_bind.
      pose proof (ar_own _ _ _ _ _ _ _ _ R1) as Ho1. cbn [map app] in Ho1. rewrite app_nil_r in Ho1.
      eapply wp_mono; [apply (free_chain_trace cs' (ar_depth (fst (c_w st))) w1 [c_u c] Hch)|].
      + apply (ct_perm _ _ _ _ (su_ct su Hok) _ _ _ Ho1). apply Permutation_cons_append.
      + rewrite (ar_count _ _ _ _ _ _ _ _ R). cbn. lia.
      + intros ? w2 H2. apply wp_ret. cbn [fst snd]. rewrite H2, (quiet_trace su _ _ Q1). reflexivity.
    - apply wp_bind.
      eapply wp_mono; [apply (free_chain_trace cs (ar_depth (fst (c_w st))) (snd (c_w st)) [])|].
      + apply (ar_chain _ _ _ _ _ _ _ _ R).
      + exact Ho.
      + rewrite (ar_count _ _ _ _ _ _ _ _ R). lia.
      + intros ? w2 H2. apply wp_ret. exact H2.
  Qed.

  Lemma step_exact o st cs r st' :
    srep su cs st -> do_step su o st = ORet r st' ->
    exists cs', srep su cs' st' /\ pstep o (sheet cs st) = (r, sheet cs' st').
  Proof.
    intros HS E. destruct o as [l z|h off bs|h l|h old new|h old new|keep].
    - (* allocate *)
      cbn [paper_step sheet p_chunks p_tab p_calls].
      destruct (req_okb (su_smax su) l) eqn:Hl.
      2: { rewrite step_eq in E. unfold step_at in E. rewrite Hl in E. inversion E; subst. exists cs. auto. }
      destruct (step_alloc su Hok cs st l z r st' HS Hl E) as (_ & _ & Et & H).
      destruct (fits_root cs l) eqn:Fr.
      + destruct H as (T & c & cs' & b & E1 & E2 & E3 & HS').
        exists (set_cur c (b_ptr b + l_size l) :: cs'). split; [exact HS'|].
        subst cs r b. rewrite (take_fast _ _ c cs' l _ Fr). cbn [b_ptr]. unfold sheet. rewrite Et, T. reflexivity.
      + rewrite (take_full _ _ cs l _ Fr). destruct H as (U & H). destruct r as [b|].
        * destruct H as (E1 & c & E2 & E3 & HS'). exists (c :: cs). split; [exact HS'|].
          pose proof HS' as (R' & _ & _). pose proof HS as (R & Hh & _).
          assert (Hin : In (mku b l) (live (c_tab st'))).
          { rewrite Et, live_app. apply in_or_app. right. left. reflexivity. }
          rewrite (fresh_some cs c _ _ _ l _ b R' Hin Hl Hh U E2 E3).
          unfold sheet, calls. rewrite Et. unfold mku. rewrite E1. destruct b as [bp bl]; cbn in *. subst bl. reflexivity.
        * exists cs. split; [exact H|]. pose proof HS as (R & _ & _).
          rewrite (fresh_none cs _ _ _ l _ _ R Hl U). unfold sheet. rewrite Et, app_nil_r. reflexivity.
    - (* write *)
      destruct (step_write su Hok cs st h off bs r st' HS E) as (Et & _ & Ec & _ & HS').
      exists cs. split; [exact HS'|]. unfold sheet. rewrite Et, Ec. cbn [paper_step].
      assert (r = None); [|subst; reflexivity].
      rewrite step_eq in E. unfold step_at in E. destruct (get h (c_tab st)); [|inversion E; reflexivity].
      destruct ((0 <=? off) && (off + Z.of_nat (length bs) <=? u_len u)); inversion E; reflexivity.
    - (* deallocate *)
      cbn [paper_step sheet p_chunks p_tab p_calls].
      destruct (get h (c_tab st)) as [u|] eqn:G.
      2: { rewrite step_eq in E. unfold step_at in E. rewrite G in E. inversion E; subst. exists cs. auto. }
      destruct (fitsb l u) eqn:Hf.
      2: { rewrite step_eq in E. unfold step_at in E. rewrite G, Hf in E. inversion E; subst. exists cs. auto. }
      destruct (step_dealloc su Hok cs st h u l r st' HS G (proj1 (fitsb_spec l u) Hf) E) as (Et & _ & Ec & _ & HS').
      exists cs. split; [exact HS'|]. unfold sheet. rewrite Et, Ec.
      assert (r = None); [|subst; reflexivity].
      rewrite step_eq in E. unfold step_at in E. rewrite G, Hf in E. unfold bind in E.
      destruct (call _ _ st); inversion E; reflexivity.
    - (* resize *)
      cbn [paper_step sheet p_chunks p_tab p_calls].
      destruct (get h (c_tab st)) as [u|] eqn:G.
      2: { rewrite step_eq in E. unfold step_at in E. rewrite G in E. inversion E; subst. exists cs. auto. }
      destruct (fitsb old u && req_okb (su_smax su) new) eqn:Hc.
      2: { rewrite step_eq in E. unfold step_at in E. rewrite G, Hc in E. inversion E; subst. exists cs. auto. }
      apply andb_true_iff in Hc. destruct Hc as [Hf Hn].
      destruct (resize_exact h old new st cs r st' u HS G (proj1 (fitsb_spec old u) Hf) Hn E) as (cs' & HS' & Em & Et).
      exists cs'. split; [exact HS'|]. rewrite Em. unfold sheet. rewrite Et. destruct r; reflexivity.
    - (* grow_zeroed *)
      cbn [paper_step sheet p_chunks p_tab p_calls].
      destruct (get h (c_tab st)) as [u|] eqn:G.
      2: { rewrite step_eq in E. unfold step_at in E. rewrite G in E. inversion E; subst. exists cs. auto. }
      destruct (fitsb old u && req_okb (su_smax su) new && (l_size old <=? l_size new)) eqn:Hc.
      2: { rewrite step_eq in E. unfold step_at in E. rewrite G, Hc in E. inversion E; subst. exists cs. auto. }
      apply andb_true_iff in Hc. destruct Hc as [Hc Hs]. apply andb_true_iff in Hc. destruct Hc as [Hf Hn].
      destruct (grow_zeroed_exact h old new st cs r st' u HS G (proj1 (fitsb_spec old u) Hf) Hn ltac:(lia) E)
        as (cs' & HS' & Em & Et).
      exists cs'. split; [exact HS'|]. rewrite Em. unfold sheet. destruct r as [b|]; cbn [option_map].
      + destruct Et as [Lb Et]. rewrite Et, <- Lb. destruct b; reflexivity.
      + rewrite Et. reflexivity.
    - (* reset *)
      assert (Hr : r = None /\ calls st' = give_back (bumps (if keep then tl cs else cs)) (calls st)).
      { pose proof (reset_trace cs st keep HS) as H. apply wp_inv in H. destruct H as (v & aw' & Ec & T).
        rewrite step_eq in E. unfold step_at, bind, call in E. rewrite Ec in E. cbn [ret] in E.
        inversion E. split; [reflexivity|]. exact T. }
      destruct Hr as [-> T]. destruct keep.
      + destruct (step_reset_keep su Hok cs st None st' HS E) as (Et & _ & HS').
        eexists. split; [exact HS'|]. cbn [paper_step sheet p_chunks p_tab p_calls].
        unfold sheet. rewrite Et, T. destruct cs as [|c cs]; reflexivity.
      + destruct (step_reset_final su Hok cs st None st' HS E) as (Et & _ & _ & HS').
        exists []. split; [exact HS'|]. cbn [paper_step sheet p_chunks p_tab p_calls].
        unfold sheet. rewrite Et, T. reflexivity.
  Qed.

  Lemma run_exact ops : forall st cs rs st',
    srep su cs st -> do_run su ops st = ORet rs st' ->
    exists cs', srep su cs' st' /\ prun ops (sheet cs st) = (rs, sheet cs' st').
  Proof.
    induction ops as [|o ops IH]; intros st cs rs st' HS E; unfold do_run in E; cbn [run] in E.
    - inversion E; subst. exists cs. split; [exact HS|reflexivity].
    - unfold bind in E. destruct (step (su_smax su) (ba su) (do_reset su) o st) as [r st1| | |] eqn:E1;
        [| discriminate E | discriminate E | discriminate E].
      destruct (run (su_smax su) (ba su) (do_reset su) ops st1) as [rs1 st2| | |] eqn:E2;
        [| discriminate E | discriminate E | discriminate E].
      cbn [ret] in E. inversion E; subst rs st2. clear E.
      destruct (step_exact o st cs r st1 HS E1) as (cs1 & HS1 & P1).
      destruct (IH st1 cs1 rs1 st' HS1 E2) as (cs2 & HS2 & P2).
      exists cs2. split; [exact HS2|]. cbn [paper_run]. rewrite P1, P2. reflexivity.
  Qed.

  Lemma srep_written cs st : srep su cs st -> Forall (in_memory (memory st)) (bumps cs).
  Proof.
    intros (R & _ & _). pose proof (ar_chain _ _ _ _ _ _ _ _ R) as Hch.
    change (al_mem (bot su) (snd (c_w st))) with (memory st) in Hch. clear R.
    induction cs as [|c cs IH]; [constructor|].
    cbn [chain] in Hch. destruct Hch as (_ & (X1 & X2 & _) & H). constructor; [|apply IH; exact H].
    split; [|exact X2]. unfold CURSOR in X1. rewrite Z.add_0_r in X1. exact X1.
  Qed.

  Lemma exactly_paper ops :
    let '(rs, p) := prun ops paper0 in
    exists st, do_run su ops (start su) = ORet rs st /\
      c_tab st = p_tab p /\ calls st = p_calls p /\
      map (fun k => (u_ptr k, u_len k)) (held st) = map (fun k => (p_at k, p_len k)) (p_chunks p) /\
      Forall (in_memory (memory st)) (p_chunks p).
  Proof.
    destruct (run_total su Hok ops) as (rs & st & E & _ & _).
    assert (HS0 : srep su [] (start su)).
    { destruct (start_inv su Hok) as [(cs & R & Hj & Hm) _]. cbn in R, Hj, Hm.
      destruct cs as [|c cs]; [|discriminate Hj]. split; [exact R|]. split; [exact Hj|exact Hm]. }
    destruct (run_exact ops _ _ _ _ HS0 E) as (cs & HS & P).
    change (sheet [] (start su)) with paper0 in P. rewrite P.
    exists st. split; [exact E|]. split; [reflexivity|]. split; [reflexivity|].
    pose proof HS as (_ & Hh & _). split.
    - rewrite <- Hh. cbn [sheet p_chunks]. unfold bumps. rewrite !map_map. reflexivity.
    - apply (srep_written cs st HS).
  Qed.
End Exact.

(** What is answered and which calls are made depends on the configured chunk
    size, the limit on requests and the underlying allocator only. *)
Lemma same_answers su1 su2 ops : setup_ok su1 -> setup_ok su2 ->
  su_min su1 = su_min su2 -> su_smax su1 = su_smax su2 -> su_strat su1 = su_strat su2 ->
  exists rs st1 st2, do_run su1 ops (start su1) = ORet rs st1 /\ do_run su2 ops (start su2) = ORet rs st2 /\
    c_tab st1 = c_tab st2 /\ calls st1 = calls st2.
Proof.
  intros H1 H2 E1 E2 E3. pose proof (exactly_paper su1 H1 ops) as P1. pose proof (exactly_paper su2 H2 ops) as P2.
  rewrite E1, E2, E3 in P1. destruct (paper_run (su_min su2) (su_smax su2) (su_strat su2) ops paper0) as [rs p].
  destruct P1 as (st1 & X1 & X2 & X3 & _). destruct P2 as (st2 & Y1 & Y2 & Y3 & _).
  exists rs, st1, st2. split; [exact X1|]. split; [exact Y1|]. split; congruence.
Qed.

(** Writing into blocks changes no answer. *)
Definition is_write (o : op) : bool := match o with OpWrite _ _ _ => true | _ => false end.

Lemma paper_no_writes min smax S ops : forall p,
  snd (paper_run min smax S (filter (fun o => negb (is_write o)) ops) p) = snd (paper_run min smax S ops p) /\
  fst (paper_run min smax S (filter (fun o => negb (is_write o)) ops) p) =
  map snd (filter (fun q => negb (is_write (fst q))) (combine ops (fst (paper_run min smax S ops p)))).
Proof.
  induction ops as [|o ops IH]; intros p; [split; reflexivity|].
  cbn [filter paper_run]. destruct (is_write o) eqn:Ew; cbn [negb].
  - destruct o; try discriminate Ew. cbn [paper_step]. destruct (IH p) as [I1 I2].
    destruct (paper_run min smax S ops p) as [rs p2]. cbn [fst snd combine filter is_write negb] in *. auto.
  - cbn [paper_run]. destruct (paper_step min smax S o p) as [r p1]. destruct (IH p1) as [I1 I2].
    destruct (paper_run min smax S (filter (fun o => negb (is_write o)) ops) p1) as [rs1 q1].
    destruct (paper_run min smax S ops p1) as [rs2 q2].
    cbn [fst snd combine filter] in *. rewrite Ew. cbn [negb map snd]. rewrite I2. auto.
Qed.

Lemma writes_change_nothing su ops rs st : setup_ok su -> do_run su ops (start su) = ORet rs st ->
  exists st', do_run su (filter (fun o => negb (is_write o)) ops) (start su) =
      ORet (map snd (filter (fun q => negb (is_write (fst q))) (combine ops rs))) st' /\
    c_tab st' = c_tab st /\ calls st' = calls st.
Proof.
  intros H E. pose proof (exactly_paper su H ops) as P1.
  pose proof (exactly_paper su H (filter (fun o => negb (is_write o)) ops)) as P2.
  destruct (paper_no_writes (su_min su) (su_smax su) (su_strat su) ops paper0) as [Q1 Q2].
  destruct (paper_run (su_min su) (su_smax su) (su_strat su) ops paper0) as [rs1 p1].
  destruct (paper_run (su_min su) (su_smax su) (su_strat su) (filter (fun o => negb (is_write o)) ops) paper0) as [rs2 p2].
  cbn [fst snd] in *. destruct P1 as (st1 & X1 & X2 & X3 & _). destruct P2 as (st2 & Y1 & Y2 & Y3 & _).
  rewrite E in X1. injection X1 as -> ->. exists st2. rewrite <- Q2. split; [exact Y1|]. split; congruence.
Qed.
