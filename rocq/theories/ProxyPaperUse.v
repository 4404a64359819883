(** One proxy does what ProxyPaper.v says (C86): an arena over any allocator of which it is
    known what it answers. *)
From Coq Require Import Permutation.
From Verif Require Import Base BaseFacts Alloc AllocFacts Arena ArenaFacts ArenaInv ArenaOps BlinkAlloc BlinkFacts
  History HistoryFacts Setup SetupFacts Frame Proxy ProxyFacts Paper PaperFacts ProxyPaper.

Fixpoint returned {X} (give : Z -> Layout -> X -> X) (ks : list pchunk) (x : X) : X :=
  match ks with
  | [] => x
  | k :: ks' => returned give ks' (give (p_at k) (mkLayout (p_len k) 8) x)
  end.
Lemma charged_back {X} (sell : Layout -> X -> option block * X) give x ks : forall tr,
  charged sell give x (give_back ks tr) = returned give ks (charged sell give x tr).
Proof. induction ks as [|k ks IH]; intros tr; [reflexivity|]. cbn [give_back returned]. rewrite IH. reflexivity. Qed.

Section Local.
  Context {W : Type} (amax smax psmax : Z) (A : Allocator W) (own : W -> list ublock -> Prop).
  Hypothesis Hct : contract amax smax A own.
  Hypothesis Hamax : 0 <= amax <= USIZE_MAX.
  Variable dbg : bool.
  (** What the allocator below answers. *)
  Context {X : Type} (sell : Layout -> X -> option block * X) (give : Z -> Layout -> X -> X) (view : W -> X).
  Hypothesis Hset : forall w m, view (al_set_mem A w m) = view w.
  Hypothesis Hask : forall w us l r w', own w us -> req_ok smax l -> al_allocate A l w = ORet r w' -> sell l (view w) = (r, view w').
  Hypothesis Hgive : forall w us u l w', own w (u :: us) -> fits l u -> al_deallocate A (u_ptr u) l w = ORet tt w' -> view w' = give (u_ptr u) l (view w).

  Notation rep := (arep amax A own).
  Notation sup w := (supplier sell (view w)).
  Notation chg w := (charged sell give (view w)).

  Lemma quiet_view w w' : quiet A w w' -> view w' = view w.
  Proof. intros Q. apply Q. exact Hset. Qed.

  Lemma caps_tail cs ar w us : rep [] cs ar w us -> 0 <= sum_caps cs <= amax /\ 0 <= sum_caps (tl cs) <= amax.
  Proof.
    intros R. pose proof (arep_sum_caps _ _ _ _ Hct Hamax _ _ _ _ _ R) as H. split; [exact H|].
    destruct cs as [|c cs]; cbn [tl]; [cbn; lia|].
    destruct (arep_chunk_ok _ _ _ _ Hct _ _ _ _ _ c R (or_introl eq_refl)) as (_ & _ & _ & _ & L & _).
    assert (0 <= sum_caps cs).
    { apply sum_caps_len. rewrite Forall_forall. intros c' Hc'.
      apply (arep_chunk_ok _ _ _ _ Hct _ _ _ _ _ c' R (or_intror Hc')). }
    cbn [sum_caps fold_right] in H. assert (0 <= c_cap c) by (unfold c_cap, c_end, c_base, HDR in *; lia).
    cbn in H. lia.
  Qed.

  (** A new chunk: the request, and what the allocator below answers to it. *)
  Lemma fresh_asks cs ar w us l lay r w1 : rep [] cs ar w us -> req_ok psmax l -> cfg_lax dbg amax psmax (ar_min ar) smax ->
    slow_req cs (ar_min ar) l = Some lay -> al_allocate A lay w = ORet r w1 ->
    exists n, lay = mkLayout n 8 /\ chunk_size (ar_min ar) (bumps cs) l = Some n /\ sell lay (view w) = (r, view w1) /\
      chunk_raw (cum_of cs) (ar_min ar) l <= l_size lay.
  Proof.
    intros R Hl Hlax Hq Ha. destruct (caps_tail _ _ _ _ R) as [S1 S2]. pose proof (ar_min_ok _ _ _ _ _ _ _ _ R) as Hm.
    destruct (slow_req_spec cs (ar_min ar) l psmax smax lay dbg amax) as (Q1 & _ & _ & _ & Q5); auto; try lia.
    rewrite (chunk_size_eq cs (ar_min ar) l psmax) in Hq by (auto; lia).
    destruct (chunk_size (ar_min ar) (bumps cs) l) as [n|]; [|discriminate]. cbn in Hq. injection Hq as <-.
    exists n. split; [reflexivity|]. split; [reflexivity|]. split; [|exact Q5].
    apply (Hask _ _ _ _ _ (ar_own _ _ _ _ _ _ _ _ R) Q1 Ha).
  Qed.

  Lemma fresh_stays cs ar w us l w' : rep [] cs ar w us -> req_ok psmax l -> cfg_lax dbg amax psmax (ar_min ar) smax ->
    slow_info A cs (ar_min ar) l w None w' ->
    exists tr, fresh (ar_min ar) (sup w) (bumps cs) l [] = (None, bumps cs, tr) /\ chg w tr = view w'.
  Proof.
    intros R Hl Hlax [[Hq ->]|(lay & Hq & Ha)]; unfold fresh.
    - destruct (caps_tail _ _ _ _ R) as [S1 S2]. pose proof (ar_min_ok _ _ _ _ _ _ _ _ R) as Hm.
      rewrite (chunk_size_eq cs (ar_min ar) l psmax) in Hq by (auto; lia).
      destruct (chunk_size (ar_min ar) (bumps cs) l) as [n|]; [discriminate|]. exists []. split; reflexivity.
    - destruct (fresh_asks _ _ _ _ _ _ _ _ R Hl Hlax Hq Ha) as (n & -> & -> & Es & _).
      cbn [supplier st_alloc]. rewrite Es. cbn [fst]. eexists. split; [reflexivity|]. cbn [charged]. rewrite Es. reflexivity.
  Qed.

  Lemma fresh_new cs ar w us l c p w' : rep [] cs ar w us -> req_ok psmax l -> cfg_lax dbg amax psmax (ar_min ar) smax ->
    slow_info A cs (ar_min ar) l w (Some c) w' -> c_cur c = p + l_size l -> p = round_up (c_base c) (l_align l) ->
    exists tr, fresh (ar_min ar) (sup w) (bumps cs) l [] = (Some p, bumps (c :: cs), tr) /\ chg w tr = view w'.
  Proof.
    intros R Hl Hlax (Hq & w1 & Ha & Q) Hc Hp. unfold fresh.
    destruct (fresh_asks _ _ _ _ _ _ _ _ R Hl Hlax Hq Ha) as (n & En & -> & Es & _). rewrite En in Es.
    cbn [supplier st_alloc]. rewrite Es. cbn [fst]. exists [EvAlloc (mkLayout n 8) (Some (ublk (c_u c)))]. split.
    - rewrite least_multiple_eq. change (b_ptr (ublk (c_u c)) + 32) with (c_base c). rewrite <- Hp, <- Hc. reflexivity.
    - cbn [charged]. rewrite Es. cbn [snd]. symmetry. apply quiet_view. exact Q.
  Qed.

  (** [allocate]. *)
  Lemma alloc_exact cs ar w us l : rep [] cs ar w us -> req_ok psmax l -> cfg_lax dbg amax psmax (ar_min ar) smax ->
    match blink_allocate A dbg l (ar, w) with
    | ORet r aw' => ar_min (fst aw') = ar_min ar /\ (forall b, r = Some b -> b_len b = l_size l) /\
        exists cs' tr, take (ar_min ar) (sup w) (bumps cs) l [] = (option_map b_ptr r, bumps cs', tr) /\
          chg w tr = view (snd aw') /\ cramped dbg (bumps cs) (bumps cs') = false /\
          rep [] cs' (fst aw') (snd aw') (match r with Some b => mku b l :: us | None => us end)
    | OPanic aw' => fst aw' = ar /\ cs = [] /\ (exists b, own (snd aw') [b]) /\
        exists a ks tr, take (ar_min ar) (sup w) (bumps cs) l [] = (Some a, ks, tr) /\
          chg w tr = view (snd aw') /\ cramped dbg (bumps cs) ks = true
    | _ => False
    end.
  Proof.
    intros R Hl Hlax. destruct cs as [|c0 cs0].
    - (* the first chunk *)
      assert (Hdec : (forall lay b w1, slow_req [] (ar_min ar) l = Some lay -> al_allocate A lay w = ORet (Some b) w1 -> dbg = true -> HDR < b_len b) \/
        dbg = true /\ exists lay b w1, slow_req [] (ar_min ar) l = Some lay /\ al_allocate A lay w = ORet (Some b) w1 /\ b_len b <= HDR).
      { destruct dbg; [|left; discriminate].
        destruct (slow_req [] (ar_min ar) l) as [lay|]; [|left; discriminate].
        destruct (al_allocate A lay w) as [[b|] w1|w1| |] eqn:Eal; try (left; intros lay' b' w' E1 E2 _; congruence).
        destruct (Z_le_gt_dec (b_len b) HDR) as [L|G].
        - right. split; [reflexivity|]. exists lay, b, w1. auto.
        - left. intros lay' b' w' E1 E2 _. injection E1 as <-. rewrite Eal in E2. injection E2 as <- <-. lia. }
      pose proof R as [R1 R2 R3 R4 R5 R6 R7 R8]. cbn [head_ptr] in R1.
      unfold blink_allocate. unfold bind. unfold alloc_fast at 1, with_aw at 1. cbn [fst snd]. rewrite R1. cbn [ret].
      unfold arena_alloc_slow, with_aw. cbn [fst snd]. cbn [take bumps map].
      destruct Hdec as [Hlen|(Ed & lay & b & w1 & Er & Eal & Hb)].
      + pose proof (alloc_slow_gen amax psmax smax A own Hct Hamax dbg [] [] ar w us l R Hl Hlax Hlen) as H.
        apply wp_inv in H. destruct H as (r & w' & E & _ & H). unfold bind. rewrite E.
        destruct r as [[b q]|]; cbn [ret fst snd ar_min]; (split; [reflexivity|]).
        * destruct H as (_ & Hb & c & Hi & _ & Hc & Hp & R'). split; [intros b' E'; injection E' as <-; exact Hb|].
          destruct (fresh_new [] ar w us l c (b_ptr b) w' R Hl Hlax Hi Hc Hp) as (tr & Ef & Ev).
          exists [c], tr. split; [exact Ef|]. split; [exact Ev|]. split; [|exact R'].
          unfold cramped. cbn [bumps map]. destruct dbg; [|reflexivity]. cbn [andb]. destruct Hi as (Hq & w2 & Ha & _).
          specialize (Hlen _ _ _ Hq Ha eq_refl). cbn in Hlen |- *. unfold HDR in Hlen. lia.
        * destruct H as (Hi & R'). split; [discriminate|]. destruct (fresh_stays [] ar w us l w' R Hl Hlax Hi) as (tr & Ef & Ev).
          exists [], tr. split; [exact Ef|]. split; [exact Ev|]. split; [unfold cramped; destruct dbg; reflexivity|exact R'].
      + destruct (slow_req_spec [] (ar_min ar) l psmax smax lay dbg amax) as (Q1 & _ & _ & _ & Q5); auto; try (cbn; lia).
        pose proof (ct_allocate _ _ _ _ Hct w _ lay R5 Q1) as Hal. unfold wp in Hal. rewrite Eal in Hal.
        destruct Hal as (_ & (G1 & G2 & G3 & G4) & O1). cbn [map app] in O1.
        destruct (fresh_asks [] ar w us l lay _ w1 R Hl Hlax Er Eal) as (n & El & Ec & Es & _).
        pose proof Er as Er'. unfold slow_req in Er'. cbn [cum_of] in *.
        destruct (next_chunk_size None (ar_min ar) l) as [n0|] eqn:En; [|discriminate].
        destruct (align_up n0 HDR_ALIGN) as [n'|] eqn:Eu; [|discriminate]. injection Er' as Er'.
        destruct (slow_assert [] (ar_min ar) l psmax smax dbg amax n0) as [_ Has]; auto; try (cbn; lia).
        unfold alloc_slow, bind. rewrite R1. cbn [ret]. rewrite En. unfold debug_assert. rewrite (Has Ed), Ed. cbn [andb negb ret].
        unfold alloc_chunk. rewrite Eu. unfold bind. rewrite Er', Eal. unfold init_chunk, bind, debug_assert.
        rewrite <- Er' in G2. cbn [l_align] in G2. unfold HDR_ALIGN in *. change 8 with (2 ^ 3) at 1. rewrite is_aligned_to_mod by lia. change (2 ^ 3) with 8. rewrite G2.
        cbn [Z.eqb andb negb ret]. replace (HDR <? b_len b) with false by lia. cbn [andb negb panic fst snd].
        split; [reflexivity|]. split; [reflexivity|]. split; [eexists; exact O1|].
        unfold fresh. cbn [bumps map] in Ec. rewrite Ec. rewrite El in Es. cbn [supplier st_alloc]. rewrite Es. cbn [fst].
        eexists. eexists. eexists. split; [reflexivity|]. cbn [charged]. rewrite Es. split; [reflexivity|].
        unfold cramped. cbn. unfold HDR in Hb. lia.
    - assert (Hfor : cfg_for dbg amax psmax (ar_min ar) smax (ar_root ar) l).
      { destruct Hlax as (X1 & X2 & X3). split; [exact X1|]. split; [exact X2|]. destruct X3 as [X3|X3]; [left; exact X3|]. right.
        split; [|exact X3]. intros _. right. right. right. rewrite (ar_head _ _ _ _ _ _ _ _ R). discriminate. }
      pose proof (blink_allocate_ok amax psmax smax A own Hct Hamax dbg [] (c0 :: cs0) ar w us l R Hl Hfor) as H.
      apply wp_inv in H. destruct H as (r & [ar' w'] & E & _ & M1 & H). rewrite E. cbn [fst snd] in *. split; [exact M1|].
      assert (Hcr : forall ks, cramped dbg (bumps (c0 :: cs0)) ks = false) by (intros ks; unfold cramped; destruct dbg; reflexivity).
      destruct (fits_root (c0 :: cs0) l) eqn:Fr.
      + destruct H as (Q & c & cs' & b & Ecs & -> & Eb & _ & R'). injection Ecs as <- <-.
        split; [intros b' E'; injection E' as <-; rewrite Eb; reflexivity|].
        rewrite (take_fast _ _ c0 cs0 l [] Fr). exists (set_cur c0 (b_ptr b + l_size l) :: cs0), [].
        split; [rewrite Eb; reflexivity|]. split; [symmetry; apply quiet_view; exact Q|]. split; [apply Hcr|exact R'].
      + rewrite (take_full _ _ (c0 :: cs0) l [] Fr). destruct r as [b|].
        * destruct H as (_ & Hb & c & Hi & Hc & Hp & R'). split; [intros b' E'; injection E' as <-; exact Hb|].
          destruct (fresh_new _ ar w us l c (b_ptr b) w' R Hl Hlax Hi Hc Hp) as (tr & Ef & Ev).
          exists (c :: c0 :: cs0), tr. auto.
        * destruct H as (Hi & R'). split; [discriminate|]. destruct (fresh_stays _ ar w us l w' R Hl Hlax Hi) as (tr & Ef & Ev).
          exists (c0 :: cs0), tr. auto.
  Qed.

  (** [allocate] and [allocate_zeroed]. *)
  Lemma any_exact cs ar w us l (z : bool) : rep [] cs ar w us -> req_ok psmax l -> cfg_lax dbg amax psmax (ar_min ar) smax ->
    match (if z then al_allocate_zeroed (blink A dbg) l else al_allocate (blink A dbg) l) (ar, w) with
    | ORet r aw' => ar_min (fst aw') = ar_min ar /\ (forall b, r = Some b -> b_len b = l_size l) /\
        exists cs' tr, take (ar_min ar) (sup w) (bumps cs) l [] = (option_map b_ptr r, bumps cs', tr) /\
          chg w tr = view (snd aw') /\ cramped dbg (bumps cs) (bumps cs') = false /\
          rep [] cs' (fst aw') (snd aw') (match r with Some b => mku b l :: us | None => us end)
    | OPanic aw' => fst aw' = ar /\ cs = [] /\ (exists b, own (snd aw') [b]) /\
        exists a ks tr, take (ar_min ar) (sup w) (bumps cs) l [] = (Some a, ks, tr) /\
          chg w tr = view (snd aw') /\ cramped dbg (bumps cs) ks = true
    | _ => False
    end.
  Proof.
    intros R Hl Hlax. pose proof (alloc_exact cs ar w us l R Hl Hlax) as H. destruct z; [|exact H].
    unfold al_allocate_zeroed, bind. cbn [blink al_allocate]. destruct (blink_allocate A dbg l (ar, w)) as [r [ar' w']|aw'| |]; auto.
    destruct H as (M1 & Hb & cs' & tr & Et & Ev & Hc & R'). cbn [fst snd] in *. destruct r as [b|]; cbn [ret fst snd].
    - unfold mfill. cbn [blink al_set_mem al_mem fst snd]. split; [exact M1|]. split; [exact Hb|]. exists cs', tr. split; [exact Et|].
      split; [rewrite Ev; symmetry; apply Hset|]. split; [exact Hc|].
      apply (arep_own_write amax smax A own Hct cs' ar' w' us [] (mku b l)); [exact R'|].
      intros x Hx. apply fill_other. unfold in_u, mku in Hx. cbn in Hx. lia.
    - split; [exact M1|]. split; [exact Hb|]. exists cs', tr. auto.
  Qed.

  (** [deallocate]. *)
  Lemma dealloc_exact cs ar w u us n : rep [] cs ar w (u :: us) -> 0 <= n <= u_len u ->
    wp (blink_deallocate A (u_ptr u) n) (ar, w) (fun _ aw' => fst aw' = ar /\ view (snd aw') = view w /\ rep [] cs ar (snd aw') us).
  Proof.
    intros R Hn. eapply wp_mono; [apply (blink_deallocate_ok amax smax A own Hct Hamax [] cs ar w u us n R Hn)|].
    intros _ aw' (E & Q & _ & R'). split; [exact E|]. split; [apply quiet_view; exact Q|]. apply (arep_drop _ _ _ _ _ _ _ _ _ R').
  Qed.

  (** [grow] and [shrink]. *)
  Lemma resize_exact cs ar w u us old new : rep [] cs ar w (u :: us) -> fits old u -> req_ok psmax new ->
    cfg_lax dbg amax psmax (ar_min ar) smax ->
    wp (blink_resize A dbg (u_ptr u) old new) (ar, w) (fun r aw' => ar_min (fst aw') = ar_min ar /\ cs <> [] /\
      exists cs' tr, moves (ar_min ar) (sup w) (bumps cs) (u_ptr u) old new [] = (r, bumps cs', tr) /\ chg w tr = view (snd aw') /\
        rep [] cs' (fst aw') (snd aw') (match r with Some b => mku b new :: us | None => u :: us end)).
  Proof.
    intros R Hf Hl Hlax.
    assert (Hfor : cfg_for dbg amax psmax (ar_min ar) smax (ar_root ar) new).
    { destruct Hlax as (X1 & X2 & X3). split; [exact X1|]. split; [exact X2|]. destruct X3 as [X3|X3]; [left; exact X3|]. right.
      split; [|exact X3]. intros _. right. right. right. rewrite (ar_head _ _ _ _ _ _ _ _ R).
      pose proof (ar_placed _ _ _ _ _ _ _ _ R) as P. inversion P as [|? ? (c0 & Hc0 & _) _]; subst. destruct cs; [destruct Hc0|discriminate]. }
    eapply wp_mono; [apply (blink_resize_way amax psmax smax A own Hct Hamax dbg [] cs ar w u us old new R Hf Hl Hfor)|].
    intros r [ar' w'] (M1 & c & cs' & -> & H). cbn [fst snd] in *. split; [exact M1|]. split; [discriminate|].
    destruct (way c (u_ptr u) old new) as [[[p n] k]|] eqn:Ew.
    - destruct H as (-> & Q & R1). exists (set_cur c k :: cs'), []. split; [apply (moves_way _ _ c cs' (u_ptr u) old new [] p n k Ew)|].
      split; [symmetry; apply quiet_view; exact Q|]. exact R1.
    - destruct H as (Rm & H). rewrite (moves_full _ _ c cs' (u_ptr u) old new [] Ew Rm). destruct r as [b|].
      + destruct H as (_ & Lb & c1 & Hi & Hc & Hp & R1).
        destruct (fresh_new _ ar w _ new c1 (b_ptr b) w' R Hl Hlax Hi Hc Hp) as (tr & Ef & Ev). exists (c1 :: c :: cs'), tr.
        rewrite Ef. cbn [option_map]. split; [rewrite <- Lb; destruct b; reflexivity|]. split; [exact Ev|exact R1].
      + destruct H as (Hi & R1). destruct (fresh_stays _ ar w _ new w' R Hl Hlax Hi) as (tr & Ef & Ev). exists (c :: cs'), tr.
        rewrite Ef. split; [reflexivity|]. split; [exact Ev|exact R1].
  Qed.

  (** [grow_zeroed] after the allocation. *)
  Lemma copy_exact cs ar w u us b old new : rep [] cs ar w (mku b new :: u :: us) -> fits old u -> l_size old <= l_size new -> l_size new <= b_len b ->
    wp (mcopy (blink A dbg) (u_ptr u) (b_ptr b) (l_size old) ;;; al_deallocate (blink A dbg) (u_ptr u) old ;;; ret (Some b)) (ar, w)
      (fun r aw' => r = Some b /\ fst aw' = ar /\ view (snd aw') = view w /\ rep [] cs ar (snd aw') (mku b new :: us)).
  Proof.
    intros R Hf Hs Hb.
    pose proof (ar_disj _ _ _ _ _ _ _ _ R) as (D1 & _).
    pose proof (ar_ok _ _ _ _ _ _ _ _ R) as Ho. inversion Ho as [|? ? _ Ho1]; subst.
    inversion Ho1 as [|? ? Hu _]; subst. destruct Hu as (_ & _ & Hu). pose proof Hf as [_ F]. rewrite Forall_forall in D1.
    assert (Hd : l_size old = 0 \/ u_ptr u + l_size old <= b_ptr b \/ b_ptr b + l_size old <= u_ptr u).
    { pose proof (D1 u (or_introl eq_refl)) as D. unfold disjoint_u, in_u in D. cbn in D.
      destruct (Z.eq_dec (l_size old) 0); [auto|]. right. pose proof (D (Z.max (u_ptr u) (b_ptr b))) as D'. lia. }
    apply wp_bind. unfold wp at 1, mcopy.
    replace ((l_size old =? 0) || (u_ptr u + l_size old <=? b_ptr b) || (b_ptr b + l_size old <=? u_ptr u)) with true by lia.
    cbn [blink al_mem al_set_mem fst snd]. set (m2 := copy (al_mem A w) (u_ptr u) (b_ptr b) (l_size old)).
    assert (R2 : rep [] cs ar (al_set_mem A w m2) (mku b new :: u :: us)).
    { apply (arep_write_us _ _ _ _ Hct _ _ _ _ _ m2 R). intros x Hx. specialize (Hx _ (or_introl eq_refl)).
      apply copy_other. unfold in_u in Hx. cbn in Hx. lia. }
    apply (arep_perm _ _ _ _ _ _ _ _ _ (perm_swap u (mku b new) us)) in R2.
    apply wp_bind. cbn [al_deallocate blink].
    eapply wp_mono; [apply (dealloc_exact cs ar _ u _ (l_size old) R2); lia|]. intros _ [ar' w'] (E1 & E2 & R3). cbn [fst snd] in *. apply wp_ret. cbn [fst snd].
    split; [reflexivity|]. split; [exact E1|]. split; [rewrite E2; apply Hset|exact R3].
  Qed.

  (** [reset_unchecked]. *)
  Lemma free_view cs : forall n w rest, chain (al_mem A w) cs -> own w (map c_u cs ++ rest) -> (length cs <= n)%nat ->
    wp (free_chain A n (head_ptr cs)) w (fun _ w' => view w' = returned give (bumps cs) (view w)).
  Proof.
    induction cs as [|c cs IH]; intros n w rest Hch Ho Hn.
    - destruct n; cbn; reflexivity.
    - destruct n as [|n]; [cbn in Hn; lia|]. cbn [head_ptr free_chain].
      cbn [chain] in Hch. destruct Hch as (Hw & (X1 & X2 & X3 & X4) & Hch).
      destruct (ct_wf _ _ _ _ Hct _ _ Ho) as [Hwf Hpw]. rewrite Forall_forall in Hwf.
      assert (Hpos : forall c', In c' (c :: cs) -> 0 < c_ptr c').
      { intros c' Hc'. assert (Hu : u_ok amax (c_u c')) by (apply Hwf; apply in_or_app; left; apply in_map; exact Hc'). apply Hu. }
      assert (Hlen : forall c', In c' cs -> HDR <= u_len (c_u c')).
      { intros c' Hc'. assert (Hu : u_ok amax (c_u c')) by (apply Hwf; apply in_or_app; left; apply in_map; right; exact Hc').
        destruct (chain_cwf _ _ _ Hch Hc') as (_ & Z2 & _). destruct Hu as ((_ & _ & Z3 & _) & _). cbn in Z3. lia. }
      apply wp_bind. unfold dealloc_chunk.
      apply wp_bind. eapply wp_mload; [exact X3|].
      apply wp_bind. eapply wp_mload; [exact X2|].
      apply wp_bind. cbn [map app] in Ho.
      assert (Hf : fits (mkLayout (c_end c - c_ptr c) HDR_ALIGN) (c_u c)).
      { destruct Hw as (Z1 & Z2 & Z3). split; cbn; [symmetry; exact Z1|].
        assert (Hu : u_ok amax (c_u c)) by (apply Hwf; left; reflexivity).
        destruct Hu as ((_ & _ & Z4 & _) & _). cbn in Z4. unfold c_end. unfold c_ptr. lia. }
      pose proof (ct_deallocate _ _ _ _ Hct w _ (c_u c) _ Ho Hf) as Hd.
      apply wp_inv in Hd. destruct Hd as ([] & w1 & Ed & Hs1 & Ho1).
      unfold wp at 1. unfold c_ptr at 1. rewrite Ed.
      pose proof (Hgive _ _ _ _ _ Ho Hf Ed) as T.
      change (wp (ret (opt_ptr (ptr_opt (head_ptr cs)))) w1 (fun a w' => wp (free_chain A n a) w' (fun _ w'' => view w'' = returned give (bumps (c :: cs)) (view w)))).
      apply wp_ret. rewrite opt_ptr_head by (intros c' Hc'; apply Hpos; right; exact Hc').
      eapply wp_mono; [apply (IH n w1 rest)|].
      + apply (chain_same_on (al_mem A w) _ _ rest Hs1 Hlen). exact Hch.
      + exact Ho1.
      + cbn in Hn. lia.
      + intros ? w2 H2. rewrite H2, T. cbn [bumps map returned bump p_at p_len]. unfold c_end, c_ptr, HDR_ALIGN.
        replace (u_ptr (c_u c) + u_len (c_u c) - u_ptr (c_u c)) with (u_len (c_u c)) by lia. reflexivity.
  Qed.

  Lemma reset_exact cs ar w us : rep [] cs ar w us ->
    wp (blink_reset A) (ar, w) (fun _ aw' => ar_min (fst aw') = ar_min ar /\ view (snd aw') = returned give (tl (bumps cs)) (view w) /\
      exists cs', bumps cs' = newest (bumps cs) /\ rep [] cs' (fst aw') (snd aw') []).
  Proof.
    intros R. pose proof (ar_own _ _ _ _ _ _ _ _ R) as Ho.
    assert (Hv : wp (blink_reset A) (ar, w) (fun _ aw' => view (snd aw') = returned give (tl (bumps cs)) (view w))).
    { unfold blink_reset, arena_reset; apply wp_with_aw; cbn [fst snd]. rewrite (ar_head _ _ _ _ _ _ _ _ R).
      destruct cs as [|c cs']; cbn [head_ptr tl]; [apply wp_ret; reflexivity|].
      apply wp_bind. eapply wp_mono; [apply (chunk_reset_ok amax smax A own Hct _ _ _ _ _ _ R)|].
      intros prev w1 (-> & Q1 & Hch & R1 & _). apply wp_bind.
      pose proof (ar_own _ _ _ _ _ _ _ _ R1) as Ho1. cbn [map app] in Ho1. rewrite app_nil_r in Ho1.
      eapply wp_mono; [apply (free_view cs' (ar_depth ar) w1 [c_u c] Hch)|].
      - apply (ct_perm _ _ _ _ Hct _ _ _ Ho1). apply Permutation_cons_append.
      - rewrite (ar_count _ _ _ _ _ _ _ _ R). cbn. lia.
      - intros ? w2 H2. apply wp_ret. cbn [fst snd]. rewrite H2. cbn [bumps map tl]. f_equal. apply quiet_view. exact Q1. }
    pose proof (wp_conj _ _ _ _ Hv (arena_reset_keep_ok amax smax A own Hct [] cs ar w us R)) as H.
    eapply wp_mono; [exact H|]. intros _ [ar' w'] (Ev & _ & M1 & H1). cbn [fst snd] in *. split; [exact M1|]. split; [exact Ev|].
    destruct cs as [|c cs].
    - injection H1 as -> ->. exists []. split; [reflexivity|]. destruct R as [? ? ? ? ? ? ? ?]. constructor; auto; constructor.
    - exists [set_cur c (c_base c)]. split; [reflexivity|exact H1].
  Qed.

  (** [reset_final]. *)
  Lemma final_exact cs ar w us : rep [] cs ar w us ->
    wp (blink_reset_final A) (ar, w) (fun _ aw' => ar_min (fst aw') = ar_min ar /\ view (snd aw') = returned give (bumps cs) (view w) /\
      rep [] [] (fst aw') (snd aw') []).
  Proof.
    intros R. pose proof (ar_own _ _ _ _ _ _ _ _ R) as Ho. rewrite app_nil_r in Ho.
    assert (Hv : wp (blink_reset_final A) (ar, w) (fun _ aw' => view (snd aw') = returned give (bumps cs) (view w))).
    { unfold blink_reset_final, arena_reset; apply wp_with_aw; cbn [fst snd]. rewrite (ar_head _ _ _ _ _ _ _ _ R).
      apply wp_bind. eapply wp_mono; [apply (free_view cs (ar_depth ar) w [] (ar_chain _ _ _ _ _ _ _ _ R))|].
      - rewrite app_nil_r. exact Ho.
      - rewrite (ar_count _ _ _ _ _ _ _ _ R). lia.
      - intros ? w2 H2. apply wp_ret. cbn [fst snd]. exact H2. }
    pose proof (wp_conj _ _ _ _ Hv (arena_reset_final_ok amax smax A own Hct [] cs ar w us R)) as H.
    eapply wp_mono; [exact H|]. intros _ [ar' w'] (Ev & _ & M1 & _ & _ & H1). cbn [fst snd] in *. auto.
  Qed.

  (** ** An operation of the client *)
  Lemma use_exact o c cs x : rep [] cs (fst (c_w c)) (snd (c_w c)) (live (c_tab c)) -> cfg_lax dbg amax psmax (ar_min (fst (c_w c))) smax ->
    view (snd (c_w c)) = x ->
    let p := mkPP (ar_min (fst (c_w c))) (bumps cs) (c_tab c) in
    match step psmax (blink A dbg) (fun _ => blink_reset A) o c with
    | ORet r c' => exists cs', rep [] cs' (fst (c_w c')) (snd (c_w c')) (live (c_tab c')) /\ ar_min (fst (c_w c')) = ar_min (fst (c_w c)) /\
        use_pp sell give dbg psmax o p x = (PBlock r, mkPP (ar_min (fst (c_w c))) (bumps cs') (c_tab c'), view (snd (c_w c')))
    | OPanic c' => cs = [] /\ c_tab c' = c_tab c /\ fst (c_w c') = fst (c_w c) /\ (exists b, own (snd (c_w c')) [b]) /\
        use_pp sell give dbg psmax o p x = (PPanicked, p, view (snd (c_w c')))
    | _ => False
    end.
  Proof.
    destruct c as [t [ar w]]. cbn [c_tab c_w fst snd]. intros R Hlax <-. cbv zeta. set (p := mkPP (ar_min ar) (bumps cs) t).
    assert (Hskip : paper_step (ar_min ar) psmax (sup w) (match o with OpReset _ => OpReset true | _ => o end) (mkPaper (bumps cs) t []) =
        (None, mkPaper (bumps cs) t []) ->
      exists cs', rep [] cs' ar w (live t) /\ ar_min ar = ar_min ar /\
        use_pp sell give dbg psmax o p (view w) = (PBlock None, mkPP (ar_min ar) (bumps cs') t, view w)).
    { intros E. exists cs. split; [exact R|]. split; [reflexivity|]. unfold use_pp. cbn [p pp_min pp_chunks pp_tab].
      destruct o; cbv beta iota in E |- *; rewrite E; cbn [p_chunks p_tab p_calls]; (replace (cramped dbg (bumps cs) (bumps cs)) with false; [reflexivity|]);
        unfold cramped; destruct cs; destruct dbg; reflexivity. }
    assert (Hsame : forall c0 cs0 ks, cramped dbg (bumps (c0 :: cs0)) ks = false) by (intros; unfold cramped; destruct dbg; reflexivity).
    assert (Hne : forall u us cs0 ar0 w0, rep [] cs0 ar0 w0 (u :: us) -> exists c0 cs1, cs0 = c0 :: cs1).
    { intros u us cs0 ar0 w0 R0. pose proof (ar_placed _ _ _ _ _ _ _ _ R0) as P. inversion P as [|? ? (c0 & Hc0 & _) _]; subst.
      destruct cs0 as [|c1 cs1]; [destruct Hc0|eauto]. }
    unfold step. cbn [c_tab]. destruct o as [l z|h off bs|h l|h old new|h old new|keep].
    - (* allocate *)
      destruct (req_okb psmax l) eqn:Hl.
      2:{ cbn [step_at]. rewrite Hl. apply Hskip. cbn [paper_step]. rewrite Hl. reflexivity. }
      cbn [step_at]. rewrite Hl. unfold call. cbn [c_w c_tab]. pose proof (any_exact cs ar w _ l z R Hl Hlax) as H.
      unfold use_pp. cbn [paper_step p pp_min pp_chunks pp_tab p_chunks p_calls p_tab]. rewrite Hl.
      destruct ((if z then al_allocate_zeroed (blink A dbg) l else al_allocate (blink A dbg) l) (ar, w)) as [r [ar' w']|[ar' w']| |]; auto; cbn [c_w c_tab fst snd] in *.
      + destruct H as (M1 & Hb & cs' & tr & Et & Ev & Hc & R'). exists cs'. rewrite Et. destruct r as [b|]; cbn [option_map on_ok p_chunks p_tab p_calls].
        * rewrite Hc. specialize (Hb b eq_refl). rewrite live_app. cbn [live flat_map app].
          split; [apply (arep_perm _ _ _ _ _ _ _ _ _ (Permutation_cons_append _ _) R')|]. split; [exact M1|].
          rewrite Ev. rewrite <- Hb. destruct b; reflexivity.
        * rewrite Hc. split; [exact R'|]. split; [exact M1|]. rewrite Ev. reflexivity.
      + destruct H as (E1 & E2 & Hb & a & ks & tr & Et & Ev & Hc). rewrite Et. cbn [p_chunks p_tab p_calls]. rewrite Hc, Ev. auto.
    - (* write *)
      cbn [step_at]. destruct (get h t) as [u|] eqn:G; [|apply Hskip; reflexivity].
      destruct ((0 <=? off) && (off + Z.of_nat (length bs) <=? u_len u)) eqn:Hb; [|apply Hskip; reflexivity].
      cbn [c_w c_tab fst snd blink al_set_mem al_mem]. exists cs. split; [|split; [reflexivity|]].
      + apply (arep_write_us _ _ _ _ Hct _ _ _ _ _ _ R). intros x Hx. apply write_cells_other.
        assert (Hu : In u (live t)) by (apply live_in; eauto). specialize (Hx u Hu). unfold in_u in Hx. lia.
      + rewrite Hset. unfold use_pp. cbn [paper_step p pp_min pp_chunks pp_tab p_chunks p_calls p_tab].
        replace (cramped dbg (bumps cs) (bumps cs)) with false; [reflexivity|]. unfold cramped. destruct cs; destruct dbg; reflexivity.
    - (* deallocate *)
      cbn [step_at]. destruct (get h t) as [u|] eqn:G.
      2:{ apply Hskip. cbn [paper_step pp_min pp_chunks pp_tab p_chunks p_calls p_tab]. cbn. rewrite G. reflexivity. }
      destruct (fitsb l u) eqn:Hf.
      2:{ apply Hskip. cbn. rewrite G, Hf. reflexivity. }
      destruct (get_split _ _ _ G) as (t1 & t2 & Et & Lt). pose proof (proj1 (fitsb_spec l u) Hf) as [F1 F2].
      assert (R0 : rep [] cs ar w (u :: live (t1 ++ t2))) by (rewrite Et in R; apply (arep_perm _ _ _ _ _ _ _ _ _ (live_perm_mid t1 t2 u) R)).
      pose proof (ar_ok _ _ _ _ _ _ _ _ R0) as Ho. pose proof (Forall_inv Ho) as Hu. destruct Hu as (_ & _ & Hu).
      pose proof (dealloc_exact cs ar w u _ (l_size l) R0 ltac:(lia)) as H. apply wp_inv in H. destruct H as ([] & [ar' w'] & E & E1 & E2 & R1).
      unfold bind, call. cbn [c_w c_tab blink al_deallocate]. rewrite E. cbn [ret c_w c_tab fst snd] in *. subst ar'. exists cs.
      split; [|split; [reflexivity|]].
      + rewrite Et, <- Lt, set_nth_split, live_app. rewrite live_app in R1. exact R1.
      + unfold use_pp. cbn [paper_step p pp_min pp_chunks pp_tab p_chunks p_calls p_tab]. rewrite G, Hf. cbn [p_chunks p_tab p_calls].
        destruct (Hne _ _ _ _ _ R0) as (c0 & cs0 & ->). rewrite Hsame, E2. reflexivity.
    - (* resize *)
      cbn [step_at]. destruct (get h t) as [u|] eqn:G.
      2:{ apply Hskip. cbn. rewrite G. reflexivity. }
      destruct (fitsb old u && req_okb psmax new) eqn:Hc.
      2:{ apply Hskip. cbn. rewrite G, Hc. reflexivity. }
      pose proof Hc as Hc'. apply andb_true_iff in Hc'. destruct Hc' as [Hf Hn].
      destruct (get_split _ _ _ G) as (t1 & t2 & Et & Lt). pose proof (proj1 (fitsb_spec old u) Hf) as Hf'.
      assert (R0 : rep [] cs ar w (u :: live (t1 ++ t2))) by (rewrite Et in R; apply (arep_perm _ _ _ _ _ _ _ _ _ (live_perm_mid t1 t2 u) R)).
      pose proof (resize_exact cs ar w u _ old new R0 Hf' Hn Hlax) as H. apply wp_inv in H.
      destruct H as (r & [ar' w'] & E & M1 & _ & cs' & tr & Em & Ev & R1). cbn [fst snd] in *.
      unfold call. cbn [c_w c_tab blink al_grow al_shrink].
      assert (Eg : (if l_size old <=? l_size new then blink_resize A dbg (u_ptr u) old new else blink_resize A dbg (u_ptr u) old new) (ar, w) = ORet r (ar', w'))
        by (destruct (_ <=? _); exact E).
      rewrite Eg. cbn [c_w c_tab fst snd]. exists cs'. split; [|split; [exact M1|]].
      + destruct r as [b|]; cbn [on_ok].
        * rewrite Et, <- Lt, set_nth_split. apply (arep_perm _ _ _ _ _ _ _ _ _ (Permutation_sym (live_perm_mid t1 t2 _)) R1).
        * rewrite Et. apply (arep_perm _ _ _ _ _ _ _ _ _ (Permutation_sym (live_perm_mid t1 t2 _)) R1).
      + unfold use_pp. cbn [paper_step p pp_min pp_chunks pp_tab p_chunks p_calls p_tab]. rewrite G, Hc, Em.
        destruct (Hne _ _ _ _ _ R0) as (c0 & cs0 & ->). destruct r as [b|]; cbn [p_chunks p_tab p_calls on_ok]; rewrite Hsame, Ev; reflexivity.
    - (* grow_zeroed *)
      cbn [step_at]. destruct (get h t) as [u|] eqn:G.
      2:{ apply Hskip. cbn. rewrite G. reflexivity. }
      destruct (fitsb old u && req_okb psmax new && (l_size old <=? l_size new)) eqn:Hc.
      2:{ apply Hskip. cbn. rewrite G, Hc. reflexivity. }
      pose proof Hc as Hc'. apply andb_true_iff in Hc'. destruct Hc' as [Hc' Hs]. apply andb_true_iff in Hc'. destruct Hc' as [Hf Hn].
      destruct (get_split _ _ _ G) as (t1 & t2 & Et & Lt). pose proof (proj1 (fitsb_spec old u) Hf) as Hf'.
      assert (R0 : rep [] cs ar w (u :: live (t1 ++ t2))) by (rewrite Et in R; apply (arep_perm _ _ _ _ _ _ _ _ _ (live_perm_mid t1 t2 u) R)).
      destruct (Hne _ _ _ _ _ R0) as (c0 & cs0 & Ecs).
      pose proof (any_exact cs ar w _ new true R0 Hn Hlax) as H. unfold call, al_grow_zeroed, bind at 1. cbn [c_w c_tab].
      destruct (al_allocate_zeroed (blink A dbg) new (ar, w)) as [r [ar1 w1]|aw1| |]; try contradiction.
      2:{ destruct H as (_ & Xe & _). congruence. }
      destruct H as (M1 & Hb & cs1 & tr & Em & Ev & _ & R1). cbn [fst snd] in *.
      unfold use_pp. cbn [paper_step p pp_min pp_chunks pp_tab p_chunks p_calls p_tab]. rewrite G, Hc, Em.
      destruct r as [b|]; cbn [option_map].
      + specialize (Hb b eq_refl). pose proof (copy_exact cs1 ar1 w1 u _ b old new R1 Hf' ltac:(lia) ltac:(lia)) as H.
        apply wp_inv in H. destruct H as (r & [ar2 w2] & E & -> & E1 & E2 & R2). rewrite E. cbn [c_w c_tab fst snd on_ok p_chunks p_tab p_calls] in *. subst ar2.
        exists cs1. split; [|split; [exact M1|]].
        * rewrite Et, <- Lt, set_nth_split. apply (arep_perm _ _ _ _ _ _ _ _ _ (Permutation_sym (live_perm_mid t1 t2 _)) R2).
        * rewrite Ecs, Hsame, E2, Ev. rewrite <- Hb. destruct b; reflexivity.
      + cbn [ret c_w c_tab fst snd on_ok p_chunks p_tab p_calls]. exists cs1. split; [|split; [exact M1|]].
        * rewrite Et. apply (arep_perm _ _ _ _ _ _ _ _ _ (Permutation_sym (live_perm_mid t1 t2 _)) R1).
        * rewrite Ecs, Hsame, Ev. reflexivity.
    - (* reset_unchecked *)
      cbn [step_at]. unfold bind, call. cbn [c_w c_tab]. pose proof (reset_exact cs ar w _ R) as H. apply wp_inv in H.
      destruct H as ([] & [ar' w'] & E & M1 & Ev & cs' & Ec & R'). rewrite E. cbn [ret c_w c_tab fst snd] in *.
      exists cs'. split; [|split; [exact M1|]].
      + change (live (map (fun _ => None) t)) with (live (map (fun _ => @None ublock) t)). rewrite live_none. exact R'.
      + unfold use_pp. cbn [paper_step p pp_min pp_chunks pp_tab p_chunks p_calls p_tab]. rewrite Ec. destruct cs as [|c cs]; cbn [bumps map newest p_chunks p_tab p_calls].
        * replace (cramped dbg [] []) with false by (unfold cramped; destruct dbg; reflexivity). cbn [charged]. rewrite Ev. reflexivity.
        * fold (bumps cs). replace (cramped dbg _ _) with false by (unfold cramped; destruct dbg; reflexivity). rewrite charged_back. cbn [charged]. rewrite Ev. cbn [bumps map tl]. reflexivity.
  Qed.
End Local.
