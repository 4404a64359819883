(** The global allocators do what GlobalPaper.v says (C88). *)
From Coq Require Import Permutation.
From Verif Require Import Base BaseFacts Alloc AllocFacts Arena ArenaFacts ArenaInv ArenaOps BlinkAlloc BlinkFacts
  History HistoryFacts Setup SetupFacts Frame Global GlobalFacts GlobalProps Proxy ProxyFacts Tower Paper PaperFacts ProxyPaper ProxyPaperUse
  ProxyPaperFacts Layered GlobalPaper.

(** The calls made, in front of the ones made before. *)
Lemma fresh_after min S ks l tr a ks' c : fresh min (supplier (tsell S []) tr) ks l [] = (a, ks', c) ->
  fresh min S ks l tr = (a, ks', charged (tsell S []) (tgive []) tr c).
Proof.
  unfold fresh. destruct (chunk_size min ks l) as [n|]; [|intros E; injection E as <- <- <-; reflexivity].
  cbn [supplier st_alloc tsell fst]. destruct (Alloc.st_alloc S tr (mkLayout n 8)) as [b|] eqn:Es; intros E; injection E as <- <- <-;
    cbn [charged tsell snd]; rewrite Es; reflexivity.
Qed.
Lemma take_after min S ks l tr a ks' c : take min (supplier (tsell S []) tr) ks l [] = (a, ks', c) ->
  take min S ks l tr = (a, ks', charged (tsell S []) (tgive []) tr c).
Proof.
  unfold take. destruct ks as [|k older]; [apply fresh_after|].
  destruct (_ && _); [intros E; injection E as <- <- <-; reflexivity|apply fresh_after].
Qed.
Lemma moves_after min S ks p old new tr r ks' c : moves min (supplier (tsell S []) tr) ks p old new [] = (r, ks', c) ->
  moves min S ks p old new tr = (r, ks', charged (tsell S []) (tgive []) tr c).
Proof.
  unfold moves. destruct (take min (supplier (tsell S []) tr) ks new []) as [[a ks1] c1] eqn:Et.
  rewrite (take_after _ _ _ _ _ _ _ _ Et).
  destruct (l_align new <=? l_align old); [|intros E; injection E as <- <- <-; reflexivity].
  destruct (l_size new <=? l_size old); [intros E; injection E as <- <- <-; reflexivity|].
  destruct ks as [|k older]; [intros E; injection E as <- <- <-; reflexivity|].
  destruct (_ && _); intros E; injection E as <- <- <-; reflexivity.
Qed.
Lemma returned_after ks : forall tr, returned (tgive []) ks tr = give_back ks tr.
Proof. induction ks as [|k ks IH]; intros tr; [reflexivity|]. cbn [returned give_back]. rewrite IH. reflexivity. Qed.

Lemma blink_alive_part t : is_nil (part true t) = negb (blink_alive t).
Proof. induction t as [|[[[|] u]|] t IH]; [reflexivity|reflexivity|exact IH|exact IH]. Qed.

Section Exact.
  Context {W : Type} (amax smax smax' : Z) (A : Allocator W) (own : W -> list ublock -> Prop).
  Hypothesis Hct : contract amax smax' A own.
  Hypothesis Hamax : 0 <= amax <= USIZE_MAX.
  Variable dbg sync : bool.
  Variable min : Z.
  Hypothesis Hmin : 0 <= min <= USIZE_MAX.
  Hypothesis Hcfg : cfg_ok dbg amax smax min smax'.
  Hypothesis Hss : smax <= smax'.
  Variable may : Z -> Z -> bool.
  Notation direct_resize p old new := (if l_size new <=? l_size old then al_grow A p old new else al_shrink A p old new).
  Hypothesis Hmay : forall u old new, fits old u -> req_ok smax' new -> may (l_size old) (l_size new) = true ->
    resizes amax A own (direct_resize (u_ptr u) old new) u old new.
  (** What the underlying allocator answers. *)
  Variable S : strategy.
  Variable view : W -> list uevent.
  Hypothesis Hset : forall w m, view (al_set_mem A w m) = view w.
  Hypothesis Hask : forall w us l r w', own w us -> req_ok smax' l -> al_allocate A l w = ORet r w' -> tsell S [] l (view w) = (r, view w').
  Hypothesis Hgive : forall w us u l w', own w (u :: us) -> fits l u -> al_deallocate A (u_ptr u) l w = ORet tt w' ->
    view w' = tgive [] (u_ptr u) l (view w).
  Hypothesis Hres : forall w us u old new r w', own w (u :: us) -> fits old u -> req_ok smax' new -> may (l_size old) (l_size new) = true ->
    direct_resize (u_ptr u) old new w = ORet r w' ->
    r = Alloc.st_resize S (view w) (u_ptr u) old new /\ view w' = EvResize (u_ptr u) old new r :: view w.

  Notation amem aw := (al_mem A (snd aw)).
  Notation arep := (arep amax A own).

  (** As [has] of GlobalFacts.v, with the chunks in view. *)
  Definition stocked (t : gtab) (ks : list pchunk) (aw : AW (W := W)) : Prop :=
    exists cs, arep (part false t) cs (fst aw) (snd aw) (part true t) /\ ar_min (fst aw) = min /\ bumps cs = ks.
  Lemma stocked_has t ks aw : stocked t ks aw -> has amax A own min t aw.
  Proof. intros (cs & R & Hm & _). exists cs. auto. Qed.

  Notation fr ext m := (framed A own ext m).
  Lemma to_framed ext cs ar w us : arep ext cs ar w us -> ArenaInv.arep amax A (fr ext (al_mem A w)) [] cs ar w us.
  Proof. intros [R1 R2 R3 R4 R5 R6 R7 R8]. constructor; auto. split; [rewrite app_nil_r; exact R5|apply same_on_refl]. Qed.
  Lemma of_framed ext m cs ar w us : ArenaInv.arep amax A (fr ext m) [] cs ar w us -> arep ext cs ar w us.
  Proof. intros [R1 R2 R3 R4 R5 R6 R7 R8]. constructor; auto. destruct R5 as [R5 _]. rewrite app_nil_r in R5. exact R5. Qed.
  Lemma fr_ask ext m w us l r w' : fr ext m w us -> req_ok smax' l -> al_allocate A l w = ORet r w' -> tsell S [] l (view w) = (r, view w').
  Proof. intros [H _]. apply (Hask _ _ _ _ _ H). Qed.
  Lemma fr_give ext m w us u l w' : fr ext m w (u :: us) -> fits l u -> al_deallocate A (u_ptr u) l w = ORet tt w' ->
    view w' = tgive [] (u_ptr u) l (view w).
  Proof. intros [H _]. apply (Hgive _ _ _ _ _ H). Qed.

  Lemma stocked_parts t ks aw ext us : Permutation ext (part false t) -> Permutation us (part true t) ->
    (exists cs, arep ext cs (fst aw) (snd aw) us /\ ar_min (fst aw) = min /\ bumps cs = ks) -> stocked t ks aw.
  Proof.
    intros P1 P2 (cs & R & H). exists cs. split; [|exact H].
    apply (arep_perm _ _ _ _ _ _ _ _ _ P2). apply (arep_ext_perm _ _ _ _ Hct _ _ _ _ _ _ P1). exact R.
  Qed.
  Lemma stocked_mid bk u t1 t2 ks aw : stocked (t1 ++ Some (bk, u) :: t2) ks aw <->
    exists cs, arep (if bk then part false (t1 ++ t2) else u :: part false (t1 ++ t2)) cs (fst aw) (snd aw)
                    (if bk then u :: part true (t1 ++ t2) else part true (t1 ++ t2)) /\ ar_min (fst aw) = min /\ bumps cs = ks.
  Proof.
    pose proof (part_mid_other bk u t1 t2) as E. pose proof (part_mid_same bk u t1 t2) as P. split.
    - intros (cs & R & H). exists cs. split; [|exact H]. destruct bk; cbn [negb] in E; rewrite E in R.
      + apply (arep_perm _ _ _ _ _ _ _ _ _ P). exact R.
      + apply (arep_ext_perm _ _ _ _ Hct _ _ _ _ _ _ P). exact R.
    - apply stocked_parts; destruct bk; cbn [negb] in E; rewrite ?E; auto; symmetry; exact P.
  Qed.

  (** ** The calls *)
  Lemma x_alloc on t ks aw l (z : bool) : stocked t ks aw -> req_okb smax l = true ->
    wp (if z then st_allocate_zeroed A dbg on l else st_allocate A dbg on l) aw (fun r aw' =>
      exists ks', gp_new min S l (mkGP on ks t (view (snd aw))) = (r, ks', view (snd aw')) /\
        stocked (match r with Some b => t ++ [Some (on, mkU (b_ptr b) (b_len b) l)] | None => t end) ks' aw').
  Proof.
    intros K Hl. assert (Hl2 : req_ok smax l /\ req_ok smax' l).
    { unfold req_ok, req_okb in *. rewrite !andb_true_iff in *. lia. }
    destruct Hl2 as [L1 L2].
    pose proof (st_alloc_ok amax smax smax' A own Hct Hamax dbg min Hcfg Hss on t aw l z (stocked_has _ _ _ K) Hl) as X.
    apply wp_inv in X. destruct X as (r & aw' & E & _). unfold wp. rewrite E. unfold gp_new. cbn [gp_on gp_chunks gp_calls].
    assert (E' : (if on then (if z then al_allocate_zeroed (blink A dbg) l else al_allocate (blink A dbg) l)
                  else inner (if z then al_allocate_zeroed A l else al_allocate A l)) aw = ORet r aw').
    { rewrite <- E. destruct z, on; reflexivity. }
    clear E. destruct K as (cs & R & Hm & <-). destruct on.
    - destruct aw as [ar w]. cbn [fst snd] in *.
      pose proof (any_exact amax smax' smax A _ (contract_framed _ _ _ _ (part false t) (al_mem A w) Hct) Hamax dbg (tsell S []) (tgive []) view Hset
                    (fr_ask _ _) cs ar w _ l z (to_framed _ _ _ _ _ R) L1 ltac:(rewrite Hm; apply (cfg_ok_lax Hcfg))) as X.
      rewrite E' in X. rewrite Hm in X. destruct X as (M1 & Hb & cs' & tr & Et & Ev & _ & R').
      apply take_after in Et. exists (bumps cs'). split.
      + assert (Eb : option_map (fun a => mkBlock a (l_size l)) (option_map b_ptr r) = r).
        { destruct r as [b|]; [|reflexivity]. cbn. rewrite <- (Hb b eq_refl). destruct b; reflexivity. }
        refine (eq_trans (f_equal (fun x => let '(a, ks, tr) := x in (option_map (fun a => mkBlock a (l_size l)) a, ks, tr)) Et) _).
        cbv beta iota. rewrite Eb. exact (f_equal (fun tr => (r, bumps cs', tr)) Ev).
      + apply of_framed in R'. destruct r as [b|].
        * apply (stocked_parts _ _ _ (part false t) (mku b l :: part true t)).
          -- rewrite part_app. cbn. rewrite app_nil_r. reflexivity.
          -- rewrite part_app. cbn. apply Permutation_cons_append.
          -- exists cs'. auto.
        * exists cs'. auto.
    - pose proof (wp_inner (if z then al_allocate_zeroed A l else al_allocate A l) aw (fun r aw' => (exists tr, tsell S [] l (view (snd aw)) = (r, tr) /\ view (snd aw') = tr) /\
         stocked (match r with Some b => t ++ [Some (false, mkU (b_ptr b) (b_len b) l)] | None => t end) (bumps cs) aw')) as X.
      unfold wp in X. rewrite E' in X. cbv beta in X.
      destruct X as [(tr & Es & Ev) K'].
      + pose proof (allocate_any_ok amax smax' A own Hct _ _ l z (ar_own _ _ _ _ _ _ _ _ R) L2) as Y. apply wp_inv in Y.
        destruct Y as (r1 & w' & E1 & S1 & Y). rewrite E1. cbn [fst snd]. apply same_on_app in S1. destruct S1 as [S1 _]. split.
        * pose proof (ct_allocate _ _ _ _ Hct _ _ l (ar_own _ _ _ _ _ _ _ _ R) L2) as Z1. apply wp_inv in Z1. destruct Z1 as (r2 & w2 & E2 & _).
          pose proof (Hask _ _ _ _ _ (ar_own _ _ _ _ _ _ _ _ R) L2 E2) as Es. exists (view w2). destruct z.
          -- unfold al_allocate_zeroed, bind in E1. rewrite E2 in E1. destruct r2 as [b|]; cbn in E1; injection E1 as <- <-; (split; [exact Es|]).
             ++ apply Hset.
             ++ reflexivity.
          -- rewrite E2 in E1. injection E1 as <- <-. auto.
        * destruct r1 as [b|].
          -- destruct Y as (_ & O & _). destruct (arep_frame amax smax' A own Hct _ (mku b l :: part false t) _ _ _ w' _ R) as [R2 _]; [|exact S1|].
             { apply (ct_perm _ _ _ _ Hct _ _ _ O). apply Permutation_middle. }
             apply (stocked_parts _ _ _ (mku b l :: part false t) (part true t)).
             ++ rewrite part_app. cbn. apply Permutation_cons_append.
             ++ rewrite part_app. cbn. rewrite app_nil_r. reflexivity.
             ++ exists cs. auto.
          -- destruct (arep_frame amax smax' A own Hct _ (part false t) _ _ _ w' _ R Y S1) as [R2 _]. exists cs. auto.
      + exists (bumps cs). split; [|exact K']. cbn [tsell] in Es. injection Es as <- <-. rewrite Ev. reflexivity.
  Qed.

  Lemma block_fits bk u t1 t2 ks aw : stocked (t1 ++ Some (bk, u) :: t2) ks aw -> fits (u_layout u) u /\ 0 <= l_size (u_layout u) <= u_len u /\ u_ptr u <> 0.
  Proof.
    intros K. assert (Hu : u_ok amax u).
    { apply (has_block amax smax' A own Hct min _ aw (length t1) bk u (stocked_has _ _ _ K)). apply get_mid. }
    destruct Hu as ((G1 & _ & G3 & _) & _ & G5). unfold ublk in *. cbn [b_len b_ptr] in *. split; [|lia]. split; [reflexivity|lia].
  Qed.

  Lemma x_dealloc on u t1 t2 ks aw : stocked (t1 ++ Some (on, u) :: t2) ks aw ->
    wp (st_deallocate A on (u_ptr u) (u_layout u)) aw (fun _ aw' =>
      view (snd aw') = (if on then view (snd aw) else EvDealloc (u_ptr u) (u_layout u) :: view (snd aw)) /\ stocked (t1 ++ None :: t2) ks aw').
  Proof.
    intros K. destruct (block_fits _ _ _ _ _ _ K) as (Hf & Hl & _). apply stocked_mid in K. destruct K as (cs & R & Hm & Hk).
    unfold st_deallocate. destruct on.
    - destruct aw as [ar w]. cbn [fst snd] in *.
      eapply wp_mono; [apply (dealloc_exact amax smax' A _ (contract_framed _ _ _ _ (part false (t1 ++ t2)) (al_mem A w) Hct) Hamax view Hset
                    cs ar w u _ (l_size (u_layout u)) (to_framed _ _ _ _ _ R) Hl)|].
      intros _ [ar' w'] (E1 & E2 & R'). cbn [fst snd] in *. subst ar'. split; [exact E2|]. apply of_framed in R'.
      apply (stocked_parts _ _ _ (part false (t1 ++ t2)) (part true (t1 ++ t2))); [rewrite part_mid_none; reflexivity..|]. exists cs. auto.
    - apply wp_inner.
      assert (Ho : own (snd aw) (u :: map c_u cs ++ part false (t1 ++ t2))).
      { apply (ct_perm _ _ _ _ Hct _ _ _ (ar_own _ _ _ _ _ _ _ _ R)). symmetry. apply Permutation_middle. }
      pose proof (ct_deallocate _ _ _ _ Hct _ _ u _ Ho Hf) as X. apply wp_inv in X. destruct X as ([] & w' & E & S1 & O).
      unfold wp. rewrite E. cbn [fst snd]. split; [apply (Hgive _ _ _ _ _ Ho Hf E)|].
      apply same_on_app in S1. destruct S1 as [S1 _]. destruct (arep_frame amax smax' A own Hct _ (part false (t1 ++ t2)) _ _ _ w' _ R O S1) as [R2 _].
      apply (stocked_parts _ _ _ (part false (t1 ++ t2)) (part true (t1 ++ t2))); [rewrite part_mid_none; reflexivity..|]. exists cs. auto.
  Qed.

  Lemma x_resize on u t1 t2 ks aw new : stocked (t1 ++ Some (on, u) :: t2) ks aw -> req_okb smax new = true ->
    on || may (l_size (u_layout u)) (l_size new) = true ->
    wp (st_resize A dbg on (u_ptr u) (u_layout u) new) aw (fun r aw' =>
      exists ks', gp_move min S u new (mkGP on ks (t1 ++ Some (on, u) :: t2) (view (snd aw))) = (r, ks', view (snd aw')) /\
        stocked (t1 ++ Some (on, match r with Some b => mkU (b_ptr b) (b_len b) new | None => u end) :: t2) ks' aw').
  Proof.
    intros K Hn Hmy. assert (Hl2 : req_ok smax new /\ req_ok smax' new).
    { unfold req_ok, req_okb in *. rewrite !andb_true_iff in *. lia. }
    destruct Hl2 as [L1 L2]. destruct (block_fits _ _ _ _ _ _ K) as (Hf & Hl & _). apply stocked_mid in K. destruct K as (cs & R & Hm & <-).
    unfold st_resize, gp_move. cbn [gp_on gp_chunks gp_calls]. destruct on.
    - destruct aw as [ar w]. cbn [fst snd] in *.
      eapply wp_mono; [apply (resize_exact amax smax' smax A _ (contract_framed _ _ _ _ (part false (t1 ++ t2)) (al_mem A w) Hct) Hamax dbg (tsell S []) (tgive []) view Hset
                    (fr_ask _ _) cs ar w u _ (u_layout u) new (to_framed _ _ _ _ _ R) Hf L1); rewrite Hm; apply (cfg_ok_lax Hcfg)|].
      intros r [ar' w'] (M1 & _ & cs' & tr & Et & Ev & R'). cbn [fst snd] in *. rewrite Hm in Et. apply moves_after in Et. exists (bumps cs'). split.
      + rewrite <- Ev. exact Et.
      + apply of_framed in R'. apply stocked_mid. exists cs'. split; [destruct r; exact R'|]. split; [exact (eq_trans M1 Hm)|reflexivity].
    - cbn [orb] in Hmy. apply wp_inner.
      assert (Ho : own (snd aw) (u :: map c_u cs ++ part false (t1 ++ t2))).
      { apply (ct_perm _ _ _ _ Hct _ _ _ (ar_own _ _ _ _ _ _ _ _ R)). symmetry. apply Permutation_middle. }
      pose proof (Hmay u _ _ Hf L2 Hmy _ _ Ho) as X. apply wp_inv in X. destruct X as (r & w' & E & S1 & O).
      unfold wp. rewrite E. cbn [fst snd]. destruct (Hres _ _ _ _ _ _ _ Ho Hf L2 Hmy E) as [Er Ev].
      exists (bumps cs). split; [rewrite Ev, <- Er; reflexivity|]. apply same_on_app in S1. destruct S1 as [S1 _].
      apply stocked_mid. exists cs. split; [|auto].
      destruct (arep_frame amax smax' A own Hct _ (match r with Some b => mkU (b_ptr b) (b_len b) new | None => u end :: part false (t1 ++ t2)) _ _ _ w' _ R) as [R2 _]; [|exact S1|exact R2].
      destruct r as [b|]; [destruct O as (_ & O & _)|destruct O as [_ O]]; (apply (ct_perm _ _ _ _ Hct _ _ _ O); apply Permutation_middle).
  Qed.

  Lemma x_write bk u t1 t2 ks aw m : stocked (t1 ++ Some (bk, u) :: t2) ks aw -> (forall x, ~ in_u x u -> m x = amem aw x) ->
    stocked (t1 ++ Some (bk, u) :: t2) ks (fst aw, al_set_mem A (snd aw) m).
  Proof.
    intros K H. apply stocked_mid in K. apply stocked_mid. destruct K as (cs & R & Hm). exists cs. cbn [fst snd]. split; [|exact Hm]. destruct bk.
    - destruct (arep_own_write amax smax' A own Hct _ _ _ _ _ _ m R H) as [R2 _]. exact R2.
    - pose proof (ar_own _ _ _ _ _ _ _ _ R) as Ho.
      pose proof (arep_disj _ _ _ _ Hct _ _ _ _ _ R) as D. apply pairwise_app in D. destruct D as (_ & _ & D3).
      assert (Ho2 : own (al_set_mem A (snd aw) m) (map c_u cs ++ u :: part false (t1 ++ t2))).
      { apply (ct_write _ _ _ _ Hct); [exact Ho|]. intros x Hx. apply H. apply Hx. apply in_or_app. right; left; reflexivity. }
      destruct (arep_frame amax smax' A own Hct _ (u :: part false (t1 ++ t2)) _ _ _ (al_set_mem A (snd aw) m) _ R Ho2) as [R2 _]; [|exact R2].
      rewrite (ct_mem _ _ _ _ Hct). intros v x Hv Hx. apply H. intros Hu. apply (D3 v u Hv (or_introl eq_refl) x Hx Hu).
  Qed.

  Lemma x_reset t ks aw : stocked t ks aw ->
    wp (blink_reset A) aw (fun _ aw' => view (snd aw') = give_back (tl ks) (view (snd aw)) /\ stocked (map not_blink t) (newest ks) aw').
  Proof.
    intros (cs & R & Hm & <-). destruct aw as [ar w]. cbn [fst snd] in *.
    eapply wp_mono; [apply (reset_exact amax smax' A _ (contract_framed _ _ _ _ (part false t) (al_mem A w) Hct) (tgive []) view Hset (fr_give _ _) cs ar w _ (to_framed _ _ _ _ _ R))|].
    intros _ [ar' w'] (M1 & Ev & cs' & Ek & R'). cbn [fst snd] in *. split; [rewrite Ev; apply returned_after|].
    apply of_framed in R'. exists cs'. cbn [fst snd]. rewrite part_reset_true, part_reset_false. split; [exact R'|]. split; [exact (eq_trans M1 Hm)|exact Ek].
  Qed.

  (** ** A step *)
  Definition in_step (c : gcst (W := W)) (q : gpaper) : Prop :=
    g_on (gc_st c) = gp_on q /\ gc_tab c = gp_tab q /\ view (snd (g_aw (gc_st c))) = gp_calls q /\ stocked (gp_tab q) (gp_chunks q) (g_aw (gc_st c)).
  Notation ginv := (ginv amax A own dbg min).

  Lemma mode_up on n (aw : AW (W := W)) s : count_up dbg sync (mkG on n aw) = ORet tt s -> g_on s = on /\ g_aw s = aw.
  Proof.
    unfold count_up. cbn [g_on g_count g_aw]. destruct (dbg && on); [|intros E; injection E as <-; auto].
    destruct sync; [intros E; injection E as <-; auto|]. destruct (_ <=? _); [intros E; injection E as <-; auto|discriminate].
  Qed.
  Lemma mode_down on n (aw : AW (W := W)) s : count_down dbg sync (mkG on n aw) = ORet tt s -> g_on s = on /\ g_aw s = aw.
  Proof. unfold count_down. cbn [g_on g_count g_aw]. destruct (dbg && on); intros E; injection E as <-; auto. Qed.

  Lemma x_step o c q on t : ginv c on t -> in_step c q ->
    wp (gstep A dbg sync smax may o) c (fun r c' => exists q', gp_step min S dbg smax may o q = (r, q') /\ in_step c' q' /\
      ginv c' (gmode o r on) (gspec o r on t)).
  Proof.
    intros Hi (Pm & Pt & Pv & K).
    pose proof (gstep_ok amax smax smax' A own Hct Hamax dbg sync min Hcfg Hss may Hmay o c on t Hi) as X. apply wp_inv in X.
    destruct X as (r & c' & E & Hi' & Hp & _). unfold wp. rewrite E.
    cut (exists q', gp_step min S dbg smax may o q = (r, q') /\ in_step c' q').
    { intros (q' & Eq & Hq). exists q'. auto. }
    destruct c as [tab [mode n aw]]. destruct q as [qon ks qt qc]. cbn [gp_on gp_chunks gp_tab gp_calls gc_tab gc_st g_on g_aw] in *. subst qon qt qc.
    pose proof (gi_mode _ _ _ _ _ _ _ _ Hi) as Em. pose proof (gi_count _ _ _ _ _ _ _ _ Hi) as Ec. cbn [gc_st gc_tab g_on g_count] in Em, Ec. subst on.
    clear Hi Hi'. unfold gstep in E. cbn [gc_st gc_tab g_on] in E.
    assert (Skip : forall (r0 : gres) c0, ret GSkipped (mkGc tab (mkG mode n aw)) = ORet r0 c0 ->
      exists q', (GSkipped, mkGP mode ks tab (view (snd aw))) = (r0, q') /\ in_step c0 q').
    { intros r0 c0 E0. injection E0 as <- <-. eexists. split; [reflexivity|]. split; [reflexivity|]. split; [reflexivity|]. split; [reflexivity|exact K]. }
    assert (Hrst : forall b r0 c0, gcall (g_reset A dbg ;;; (fun s => ORet tt (mkG b (g_count s) (g_aw s)))) (fun _ => map not_blink) (fun _ => GDone) (mkGc tab (mkG mode n aw)) = ORet r0 c0 ->
      exists q', gp_reset dbg b (mkGP mode ks tab (view (snd aw))) = (r0, q') /\ in_step c0 q').
    { intros b r0 c0. unfold gcall, bind, g_reset, gp_reset. cbn [gc_st gc_tab g_count gp_tab gp_chunks gp_calls].
      assert (Ez : dbg && negb (n =? 0) = dbg && blink_alive tab).
      { destruct dbg; [|reflexivity]. rewrite Ec. cbn [andb]. rewrite <- (negb_involutive (blink_alive tab)), <- blink_alive_part.
        destruct (part true tab); reflexivity. }
      rewrite Ez. destruct (dbg && blink_alive tab).
      - intros E0. injection E0 as <- <-. eexists. split; [reflexivity|]. split; [reflexivity|]. split; [reflexivity|]. split; [reflexivity|exact K].
      - pose proof (x_reset tab ks aw K) as X. apply wp_inv in X. destruct X as ([] & aw' & Er & Ev & K').
        unfold on_aw. cbn [g_aw g_on g_count]. rewrite Er. intros E0. injection E0 as <- <-. eexists. split; [reflexivity|].
        split; [reflexivity|]. split; [reflexivity|]. split; [exact Ev|exact K']. }
    destruct o as [l z|h|h m|h off cs| | |]; cbn [gstep_at gp_step gp_on gp_chunks gp_tab gp_calls] in *.
    - (* alloc *)
      destruct (layout_okb l && req_okb smax l && (1 <=? l_size l)) eqn:El; [|apply Skip; exact E].
      assert (El' : req_okb smax l = true) by (rewrite !andb_true_iff in El; apply El).
      pose proof (x_alloc mode tab ks aw l z K El') as X. apply wp_inv in X. destruct X as (ro & aw' & Er & ks' & Eg & K').
      rewrite Eg. unfold gcall, g_alloc, bind, on_aw in E. cbn [gc_st gc_tab g_on g_aw g_count] in E. rewrite Er in E. destruct ro as [b|].
      + cbn [g_on g_count] in E. destruct (count_up dbg sync (mkG mode n aw')) as [[] s|s| |] eqn:Eu; try discriminate.
        * destruct (mode_up _ _ _ _ Eu) as [U1 U2]. cbn [ret] in E. injection E as <- <-. eexists. split; [reflexivity|].
          unfold in_step. cbn [gc_st gc_tab gp_on gp_chunks gp_tab gp_calls]. rewrite U1, U2. auto.
        * injection E as <- <-. destruct Hp as [Hp _]. destruct (Hp eq_refl) as ([Ho|Ho] & _); discriminate.
      + cbn [ret] in E. injection E as <- <-. eexists. split; [reflexivity|]. unfold in_step. cbn [gc_st gc_tab gp_on gp_chunks gp_tab gp_calls g_on g_aw]. auto.
    - (* dealloc *)
      destruct (get h tab) as [[bk u]|] eqn:G; [|apply Skip; exact E].
      destruct (Bool.eqb bk mode) eqn:Eb; [|apply Skip; exact E]. apply eqb_prop in Eb. subst bk.
      destruct (get_split _ _ _ G) as (t1 & t2 & -> & L).
      pose proof (x_dealloc mode u t1 t2 ks aw K) as X. apply wp_inv in X. destruct X as ([] & aw' & Er & Ev & K').
      unfold gcall, g_dealloc, bind, on_aw in E. cbn [gc_st gc_tab g_on g_aw g_count] in E. rewrite Er in E. cbn [g_on g_count] in E.
      destruct (count_down dbg sync (mkG mode n aw')) as [[] s|s| |] eqn:Eu; try discriminate.
      + destruct (mode_down _ _ _ _ Eu) as [U1 U2]. injection E as <- <-. eexists. split; [reflexivity|].
        unfold in_step. cbn [gc_st gc_tab gp_on gp_chunks gp_tab gp_calls]. rewrite U1, U2, <- L, set_nth_split. auto.
      + injection E as <- <-. destruct Hp as [Hp _]. destruct (Hp eq_refl) as ([Ho|Ho] & _); discriminate.
    - (* realloc *)
      destruct (get h tab) as [[bk u]|] eqn:G; [|apply Skip; exact E].
      cbn zeta in *. match type of E with (if ?b then _ else _) _ = _ => destruct b eqn:Eb end; [|apply Skip; exact E].
      rewrite !andb_true_iff in Eb. destruct Eb as ((((Eb & _) & _) & En) & Em). apply eqb_prop in Eb. subst bk.
      destruct (get_split _ _ _ G) as (t1 & t2 & -> & L). destruct (block_fits _ _ _ _ _ _ K) as (_ & _ & Hnz).
      unfold gcall, g_realloc in E. cbn [gc_st gc_tab g_on] in E. destruct (layout_okb (mkLayout m (l_align (u_layout u)))) eqn:El.
      + cbn [negb] in En. rewrite orb_false_r in En. replace (u_ptr u =? 0) with false in E by lia.
        pose proof (x_resize mode u t1 t2 ks aw (mkLayout m (l_align (u_layout u))) K En Em) as X. apply wp_inv in X.
        destruct X as (ro & aw' & Er & ks' & Eg & K'). rewrite Eg. unfold on_aw in E. cbn [g_aw g_on g_count] in E. rewrite Er in E. injection E as <- <-.
        eexists. split; [reflexivity|]. unfold in_step. cbn [gc_st gc_tab gp_on gp_chunks gp_tab gp_calls g_on g_aw].
        split; [reflexivity|]. split; [reflexivity|]. split; [reflexivity|]. destruct ro as [b|]; [rewrite <- L, set_nth_split|]; exact K'.
      + injection E as <- <-. eexists. split; [reflexivity|]. unfold in_step. cbn [gc_st gc_tab gp_on gp_chunks gp_tab gp_calls g_on g_aw]. auto.
    - (* write *)
      destruct (get h tab) as [[bk u]|] eqn:G; [|apply Skip; exact E].
      destruct ((0 <=? off) && (off + Z.of_nat (length cs) <=? l_size (u_layout u))) eqn:Eb; [|apply Skip; exact E].
      destruct (get_split _ _ _ G) as (t1 & t2 & -> & L). destruct (block_fits _ _ _ _ _ _ K) as (_ & Hl & _).
      injection E as <- <-. eexists. split; [reflexivity|]. unfold in_step. cbn [gc_st gc_tab gp_on gp_chunks gp_tab gp_calls g_on g_aw snd].
      split; [reflexivity|]. split; [reflexivity|]. split; [apply Hset|]. apply (x_write bk u t1 t2 ks aw _ K).
      intros x Hx. apply write_cells_other. unfold in_u in Hx. lia.
    - (* reset *)
      apply Hrst. rewrite <- E. unfold gcall, bind, g_reset, on_aw. cbn [gc_st gc_tab g_count g_aw g_on].
      destruct (dbg && negb (n =? 0)); [reflexivity|]. destruct (blink_reset A aw); reflexivity.
    - (* blink *)
      unfold gcall, g_blink_mode in E. injection E as <- <-. eexists. split; [reflexivity|]. unfold in_step. cbn [gc_st gc_tab gp_on gp_chunks gp_tab gp_calls g_on g_aw]. auto.
    - (* direct *)
      apply Hrst. exact E.
  Qed.

  Lemma x_run os : forall c q on t, ginv c on t -> in_step c q ->
    wp (grun A dbg sync smax may os) c (fun rs c' => exists q', gp_run min S dbg smax may os q = (rs, q') /\ in_step c' q').
  Proof.
    induction os as [|o os IH]; intros c q on t Hi P; cbn [grun gp_run].
    - apply wp_ret. eexists. split; [reflexivity|exact P].
    - apply wp_bind. eapply wp_mono; [apply (x_step o c q on t Hi P)|]. intros r c1 (q1 & E1 & P1 & I1). rewrite E1.
      apply wp_bind. eapply wp_mono; [apply (IH c1 q1 _ _ I1 P1)|]. intros rs c2 (q2 & E2 & P2). rewrite E2. apply wp_ret.
      eexists. split; [reflexivity|exact P2].
  Qed.

  Lemma in_step_start w : own w [] -> in_step (mkGc [] (g_new min w)) (mkGP false [] [] (view w)).
  Proof.
    intros H. split; [reflexivity|]. split; [reflexivity|]. split; [reflexivity|]. exists []. split; [|auto].
    constructor; cbn; auto; constructor.
  Qed.
  Lemma in_step_headed c q : in_step c q -> headed (al_mem A (snd (g_aw (gc_st c)))) (ar_root (fst (g_aw (gc_st c)))) (gp_chunks q).
  Proof.
    intros (_ & _ & _ & cs & R & _ & <-). rewrite (ar_head _ _ _ _ _ _ _ _ R). apply headed_chain; [apply (ar_chain _ _ _ _ _ _ _ _ R)|].
    pose proof (ar_own _ _ _ _ _ _ _ _ R) as Ho. destruct (ct_wf _ _ _ _ Hct _ _ Ho) as [O _]. apply Forall_app in O. apply (above_own _ amax). apply O.
  Qed.
End Exact.

(** ** Over the adversarial bottom allocator *)
Section Bottom.
  Variable su : setup.
  Hypothesis Hok : setup_ok su.
  Notation bown := (base_own (su_amax su) (su_bmax su)).

  Lemma bot_ask w us l r w' : bown w us -> req_ok (su_bmax su) l -> al_allocate (bot su) l w = ORet r w' -> tsell (su_strat su) [] l (bw_trace w) = (r, bw_trace w').
  Proof.
    intros _ Hl E. cbn [bot base al_allocate] in E. unfold base_allocate in E.
    unfold req_ok in Hl. rewrite Hl in E. cbn [negb] in E. injection E as <- <-. reflexivity.
  Qed.
  Lemma bot_give w us u l w' : bown w (u :: us) -> fits l u -> al_deallocate (bot su) (u_ptr u) l w = ORet tt w' ->
    bw_trace w' = tgive [] (u_ptr u) l (bw_trace w).
  Proof.
    intros _ _ E. cbn [bot base al_deallocate] in E. unfold base_deallocate in E.
    destruct (negb _); [discriminate|]. destruct (remove_fit _ _ _); [|discriminate]. injection E as <-. reflexivity.
  Qed.
  Lemma bot_resize p old new n w r w' : base_resize (su_bmax su) (su_strat su) p old new n w = ORet r w' ->
    r = Alloc.st_resize (su_strat su) (bw_trace w) p old new /\ bw_trace w' = EvResize p old new r :: bw_trace w.
  Proof.
    unfold base_resize. destruct (negb _); [discriminate|]. destruct (remove_fit _ _ _); [|discriminate]. intros E. injection E as <- <-. auto.
  Qed.
  Lemma bot_either p old new w r w' : (if l_size new <=? l_size old then al_grow (bot su) p old new else al_shrink (bot su) p old new) w = ORet r w' ->
    r = Alloc.st_resize (su_strat su) (bw_trace w) p old new /\ bw_trace w' = EvResize p old new r :: bw_trace w.
  Proof.
    cbn [bot base al_grow al_shrink]. unfold base_grow, base_shrink.
    destruct (l_size new <=? l_size old); [|discriminate]. destruct (l_size old <=? l_size new); [apply bot_resize|discriminate].
  Qed.
  Lemma lenient_either p old new w r w' :
    (if l_size new <=? l_size old then al_grow (lenient (bot su)) p old new else al_shrink (lenient (bot su)) p old new) w = ORet r w' ->
    r = Alloc.st_resize (su_strat su) (bw_trace w) p old new /\ bw_trace w' = EvResize p old new r :: bw_trace w.
  Proof.
    cbn [lenient bot base al_grow al_shrink]. unfold base_grow, base_shrink. destruct (l_size new <=? l_size old) eqn:E1, (l_size old <=? l_size new) eqn:E2;
      try apply bot_resize; lia.
  Qed.

  Lemma strict_exact sync os : exists rs c q, strict_run su sync os (gstart su) = ORet rs c /\
    gp_run (su_min su) (su_strat su) (su_dbg su) (su_smax su) Z.eqb os gp0 = (rs, q) /\ gshows c q.
  Proof.
    pose proof (x_run (su_amax su) (su_smax su) (su_bmax su) (bot su) bown (su_ct su Hok) (su_amax_ok su Hok) (su_dbg su) sync
      (su_min su) (su_cfg su Hok) (su_ss su Hok) Z.eqb (fun u old new => equal_may _ _ _ _ (su_ct su Hok) u old new)
      (su_strat su) bw_trace (fun w m => eq_refl) bot_ask bot_give (fun w us u old new r w' _ _ _ _ => bot_either (u_ptr u) old new w r w') os (gstart su) gp0 false []) as X.
    assert (H1 : ginv (su_amax su) (bot su) bown (su_dbg su) (su_min su) (gstart su) false []).
    { apply (gstart_inv _ (su_smax su) (su_bmax su)); [apply su_ct; exact Hok|apply su_min_ok; exact Hok|apply su_cfg; exact Hok|apply bot_start]. }
    assert (H2 : in_step (su_amax su) (bot su) bown (su_min su) bw_trace (gstart su) gp0).
    { apply (in_step_start (su_amax su) (bot su) bown (su_min su) (su_min_ok su Hok) bw_trace bworld0). apply bot_start. }
    apply wp_inv in X; [|exact H1|exact H2]. destruct X as (rs & c & E & q & Eq & P). exists rs, c, q. split; [exact E|]. split; [exact Eq|].
    pose proof (in_step_headed (su_amax su) (su_bmax su) (bot su) bown (su_ct su Hok) (su_min su) bw_trace c q P) as Hh.
    destruct P as (P1 & P2 & P3 & _). split; [exact P1|]. split; [exact P2|]. split; [exact Hh|exact P3].
  Qed.
  Lemma lenient_exact sync os : exists rs c q, lenient_run su sync os (gstart su) = ORet rs c /\
    gp_run (su_min su) (su_strat su) (su_dbg su) (su_smax su) (fun _ _ => true) os gp0 = (rs, q) /\ gshows c q.
  Proof.
    pose proof (lenient_contract _ _ _ _ (su_ct su Hok)) as Hc.
    pose proof (x_run (su_amax su) (su_smax su) (su_bmax su) (lenient (bot su)) bown Hc (su_amax_ok su Hok) (su_dbg su) sync
      (su_min su) (su_cfg su Hok) (su_ss su Hok) (fun _ _ => true) (fun u old new => lenient_may _ _ _ _ (su_ct su Hok) u old new)
      (su_strat su) bw_trace (fun w m => eq_refl) bot_ask bot_give (fun w us u old new r w' _ _ _ _ => lenient_either (u_ptr u) old new w r w') os (gstart su) gp0 false []) as X.
    assert (H1 : ginv (su_amax su) (lenient (bot su)) bown (su_dbg su) (su_min su) (gstart su) false []).
    { apply (gstart_inv _ (su_smax su) (su_bmax su)); [exact Hc|apply su_min_ok; exact Hok|apply su_cfg; exact Hok|apply bot_start]. }
    assert (H2 : in_step (su_amax su) (lenient (bot su)) bown (su_min su) bw_trace (gstart su) gp0).
    { apply (in_step_start (su_amax su) (lenient (bot su)) bown (su_min su) (su_min_ok su Hok) bw_trace bworld0). apply bot_start. }
    apply wp_inv in X; [|exact H1|exact H2]. destruct X as (rs & c & E & q & Eq & P). exists rs, c, q. split; [exact E|]. split; [exact Eq|].
    pose proof (in_step_headed (su_amax su) (su_bmax su) (lenient (bot su)) bown Hc (su_min su) bw_trace c q P) as Hh.
    destruct P as (P1 & P2 & P3 & _). split; [exact P1|]. split; [exact P2|]. split; [exact Hh|exact P3].
  Qed.
End Bottom.
