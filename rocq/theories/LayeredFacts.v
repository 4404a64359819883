(** BlinkAllocs on top of each other do what Layered.v says (C87). *)
From Coq Require Import Permutation.
From Verif Require Import Base BaseFacts Alloc AllocFacts Arena ArenaFacts ArenaInv ArenaOps BlinkAlloc BlinkFacts
  History HistoryFacts Tower Proxy Param Paper PaperFacts ProxyPaper ProxyPaperUse ProxyPaperFacts Layered.

(** ** A BlinkAlloc with its chunks as a ghost *)
Section Layer.
  Context {W : Type} (amax smax psmax : Z) (A : Allocator W) (own : W -> list ublock -> Prop).
  Variable dbg : bool.
  Variable min : Z.
  Context {X : Type} (sell : Layout -> X -> option block * X) (give : Z -> Layout -> X -> X) (view : W -> X).

  Definition LWd : Type := (AW (W := W) * list pchunk)%type.
  Definition lview (s : LWd) : list pchunk * X := (snd s, view (snd (fst s))).
  Definition lsell (lay : Layout) (x : list pchunk * X) : option block * (list pchunk * X) :=
    let '(a, ks, tr) := take min (supplier sell (snd x)) (fst x) lay [] in
    (option_map (fun a => mkBlock a (l_size lay)) a, (ks, charged sell give (snd x) tr)).
  Definition lmoves (p : Z) (old new : Layout) (x : list pchunk * X) : list pchunk :=
    let '(_, ks, _) := moves min (supplier sell (snd x)) (fst x) p old new [] in ks.

  Definition noted {B} (m : M (AW (W := W)) B) (f : list pchunk * X -> list pchunk) : M LWd B :=
    fun s => match m (fst s) with
             | ORet b aw => ORet b (aw, f (lview s))
             | OPanic aw => OPanic (aw, f (lview s))
             | OAbort => OAbort
             | OUB => OUB
             end.
  Definition layer : Allocator LWd :=
    mkAllocator _ (fun s => al_mem (blink A dbg) (fst s)) (fun s m => (al_set_mem (blink A dbg) (fst s) m, snd s))
      (fun l => noted (al_allocate (blink A dbg) l) (fun x => fst (snd (lsell l x))))
      (fun p l => noted (al_deallocate (blink A dbg) p l) (fun x => fst x))
      (fun p old new => noted (al_grow (blink A dbg) p old new) (lmoves p old new))
      (fun p old new => noted (al_shrink (blink A dbg) p old new) (lmoves p old new)).

  Definition lown (s : LWd) (us : list ublock) : Prop :=
    exists cs, arep amax A own [] cs (fst (fst s)) (snd (fst s)) us /\ ar_min (fst (fst s)) = min /\ snd s = bumps cs.

  Hypothesis Hct : contract amax smax A own.
  Hypothesis Hamax : 0 <= amax <= USIZE_MAX.
  Hypothesis Hset : forall w m, view (al_set_mem A w m) = view w.
  Hypothesis Hask : forall w us l r w', own w us -> req_ok smax l -> al_allocate A l w = ORet r w' -> sell l (view w) = (r, view w').
  Hypothesis Hgive : forall w us u l w', own w (u :: us) -> fits l u -> al_deallocate A (u_ptr u) l w = ORet tt w' -> view w' = give (u_ptr u) l (view w).
  Hypothesis Hcfg : cfg_ok dbg amax psmax min smax.

  Lemma lset s m : lview (al_set_mem layer s m) = lview s.
  Proof. unfold lview. cbn. rewrite Hset. reflexivity. Qed.

  Lemma lown_blink s us : lown s us -> blink_own amax A own (fun _ _ => True) [] min (fst s) us.
  Proof. intros (cs & R & Hm & _). exists cs. auto. Qed.

  Lemma lalloc s us l r s' : lown s us -> req_ok psmax l -> al_allocate layer l s = ORet r s' ->
    lsell l (lview s) = (r, lview s') /\ lown s' (match r with Some b => mku b l :: us | None => us end).
  Proof.
    intros (cs & R & Hm & P) Hl E. cbn [layer al_allocate] in E. unfold noted in E. cbn [blink al_allocate] in E.
    destruct s as [[ar w] ks]. cbn [fst snd] in *. subst ks.
    pose proof (alloc_exact amax smax psmax A own Hct Hamax dbg sell give view Hset Hask cs ar w us l R Hl ltac:(rewrite Hm; apply (cfg_ok_lax Hcfg))) as H. rewrite Hm in H.
    destruct (blink_allocate A dbg l (ar, w)) as [r0 aw'| | |]; try discriminate. injection E as -> <-.
    destruct H as (M1 & Hb & cs' & tr & Et & Ev & _ & R'). unfold lview, lsell. cbn [fst snd]. rewrite Et. cbn [fst snd].
    split.
    - rewrite Ev. f_equal. destruct r as [b|]; [|reflexivity]. cbn. rewrite <- (Hb b eq_refl). destruct b; reflexivity.
    - exists cs'. auto.
  Qed.
  Lemma lresize s us u old new r s' : lown s (u :: us) -> fits old u -> req_ok psmax new -> al_grow layer (u_ptr u) old new s = ORet r s' ->
    lown s' (match r with Some b => mku b new :: us | None => u :: us end).
  Proof.
    intros (cs & R & Hm & P) Hf Hl E. cbn [layer al_grow] in E. unfold noted in E. cbn [blink al_grow] in E.
    destruct s as [[ar w] ks]. cbn [fst snd] in *. subst ks.
    pose proof (resize_exact amax smax psmax A own Hct Hamax dbg sell give view Hset Hask cs ar w u us old new R Hf Hl ltac:(rewrite Hm; apply (cfg_ok_lax Hcfg))) as H. rewrite Hm in H.
    unfold wp in H. destruct (blink_resize A dbg (u_ptr u) old new (ar, w)) as [r0 aw'| | |]; try discriminate. injection E as -> <-.
    destruct H as (M1 & _ & cs' & tr & Et & Ev & R'). unfold lview, lmoves. cbn [fst snd]. rewrite Et. exists cs'. auto.
  Qed.
  Lemma ldealloc s us u l s' : lown s (u :: us) -> fits l u -> al_deallocate layer (u_ptr u) l s = ORet tt s' ->
    lview s' = lview s /\ lown s' us.
  Proof.
    intros (cs & R & Hm & P) Hf E. cbn [layer al_deallocate] in E. unfold noted in E. cbn [blink al_deallocate] in E.
    destruct s as [[ar w] ks]. cbn [fst snd] in *. subst ks.
    assert (Hn : 0 <= l_size l <= u_len u).
    { pose proof (ar_ok _ _ _ _ _ _ _ _ R) as Ho. inversion Ho as [|? ? Hu _]; subst. destruct Hf as [_ F]. destruct Hu as (_ & _ & Hu). lia. }
    pose proof (dealloc_exact amax smax A own Hct Hamax view Hset cs ar w u us _ R Hn) as H.
    unfold wp in H. destruct (blink_deallocate A (u_ptr u) (l_size l) (ar, w)) as [[] aw'| | |]; try discriminate. injection E as <-.
    destruct H as (M1 & Ev & R'). unfold lview. cbn [fst snd]. rewrite Ev. split; [reflexivity|]. exists cs. cbn [fst snd]. rewrite M1. auto.
  Qed.

  Lemma wp_noted {B} (m : M (AW (W := W)) B) f s (Q : B -> AW (W := W) -> Prop) :
    wp m (fst s) Q -> wp (noted m f) s (fun b s' => Q b (fst s') /\ noted m f s = ORet b s').
  Proof. unfold wp, noted. destruct (m (fst s)); auto. Qed.

  Lemma lown_perm s us us' : lown s us -> Permutation us us' -> lown s us'.
  Proof. intros (cs & R & H) P. exists cs. split; [|exact H]. apply (arep_perm _ _ _ _ _ _ _ us _ P R). Qed.

  Lemma layer_contract : contract amax psmax layer lown.
  Proof.
    pose proof (blink_contract amax psmax smax A own Hct Hamax dbg (fun _ _ => True) [] min) as C.
    specialize (C ltac:(apply jinv_true) Hcfg).
    constructor; cbn [layer al_mem al_set_mem].
    - intros s us us'. apply lown_perm.
    - intros s us H. apply (ct_wf _ _ _ _ C _ _ (lown_blink _ _ H)).
    - intros s m. apply (ct_mem _ _ _ _ C).
    - intros s us m (cs & R & H) Hw. exists cs. cbn [fst snd blink al_set_mem]. split; [|exact H].
      apply (arep_write_us _ _ _ _ Hct _ _ _ _ _ m R Hw).
    - intros s us l H Hl. eapply wp_mono; [apply (wp_noted _ _ s _ (ct_allocate _ _ _ _ C _ _ l (lown_blink _ _ H) Hl))|].
      intros r s' ((S1 & S2) & E). destruct (lalloc _ _ _ _ _ H Hl E) as [_ Hr].
      split; [exact S1|]. destruct r as [b|]; [|exact Hr]. split; [apply S2|exact Hr].
    - intros s us u l H Hf. eapply wp_mono; [apply (wp_noted _ _ s _ (ct_deallocate _ _ _ _ C _ _ u l (lown_blink _ _ H) Hf))|].
      intros [] s' ((S1 & S2) & E). split; [exact S1|]. apply (ldealloc _ _ _ _ _ H Hf E).
    - intros s us u old new H Hf Hl Hle. eapply wp_mono; [apply (wp_noted _ _ s _ (ct_grow _ _ _ _ C _ _ u old new (lown_blink _ _ H) Hf Hl Hle))|].
      intros r s' ((S1 & S2) & E). pose proof (lresize _ _ _ _ _ _ _ H Hf Hl E) as Hr.
      split; [exact S1|]. destruct r as [b|]; [|split; [apply S2|exact Hr]]. destruct S2 as (G & _ & K). auto.
    - intros s us u old new H Hf Hl Hle. eapply wp_mono; [apply (wp_noted _ _ s _ (ct_shrink _ _ _ _ C _ _ u old new (lown_blink _ _ H) Hf Hl Hle))|].
      intros r s' ((S1 & S2) & E). pose proof (lresize _ _ _ _ _ _ _ H Hf Hl E) as Hr.
      split; [exact S1|]. destruct r as [b|]; [|split; [apply S2|exact Hr]]. destruct S2 as (G & _ & K). auto.
  Qed.

  (** ** An operation of a client *)
  Lemma top_exact o c cs : arep amax A own [] cs (fst (c_w c)) (snd (c_w c)) (live (c_tab c)) -> ar_min (fst (c_w c)) = min ->
    match step psmax (blink A dbg) (fun keep : bool => if keep then blink_reset A else blink_reset_final A) o c with
    | ORet r c' => exists cs', arep amax A own [] cs' (fst (c_w c')) (snd (c_w c')) (live (c_tab c')) /\ ar_min (fst (c_w c')) = min /\
        exists p, paper_step min psmax (supplier sell (view (snd (c_w c)))) o (mkPaper (bumps cs) (c_tab c) []) = (r, p) /\
          p_chunks p = bumps cs' /\ p_tab p = c_tab c' /\ charged sell give (view (snd (c_w c))) (p_calls p) = view (snd (c_w c'))
    | _ => True
    end.
  Proof.
    intros R Hm.
    destruct (match o with OpReset false => true | _ => false end) eqn:Eo.
    - destruct o as [| | | | |[|]]; try discriminate. destruct c as [t [ar w]]. cbn [c_tab c_w fst snd] in *.
      unfold step. cbn [step_at c_tab]. unfold bind, call. cbn [c_w c_tab].
      pose proof (final_exact amax smax A own Hct give view Hgive cs ar w _ R) as H. unfold wp in H.
      destruct (blink_reset_final A (ar, w)) as [[] [ar' w']| | |]; auto. cbn [ret c_tab c_w fst snd] in *. destruct H as (M1 & Ev & R').
      exists []. rewrite live_none. split; [exact R'|]. split; [congruence|]. eexists. split; [reflexivity|]. cbn [p_chunks p_tab p_calls bumps map].
      split; [reflexivity|]. split; [reflexivity|]. rewrite charged_back. cbn [charged]. symmetry. exact Ev.
    - assert (Es : step psmax (blink A dbg) (fun keep : bool => if keep then blink_reset A else blink_reset_final A) o c =
        step psmax (blink A dbg) (fun _ => blink_reset A) o c) by (destruct o as [| | | | |[|]]; try discriminate; reflexivity).
      rewrite Es. pose proof (use_exact amax smax psmax A own Hct Hamax dbg sell give view Hset Hask Hgive o c cs _ R
        ltac:(rewrite Hm; apply (cfg_ok_lax Hcfg)) eq_refl) as H. cbv zeta in H.
      destruct (step psmax (blink A dbg) (fun _ => blink_reset A) o c) as [r c'| | |]; auto.
      destruct H as (cs' & R' & M1 & Eu). exists cs'. split; [exact R'|]. split; [congruence|].
      unfold use_pp in Eu. cbn [pp_min pp_chunks pp_tab] in Eu. rewrite Hm in Eu.
      replace (match o with OpReset _ => OpReset true | _ => o end) with o in Eu by (destruct o as [| | | | |[|]]; try discriminate; reflexivity).
      destruct (paper_step min psmax (supplier sell (view (snd (c_w c)))) o (mkPaper (bumps cs) (c_tab c) [])) as [r0 q].
      destruct (cramped _ _ _); [discriminate|]. injection Eu as -> Ek Et Ec. exists q. auto.
  Qed.
End Layer.

(** ** Every level *)
Lemma like_eq {W B} (m : M W B) : like eq m m.
Proof. intros w1 w2 <-. destruct (m w1); eauto. Qed.
Lemma alike_eq {W} (A : Allocator W) : alike eq A A.
Proof. constructor; intros; apply like_eq. Qed.

Section Erase.
  Context {W1 W2 : Type} (R : W1 -> W2 -> Prop) (A1 : Allocator W1) (A2 : Allocator W2) (HA : alike R A1 A2) (dbg : bool) (min : Z).
  Context {X : Type} (sell : Layout -> X -> option block * X) (give : Z -> Layout -> X -> X) (view : W1 -> X).
  Definition erased (s : LWd (W := W1)) (w : AW (W := W2)) : Prop := both_arenas R (fst s) w.
  Lemma noted_like {B} (m1 : M (AW (W := W1)) B) m2 f : like (both_arenas R) m1 m2 -> like erased (noted view m1 f) m2.
  Proof.
    intros H s w Hs. unfold noted. specialize (H (fst s) w Hs). destruct (m1 (fst s)) as [b aw|aw| |]; auto.
  Qed.
  Lemma layer_alike : alike erased (layer A1 dbg min sell give view) (blink A2 dbg).
  Proof.
    pose proof (blink_alike R A1 A2 HA dbg) as K. destruct K as [K1 K2 K3 K4 K5 K6 K7 K8 K9].
    constructor; intros; try (apply noted_like; auto).
    - intros s w H. specialize (K1 a n (fst s) w H). unfold mload in *. cbn [layer al_mem] in *. destruct (load _ _ _); [|exact I]. destruct K1 as (w' & E & H'). exists w'. auto.
    - intros s w H. specialize (K2 a n v (fst s) w H). unfold mstore in *. cbn [layer al_mem al_set_mem] in *. destruct K2 as (w' & E & H'). exists w'. auto.
    - intros s w H. specialize (K3 a n c (fst s) w H). unfold mfill in *. cbn [layer al_mem al_set_mem] in *. destruct K3 as (w' & E & H'). exists w'. auto.
    - intros s w H. specialize (K8 src dst n (fst s) w H). unfold mcopy in *. cbn [layer al_mem al_set_mem] in *. destruct (_ || _); [|exact I]. destruct K8 as (w' & E & H'). exists w'. auto.
    - intros s w H. specialize (K9 a cs (fst s) w H). unfold mwrite in *. cbn [layer al_mem al_set_mem] in *. destruct K9 as (w' & E & H'). exists w'. auto.
  Qed.
End Erase.

Fixpoint LW (ls : list level) : Type :=
  match ls with [] => bworld | _ :: ls' => (AW (W := LW ls') * list pchunk)%type end.

Section Layers.
  Variable dbg : bool.
  Variable bmax : Z.
  Variable S : strategy.
  Variable amax : Z.
  Hypothesis Hamax : 0 <= amax <= USIZE_MAX.
  Hypothesis Hbot : amax <= bmax.
  Hypothesis Hhon : honest amax S.

  Fixpoint lv (ls : list level) : LW ls -> TP ls :=
    match ls with [] => bw_trace | _ :: ls' => lview (lv ls') end.
  Fixpoint layers (ls : list level) : Allocator (LW ls) :=
    match ls with
    | [] => base bmax S
    | l :: ls' => layer (layers ls') dbg (lv_min l) (tsell S ls') (tgive ls') (lv ls')
    end.
  Fixpoint lo (ls : list level) : LW ls -> list ublock -> Prop :=
    match ls with
    | [] => base_own amax bmax
    | l :: ls' => lown amax (layers ls') (lo ls') (lv_min l)
    end.
  Fixpoint lstart (ls : list level) : LW ls :=
    match ls with
    | [] => bworld0
    | l :: ls' => ((arena_with_chunk_size (lv_min l), lstart ls'), [])
    end.

  (** The same without the ghosts. *)
  Fixpoint LR (ls : list level) : LW ls -> TW ls -> Prop :=
    match ls with
    | [] => eq
    | _ :: ls' => fun s w => both_arenas (LR ls') (fst s) w
    end.

  Record sound_layer (ls : list level) : Prop := {
    sl_ct : contract amax (top_smax bmax ls) (layers ls) (lo ls);
    sl_set : forall w m, lv ls (al_set_mem (layers ls) w m) = lv ls w;
    sl_ask : forall w us l r w', lo ls w us -> req_ok (top_smax bmax ls) l -> al_allocate (layers ls) l w = ORet r w' ->
      tsell S ls l (lv ls w) = (r, lv ls w');
    sl_give : forall w us u l w', lo ls w (u :: us) -> fits l u -> al_deallocate (layers ls) (u_ptr u) l w = ORet tt w' ->
      lv ls w' = tgive ls (u_ptr u) l (lv ls w);
    sl_start : lo ls (lstart ls) [] /\ lv ls (lstart ls) = tp0 ls /\ LR ls (lstart ls) (tower_start ls);
    sl_alike : alike (LR ls) (layers ls) (tower dbg bmax S ls)
  }.

  Lemma layers_sound ls : tower_ok dbg bmax amax ls -> sound_layer ls.
  Proof.
    induction ls as [|l ls IH]; intros H.
    - constructor; cbn [layers lo lv tsell tgive top_smax lstart tp0 LR tower tower_start].
      + apply base_contract; assumption.
      + reflexivity.
      + intros w us lay r w' _ Hl E. cbn [base al_allocate] in E. unfold base_allocate in E.
        unfold req_ok in Hl. rewrite Hl in E. cbn [negb] in E. injection E as <- <-. reflexivity.
      + intros w us u lay w' Ho Hf E. cbn [base al_deallocate] in E. unfold base_deallocate in E.
        destruct (negb _); [discriminate|]. destruct (remove_fit _ _ _); [|discriminate]. injection E as <-. reflexivity.
      + split; [|split; reflexivity]. split; [|exact I]. split; [|constructor]. split; constructor; constructor.
      + apply alike_eq.
    - destruct H as (H1 & H2 & H3). destruct (IH H3) as [C E1 E2 E3 (E4 & E5 & E6) E7].
      constructor.
      + apply (layer_contract amax (top_smax bmax ls) (lv_smax l) (layers ls) (lo ls) dbg (lv_min l) (tsell S ls) (tgive ls) (lv ls)); assumption.
      + apply (lset (layers ls) dbg (lv_min l) (tsell S ls) (tgive ls) (lv ls)); assumption.
      + intros w us lay r w' Ho Hl E.
        destruct (lalloc amax (top_smax bmax ls) (lv_smax l) (layers ls) (lo ls) dbg (lv_min l) (tsell S ls) (tgive ls) (lv ls)
          C Hamax E1 E2 H2 w us lay r w' Ho Hl E) as [P _]. exact P.
      + intros w us u lay w' Ho Hf E.
        destruct (ldealloc amax (top_smax bmax ls) (lv_smax l) (layers ls) (lo ls) dbg (lv_min l) (tsell S ls) (tgive ls) (lv ls)
          C Hamax E1 H2 w us u lay w' Ho Hf E) as [P _]. exact P.
      + split; [|split].
        * exists []. split; [|split; reflexivity]. apply (arep_new amax (top_smax bmax ls) (layers ls) (lo ls) []); assumption.
        * cbn. unfold lview. cbn. rewrite E5. reflexivity.
        * split; [reflexivity|exact E6].
      + apply (layer_alike (LR ls) (layers ls) (tower dbg bmax S ls) E7).
  Qed.

  Lemma LR_mem ls : forall w w2, LR ls w w2 -> al_mem (tower dbg bmax S ls) w2 = al_mem (layers ls) w.
  Proof.
    induction ls as [|l ls IH]; intros w w2 H.
    - cbn in H. subst. reflexivity.
    - destruct w as [[ar w] ks]. destruct w2 as [ar2 w2]. destruct H as [_ H]. cbn [fst snd] in H. cbn. apply IH. exact H.
  Qed.

  Lemma rep_headed ls cs ar w us : contract amax (top_smax bmax ls) (layers ls) (lo ls) -> arep amax (layers ls) (lo ls) [] cs ar w us ->
    headed (al_mem (layers ls) w) (head_ptr cs) (bumps cs).
  Proof.
    intros C R. apply headed_chain; [apply (ar_chain _ _ _ _ _ _ _ _ R)|].
    pose proof (ct_wf _ _ _ _ C _ _ (ar_own _ _ _ _ _ _ _ _ R)) as [Hw _]. rewrite app_nil_r in Hw. apply (above_own _ _ Hw).
  Qed.

  (** The paper of every level shows in memory. *)
  Lemma layers_show ls : tower_ok dbg bmax amax ls -> forall w us m w2, lo ls w us -> al_mem (layers ls) w = m -> LR ls w w2 -> tower_shows ls m w2 (lv ls w).
  Proof.
    induction ls as [|l ls IH]; intros Ht w us m w2 Ho Hm HR.
    - cbn in *. subst. split; reflexivity.
    - destruct w as [[ar w] ks]. destruct w2 as [ar2 w2]. destruct HR as [E HR]. cbn [fst snd] in *. subst ar2.
      destruct Ho as (cs & R & _ & P). cbn [fst snd] in *. subst ks. cbn [tower_shows lv lview fst snd].
      cbn [layers layer al_mem blink fst snd] in Hm. split.
      + rewrite (ar_head _ _ _ _ _ _ _ _ R). subst m. apply (rep_headed ls _ _ _ _ (sl_ct _ (layers_sound ls (proj2 (proj2 Ht)))) R).
      + apply (IH (proj2 (proj2 Ht)) w _ m w2 (ar_own _ _ _ _ _ _ _ _ R) Hm HR).
  Qed.

  (** ** Histories *)
  Variables (l : level) (ls : list level).
  Hypothesis Hok : tower_ok dbg bmax amax (l :: ls).
  Notation treset A := (fun keep : bool => if keep then blink_reset A else blink_reset_final A).

  Definition sits (c : cst (AW (W := LW ls))) (q : TP (l :: ls) * list (option ublock)) : Prop :=
    exists cs, arep amax (layers ls) (lo ls) [] cs (fst (c_w c)) (snd (c_w c)) (live (c_tab c)) /\ ar_min (fst (c_w c)) = lv_min l /\ q = (bumps cs, lv ls (snd (c_w c)), c_tab c).

  Lemma sits_step o c q r c' : sits c q -> step (lv_smax l) (blink (layers ls) dbg) (treset (layers ls)) o c = ORet r c' ->
    exists q', tstep S l ls o q = (r, q') /\ sits c' q'.
  Proof.
    intros (cs & R & Hm & ->) E. destruct Hok as (H1 & H2 & H3). destruct (layers_sound ls H3) as [C E1 E2 E3 _ _].
    pose proof (top_exact amax (top_smax bmax ls) (lv_smax l) (layers ls) (lo ls) dbg (lv_min l) (tsell S ls) (tgive ls) (lv ls)
      C Hamax E1 E2 E3 H2 o c cs R Hm) as H. rewrite E in H. destruct H as (cs' & R' & M' & p & Ep & P1 & P2 & P3).
    exists (p_chunks p, charged (tsell S ls) (tgive ls) (lv ls (snd (c_w c))) (p_calls p), p_tab p). split.
    - exact (f_equal (fun rp => let '(r, p) := rp in (r, (p_chunks p, charged (tsell S ls) (tgive ls) (lv ls (snd (c_w c))) (p_calls p), p_tab p))) Ep).
    - exists cs'. rewrite P1, P2. split; [exact R'|]. split; [exact M'|]. f_equal. f_equal. exact P3.
  Qed.
  Lemma sits_run os : forall c q rs c', sits c q -> run (lv_smax l) (blink (layers ls) dbg) (treset (layers ls)) os c = ORet rs c' ->
    exists q', trun S l ls os q = (rs, q') /\ sits c' q'.
  Proof.
    induction os as [|o os IH]; intros c q rs c' Hs E; cbn [run trun] in *.
    - injection E as <- <-. exists q. auto.
    - unfold bind in E. destruct (step _ _ _ _ _) as [r c1| | |] eqn:E1; try discriminate.
      destruct (sits_step _ _ _ _ _ Hs E1) as (q1 & T1 & S1). rewrite T1.
      destruct (run _ _ _ _ c1) as [rs1 c2| | |] eqn:E2; try discriminate. injection E as <- <-.
      destruct (IH _ _ _ _ S1 E2) as (q2 & T2 & S2). rewrite T2. exists q2. auto.
  Qed.

  Theorem towers_on_paper os : exists rs st q,
    run (lv_smax l) (tower dbg bmax S (l :: ls)) (tower_reset dbg bmax S (l :: ls)) os (mkCst [] (tower_start (l :: ls))) = ORet rs st /\
    trun S l ls os (tp0 (l :: ls), []) = (rs, q) /\
    c_tab st = snd q /\ tower_shows (l :: ls) (al_mem (tower dbg bmax S (l :: ls)) (c_w st)) (c_w st) (fst q).
  Proof.
    pose proof Hok as (H1 & H2 & H3). pose proof (layers_sound ls H3) as HL. pose proof HL as [C E1 E2 E3 (E4 & E5 & E6) E7].
    set (c0 := mkCst [] (arena_with_chunk_size (lv_min l), lstart ls)).
    assert (S0 : sits c0 (tp0 (l :: ls), [])).
    { exists []. split; [apply (arep_new amax (top_smax bmax ls) (layers ls) (lo ls) []); assumption|]. split; [reflexivity|]. cbn. rewrite E5. reflexivity. }
    assert (HA : alike (both_arenas (LR ls)) (blink (layers ls) dbg) (tower dbg bmax S (l :: ls))) by (apply blink_alike; exact E7).
    assert (HR : forall k : bool, like (both_arenas (LR ls)) (treset (layers ls) k) (tower_reset dbg bmax S (l :: ls) k)).
    { intros k. cbn [tower_reset]. destruct k; apply la_reset; exact E7. }
    pose proof (lc_run (both_arenas (LR ls)) _ _ HA (lv_smax l) _ _ HR os c0 (mkCst [] (tower_start (l :: ls))) (conj eq_refl (conj eq_refl E6))) as K.
    assert (Hwp : exists rs c', run (lv_smax l) (blink (layers ls) dbg) (treset (layers ls)) os c0 = ORet rs c').
    { pose proof (blink_contract amax (lv_smax l) (top_smax bmax ls) (layers ls) (lo ls) C Hamax dbg (fun _ _ => True) [] (lv_min l)
        ltac:(apply jinv_true) H2) as C2.
      pose proof (run_ok amax (lv_smax l) _ _ (treset (layers ls)) C2) as Hr.
      assert (Hz : forall k w us, blink_own amax (layers ls) (lo ls) (fun _ _ => True) [] (lv_min l) w us ->
        wp (treset (layers ls) k) w (fun _ w' => blink_own amax (layers ls) (lo ls) (fun _ _ => True) [] (lv_min l) w' [])).
      { intros k [ar w] us (cs & R & _ & Hm). cbn [fst snd] in *. destruct k.
        - eapply wp_mono; [apply (reset_exact amax (top_smax bmax ls) (layers ls) (lo ls) C (tgive ls) (lv ls) E1 E3 cs ar w us R)|].
          intros _ aw' (M1 & _ & cs' & _ & R'). exists cs'. split; [exact R'|]. split; [exact I|]. congruence.
        - eapply wp_mono; [apply (final_exact amax (top_smax bmax ls) (layers ls) (lo ls) C (tgive ls) (lv ls) E3 cs ar w us R)|].
          intros _ aw' (M1 & _ & R'). exists []. split; [exact R'|]. split; [exact I|]. congruence. }
      specialize (Hr Hz os c0 []). destruct S0 as (cs & R & Hm & _).
      specialize (Hr (conj (ex_intro _ cs (conj R (conj I Hm))) (Forall2_nil _))). apply wp_inv in Hr. destruct Hr as (rs & st & E & _). exists rs, st. exact E. }
    destruct Hwp as (rs & c' & Er). rewrite Er in K. destruct K as (st & Es & Ht & Hw).
    destruct (sits_run _ _ _ _ _ S0 Er) as (q & Tq & (cs & R & Hm & ->)).
    exists rs, st. eexists. split; [exact Es|]. split; [exact Tq|]. cbn [snd fst]. split; [exact Ht|].
    destruct st as [t [ar2 w2]]. destruct c' as [t' [ar w]]. cbn [c_w c_tab fst snd] in *. destruct Hw as [Ea HR2]. cbn [fst snd] in *. subst ar2.
    assert (Em : al_mem (tower dbg bmax S (l :: ls)) (ar, w2) = al_mem (layers ls) w) by (apply (LR_mem ls _ _ HR2)).
    rewrite Em. cbn [tower_shows fst snd]. split.
    - rewrite (ar_head _ _ _ _ _ _ _ _ R). apply (rep_headed ls _ _ _ _ C R).
    - apply (layers_show ls H3 w _ _ w2 (ar_own _ _ _ _ _ _ _ _ R) eq_refl HR2).
  Qed.
End Layers.
