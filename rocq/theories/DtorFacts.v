(** Proofs about destructors that do something (Dtor.v). *)
From Coq Require Import Permutation.
From Verif Require Import Base BaseFacts Alloc AllocFacts History HistoryFacts Blink BlinkInv BlinkReset BlinkOps Dtor.

Definition stamp (r : drec) : nat := match r with RDrop _ _ _ n | RSaw _ _ _ n => n end.

Lemma chain_suffix m l1 l2 r : chain m r (l1 ++ l2) -> chain m (match l2 with [] => None | (p, _, _) :: _ => Some p end) l2.
Proof.
  revert r. induction l1 as [|[[p c] g] l1 IH]; intros r H; cbn [app chain] in H.
  - destruct l2 as [|[[p c] g] l2]; [reflexivity|]. cbn [chain] in *. destruct H as (_ & H). split; [reflexivity|exact H].
  - destruct H as (_ & _ & _ & _ & _ & r' & _ & H). exact (IH _ H).
Qed.
Lemma dropped_app a b : dropped (a ++ b) = dropped a ++ dropped b.
Proof. apply flat_map_app. Qed.
Lemma to_drop_app a b : to_drop (a ++ b) = to_drop b ++ to_drop a.
Proof. unfold to_drop. rewrite live_app, rev_app_distr. apply flat_map_app. Qed.
Lemma get_mid {T} (t1 t2 : list (option T)) x : get (length t1) (t1 ++ Some x :: t2) = Some x.
Proof. unfold get. rewrite nth_error_app2, Nat.sub_diag by lia. reflexivity. Qed.
Lemma get_low {T} (t1 t2 : list (option T)) i : (i < length t1)%nat -> get i (t1 ++ t2) = get i t1.
Proof. intros H. unfold get. rewrite nth_error_app1 by exact H. reflexivity. Qed.

Section Facts.
  Context {W : Type} (amax smax : Z) (A : Allocator W) (own : W -> list ublock -> Prop).
  Hypothesis Hct : contract amax smax A own.
  Hypothesis Hsm : ISIZE_MAX <= smax.
  Variable bomb : Z -> Z -> bool.
  Variable dtor : Z -> Z -> Z -> dprog.
  Variable t : list (option handle).
  Variable fr : list ublock.
  Notation D := (bl W * list drec)%type.
  Notation bmem := (bmem A).
  Notation binv := (binv A own bomb).
  Notation state_of := (state_of bomb).

  Definition runs {B} (m : M D B) (d : D) (Q : B -> D -> Prop) (P : D -> Prop) (R : Prop) : Prop :=
    match m d with ORet b d' => Q b d' | OPanic d' => P d' | OAbort => R | OUB => False end.
  Lemma runs_bind {B C} (m : M D B) (f : B -> M D C) d Q P R :
    runs m d (fun b d' => runs (f b) d' Q P R) P R -> runs (bind m f) d Q P R.
  Proof. unfold runs, bind. destruct (m d); auto. Qed.
  Lemma runs_mono {B} (m : M D B) d (Q Q' : B -> D -> Prop) (P P' : D -> Prop) (R R' : Prop) :
    runs m d Q P R -> (forall b d', Q b d' -> Q' b d') -> (forall d', P d' -> P' d') -> (R -> R') -> runs m d Q' P' R'.
  Proof. unfold runs. destruct (m d); auto. Qed.
  Lemma runs_ret {B} (b : B) d (Q : B -> D -> Prop) P R : Q b d -> runs (ret b) d Q P R.
  Proof. intros H. exact H. Qed.
  Lemma runs_on {B} (m : M (bl W) B) d (Q : B -> D -> Prop) P R :
    (m (fst d) <> OAbort) -> safe m (fst d) (fun b s => Q b (s, snd d)) (fun s => P (s, snd d)) -> runs (on_bl m) d Q P R.
  Proof. unfold runs, on_bl, safe. destruct (m (fst d)); auto. contradiction. Qed.
  Lemma runs_alloc {B} (m : M W B) d (Q : B -> D -> Prop) P R :
    wp m (bl_w (fst d)) (fun b w => Q b (mkBl w (bl_root (fst d)) (bl_tab (fst d)) (bl_log (fst d)), snd d)) -> runs (on_bl (on_alloc m)) d Q P R.
  Proof. unfold runs, on_bl, on_alloc, wp. destruct (m (bl_w (fst d))); auto; contradiction. Qed.

  (** ** What stays, and what is added *)
  Definition goes (X : list (Z * Z)) (d d' : D) : Prop :=
    binv fr (fst d') /\ bl_tab (fst d') = t /\ bl_root (fst d') = bl_root (fst d) /\ same_on fr (bmem (fst d)) (bmem (fst d')) /\
    exists sets new, bl_log (fst d') = bl_log (fst d) ++ sets /\ Forall is_set sets /\ snd d' = snd d ++ new /\ dropped new = X /\
      Forall (fun r => (stamp r <= length (bl_log (fst d')))%nat /\ true_to bomb t (bl_log (fst d')) r) new.
  Lemma goes_refl d : binv fr (fst d) -> bl_tab (fst d) = t -> goes [] d d.
  Proof.
    intros B E. split; [exact B|]. split; [exact E|]. split; [reflexivity|]. split; [apply same_on_refl|].
    exists [], []. rewrite !app_nil_r. repeat split; constructor.
  Qed.
  Lemma true_more lg more r : (stamp r <= length lg)%nat -> true_to bomb t lg r -> true_to bomb t (lg ++ more) r.
  Proof.
    intros H. destruct r as [id a v n|h i o n]; cbn [stamp true_to] in *; rewrite firstn_app; replace (n - length lg)%nat with O by lia;
      cbn [firstn]; rewrite app_nil_r; auto.
  Qed.
  Lemma goes_trans X Y d d1 d2 : goes X d d1 -> goes Y d1 d2 -> goes (X ++ Y) d d2.
  Proof.
    intros (B1 & T1 & R1 & S1 & a1 & n1 & L1 & F1 & N1 & X1 & C1) (B2 & T2 & R2 & S2 & a2 & n2 & L2 & F2 & N2 & X2 & C2).
    split; [exact B2|]. split; [exact T2|]. split; [congruence|]. split; [eapply same_on_trans; eassumption|].
    exists (a1 ++ a2), (n1 ++ n2). rewrite L2, L1, app_assoc. split; [reflexivity|]. split; [apply Forall_app; auto|].
    split; [rewrite N2, N1, app_assoc; reflexivity|]. split; [rewrite dropped_app; congruence|].
    rewrite <- L1. apply Forall_app. split; [|rewrite <- L2; exact C2].
    eapply Forall_impl; [|exact C1]. intros r [H1 H2]. split; [rewrite app_length; lia|apply true_more; assumption].
  Qed.
  Lemma goes_trans0 X d d1 d2 : goes [] d d1 -> goes X d1 d2 -> goes X d d2.
  Proof. apply (goes_trans []). Qed.

  Lemma goes_world d s' : binv fr (fst d) -> bl_tab (fst d) = t -> binv fr s' -> same_control (fst d) s' -> same_on fr (bmem (fst d)) (bmem s') ->
    goes [] d (s', snd d).
  Proof.
    intros B T B' (C1 & C2 & C3) S. split; [exact B'|]. cbn [fst snd]. split; [congruence|]. split; [exact C1|]. split; [exact S|].
    exists [], []. rewrite !app_nil_r. repeat split; try constructor. exact C3.
  Qed.

  (** Notes that are true. *)
  Lemma goes_note d (r : nat -> drec) X : binv fr (fst d) -> bl_tab (fst d) = t -> stamp (r (length (bl_log (fst d)))) = length (bl_log (fst d)) ->
    dropped [r (length (bl_log (fst d)))] = X -> true_to bomb t (bl_log (fst d)) (r (length (bl_log (fst d)))) ->
    goes X d (fst d, snd d ++ [r (length (bl_log (fst d)))]).
  Proof.
    intros B T H1 H2 H3. split; [exact B|]. cbn [fst snd]. split; [exact T|]. split; [reflexivity|]. split; [apply same_on_refl|].
    exists [], [r (length (bl_log (fst d)))]. rewrite app_nil_r. split; [reflexivity|]. split; [constructor|]. split; [reflexivity|]. split; [exact H2|].
    constructor; [|constructor]. rewrite H1. split; [lia|exact H3].
  Qed.
  Lemma firstn_all' {T} (l : list T) : firstn (length l) l = l.
  Proof. apply firstn_all. Qed.

  Lemma look_true s h i : binv fr s -> bl_tab s = t -> forall v s', look_elem A h i s = ORet v s' ->
    s' = s /\ true_to bomb t (bl_log s) (RSaw h i v (length (bl_log s))).
  Proof.
    intros (junk & _ & _ & Hf & _) T v s' E. injection E as <- <-. split; [reflexivity|]. cbn [true_to]. rewrite firstn_all.
    fold (state_of s). destruct (get h (bl_tab s)) as [x|] eqn:Gx.
    - destruct (get_state _ _ _ _ _ Hf Gx) as (t1 & t2 & e1 & e2 & [[reg id] vs] & Et & Ee & L1 & L2 & Hy & _ & _).
      rewrite Ee, <- L2, get_mid. destruct Hy as (_ & _ & (Hl & Hh) & _). destruct (nth_error vs i) as [[v|]|] eqn:N; [|exact Logic.I|].
      + pose proof (Hh _ _ N) as V. assert (i < length vs)%nat by (apply nth_error_Some; congruence). replace (Z.of_nat i <? h_cnt x) with true by lia.
        destruct (h_size x =? 0); [congruence|exact V].
      + apply nth_error_None in N. replace (Z.of_nat i <? h_cnt x) with false by lia. reflexivity.
    - destruct (get h (state_of s)) as [[[reg id] vs]|] eqn:G; [|reflexivity].
      exfalso. revert G Gx. unfold get. clear - Hf. revert h. induction Hf as [|oh oe tt es H HF IH]; intros [|h]; cbn; try discriminate.
      + destruct oh, oe; cbn in *; try discriminate; try contradiction.
      + apply IH.
  Qed.

  (** Writing through a reference. *)
  Lemma set_elem_shape h i v s s' : set_elem A h i v s = ORet tt s' -> bl_tab s' = bl_tab s /\ bl_root s' = bl_root s.
  Proof.
    unfold set_elem. destruct (get h (bl_tab s)) as [x|]; [|intros E; injection E as <-; auto].
    destruct (h_mut x && _ && _); [|intros E; injection E as <-; auto].
    unfold bind, store_at, on_alloc, mstore, ret, ub, log. destruct (h_size x =? 0); [intros E; injection E as <-; auto|].
    destruct (_ mod _ =? 0); intros E; [injection E as <-; auto|discriminate E].
  Qed.
  Lemma set_elem_calm h i v s : set_elem A h i v s <> OAbort.
  Proof.
    unfold set_elem. destruct (get h (bl_tab s)) as [x|]; [|discriminate].
    destruct (h_mut x && _ && _); [|discriminate].
    unfold bind, store_at, on_alloc, mstore, ret, ub, log. destruct (h_size x =? 0); [discriminate|].
    destruct (_ mod _ =? 0); discriminate.
  Qed.
  Lemma set_goes h i v d R : binv fr (fst d) -> bl_tab (fst d) = t ->
    runs (on_bl (set_elem A h i v)) d (fun _ d' => goes [] d d') (fun _ => False) R.
  Proof.
    intros B T. apply runs_on; [apply set_elem_calm|].
    pose proof (set_elem_ok amax smax A own Hct bomb h i v fr (fst d) (fun _ => False) B) as S. unfold safe in *.
    destruct (set_elem A h i v (fst d)) as [[] s'|s'| |] eqn:E; try exact S. destruct S as (B' & (S & _) & L).
    destruct (set_elem_shape _ _ _ _ _ E) as [T' R'].
    split; [exact B'|]. cbn [fst snd]. split; [congruence|]. split; [exact R'|]. split; [exact S|].
    destruct L as [L|L]; [exists [], []|exists [ESet h i v], []]; rewrite ?app_nil_r; repeat split; auto; repeat constructor.
  Qed.

  (** ** One destructor *)
  Section One.
    Variable dead : list Z.
    Variable j : nat.
    Hypothesis Hdead : forall h, may t j h -> is_dead dead t h = false.

    Lemma run_dtor_ok p : forall d, binv fr (fst d) -> bl_tab (fst d) = t -> only_older t j p ->
      runs (run_dtor A dead p) d (fun b d' => goes [] d d' /\ (b = true -> may_panic p)) (fun _ => False) False.
    Proof.
      assert (HB : forall d d', goes [] d d' -> binv fr (fst d') /\ bl_tab (fst d') = t) by (intros d d' (B & T & _); auto).
      induction p as [b|h i k IH|h i v k IH|keep l c k IH]; intros d B T HO; cbn [run_dtor only_older may_panic] in *.
      - apply runs_ret. split; [apply goes_refl; assumption|auto].
      - destruct HO as [Hm HO]. apply runs_bind. unfold runs at 1, access. rewrite T, (Hdead h Hm).
        apply runs_bind. unfold runs at 1, on_bl. destruct (look_elem A h i (fst d)) as [v s'| | |] eqn:El; try discriminate El.
        destruct (look_true (fst d) h i B T v s' El) as [-> HT].
        apply runs_bind. unfold runs at 1, note. cbn [fst snd].
        pose proof (goes_note d (RSaw h i v) [] B T eq_refl eq_refl HT) as G. destruct (HB _ _ G) as [B1 T1].
        eapply runs_mono; [apply (IH v _ B1 T1 (HO v))| |intros ? []|intros []].
        intros b d' [G' HP]. split; [eapply goes_trans0; eassumption|]. intros E. exists v. exact (HP E).
      - destruct HO as [Hm HO]. apply runs_bind. unfold runs at 1, access. rewrite T, (Hdead h Hm).
        apply runs_bind. eapply runs_mono; [apply (set_goes h i v d False B T)| |intros ? []|intros []].
        intros u0 d1 G. cbv beta in G. destruct (HB _ _ G) as [B1 T1]. eapply runs_mono; [apply (IH d1 B1 T1 HO)| |intros ? []|intros []].
        intros b d' [G' HP]. split; [eapply goes_trans0; eassumption|exact HP].
      - destruct (req_okb ISIZE_MAX l) eqn:Hl.
        2: { eapply runs_mono; [apply (IH false d B T (HO false))| |intros ? []|intros []]. intros b d' [G' HP]. split; [exact G'|]. intros E. exists false. exact (HP E). }
        apply runs_bind.
        assert (Hr : req_ok smax l) by (eapply req_ok_mono; [exact Hsm|exact Hl]).
        pose proof (safe_allocate amax smax A own Hct bomb fr (fst d) l (fun _ => False) B Hr) as SA.
        unfold safe in SA.
        assert (NA : on_alloc (al_allocate A l) (fst d) <> OAbort).
        { destruct B as (junk & Ho & _). pose proof (ct_allocate _ _ _ _ Hct _ _ _ Ho Hr) as X. unfold wp in X. unfold on_alloc.
          destruct (al_allocate A l (bl_w (fst d))); [discriminate|discriminate|contradiction|discriminate]. }
        unfold runs at 1, on_bl at 1. destruct (on_alloc (al_allocate A l) (fst d)) as [ob s1|s1| |] eqn:Ea; try contradiction.
        destruct SA as (C1 & S1 & SA). destruct ob as [b|].
        2: { pose proof (goes_world d s1 B T SA C1 S1) as G. destruct (HB _ _ G) as [B1 T1].
             eapply runs_mono; [apply (IH false _ B1 T1 (HO false))| |intros ? []|intros []].
             intros b d' [G' HP]. split; [eapply goes_trans0; eassumption|]. intros E. exists false. exact (HP E). }
        destruct SA as [Gb Bu]. apply runs_bind.
        pose proof (safe_fill amax smax A own Hct bomb (mkU (b_ptr b) (b_len b) l) fr s1 (b_ptr b) (b_len b) c
          (fun _ s2 => BlinkInv.binv A own bomb (mkU (b_ptr b) (b_len b) l :: fr) s2 /\ same_control s1 s2 /\ same_on fr (bmem s1) (bmem s2)) (fun _ => False) Bu) as SF.
        cbn [u_ptr u_len] in SF. specialize (SF ltac:(lia) ltac:(lia) ltac:(auto)).
        unfold safe, on_alloc, mfill in SF. destruct SF as (B2 & C2 & S2).
        set (s2 := mkBl _ (bl_root s1) (bl_tab s1) (bl_log s1)) in *.
        assert (EF : on_bl (on_alloc (mfill A (b_ptr b) (b_len b) c)) (s1, snd d) = ORet tt (s2, snd d)) by reflexivity.
        unfold runs at 1. rewrite EF. clear EF.
        assert (C02 : same_control (fst d) s2) by (eapply same_control_trans; eassumption).
        assert (S02 : same_on fr (bmem (fst d)) (bmem s2)) by (eapply same_on_trans; eassumption).
        assert (Tail : forall s3, BlinkInv.binv A own bomb fr s3 -> same_control (fst d) s3 -> same_on fr (bmem (fst d)) (bmem s3) ->
          runs (run_dtor A dead (k true)) (s3, snd d) (fun b0 d' => goes [] d d' /\ (b0 = true -> exists b1, may_panic (k b1))) (fun _ => False) False).
        { intros s3 B3 C3 S3. pose proof (goes_world d s3 B T B3 C3 S3) as G. destruct (HB _ _ G) as [B1 T1].
          eapply runs_mono; [apply (IH true _ B1 T1 (HO true))| |intros ? []|intros []].
          intros b0 d' [G' HP]. split; [eapply goes_trans0; eassumption|]. intros E. exists true. exact (HP E). }
        apply runs_bind. destruct keep.
        + apply runs_ret. apply Tail; [eapply binv_leak; exact B2|exact C02|exact S02].
        + assert (Hf : fits l (mkU (b_ptr b) (b_len b) l)).
          { destruct Gb as (_ & _ & G3 & _). split; [reflexivity|]. cbn [u_layout u_len]. lia. }
          pose proof (safe_deallocate amax smax A own Hct bomb (mkU (b_ptr b) (b_len b) l) fr s2 l (fun _ => False) B2 Hf) as SD. cbn [u_ptr] in SD.
          apply runs_on.
          * cbn [fst]. destruct B2 as (junk & Ho & _). apply (own_front amax smax A own Hct) in Ho.
            pose proof (ct_deallocate _ _ _ _ Hct _ _ _ _ Ho Hf) as X. unfold wp in X. cbn [u_ptr] in X. unfold on_alloc.
            destruct (al_deallocate A (b_ptr b) l (bl_w s2)); [discriminate|discriminate|contradiction|discriminate].
          * cbn [fst snd]. unfold safe in *. destruct (on_alloc (al_deallocate A (b_ptr b) l) s2) as [[] s3|s3| |]; try exact SD.
            destruct SD as (C3 & S3 & B3). apply Tail; [exact B3|eapply same_control_trans; eassumption|eapply same_on_trans; eassumption].
    Qed.
  End One.

  (** ** The elements of one item *)

  Lemma agree_at s j x : binv fr s -> bl_tab s = t -> get j t = Some x ->
    exists reg id vs, get j (state_of s) = Some (reg, id, vs) /\ agree (bmem s) (Some x) (Some (reg, id, vs)).
  Proof.
    intros (junk & _ & _ & Hf & _) T G. rewrite T in Hf.
    destruct (get_state _ _ _ _ _ Hf G) as (t1 & t2 & e1 & e2 & [[reg id] vs] & Et & Ee & L1 & L2 & Hy & _ & _).
    exists reg, id, vs. split; [|exact Hy]. rewrite Ee, <- L2. apply get_mid.
  Qed.

  Section Elems.
    Variable dead : list Z.
    Variable j : nat.
    Variable x : handle.
    Variable g : glue.
    Variable u : ublock.
    Hypothesis Hdead : forall h, may t j h -> is_dead dead t h = false.
    Hypothesis Gx : get j t = Some x.
    Hypothesis Ex : h_item x = Some g.
    Hypothesis Eu : h_blks x = [u].
    Hypothesis Hp : placed x.
    Hypothesis Hpol : polite dtor t.
    Notation base := (u_ptr u + item_off (g_xalign g)).

    Lemma place_at k : (k < Z.to_nat (h_cnt x))%nat -> base + Z.of_nat k * g_xsize g + g_xoff g = elem_at x k.
    Proof.
      intros Hk. destruct Hp as (P1 & P2 & P3 & P4 & P5 & P6). rewrite Eu, Ex in P6. destruct P6 as (_ & _ & _ & _ & _ & _ & _ & P13 & P14).
      unfold elem_at. rewrite P13. destruct P14 as [P14|P14]; [assert (k = 0)%nat by lia; subst k; lia|rewrite P14; lia].
    Qed.

    Lemma busy_elems_ok n : forall k d pk, (k + n = Z.to_nat (h_cnt x))%nat -> binv fr (fst d) -> bl_tab (fst d) = t -> (pk = true -> panicky dtor) ->
      runs (busy_elems A dtor dead g (base + Z.of_nat k * g_xsize g) n pk) d
        (fun b d' => goes (map (fun k => (h_id x, elem_at x k)) (seq k n)) d d' /\ (b = true -> panicky dtor)) (fun _ => False) (panicky dtor).
    Proof.
      induction n as [|n IH]; intros k d pk Hk B T Hpk; cbn [busy_elems seq map].
      - apply runs_ret. split; [apply goes_refl; assumption|exact Hpk].
      - assert (Hlt : (k < Z.to_nat (h_cnt x))%nat) by lia. pose proof (place_at k Hlt) as Ea. rewrite Ea.
        destruct (agree_at (fst d) j x B T Gx) as (reg & id & vs & Gs & (Er & Ei & (Hl & Hh) & _ & Hall)).
        pose proof Hp as (_ & _ & _ & _ & Hcnt & P6). rewrite Eu, Ex in P6. destruct P6 as (_ & _ & _ & Egi & Egt & _).
        assert (Ereg : reg = true) by (rewrite Er; unfold registered; rewrite Ex; reflexivity). specialize (Hall Ereg).
        destruct (nth_error vs k) as [ov|] eqn:Ev; [|apply nth_error_None in Ev; lia].
        destruct ov as [v|]; [|exfalso; rewrite Forall_forall in Hall; apply (Hall None); [eapply nth_error_In; exact Ev|reflexivity]].
        pose proof (Hh k v Ev) as Hv.
        assert (ER : on_bl (read_value A (g_tsize g) (elem_at x k)) d = ORet v d).
        { unfold read_value. rewrite Egt. destruct d as [s rs]. unfold on_bl. cbn [fst snd] in *. destruct (h_size x =? 0); [rewrite Hv; reflexivity|].
          unfold on_alloc, mload. unfold BlinkInv.bmem in Hv. unfold elem_at. rewrite Hv. destruct s; reflexivity. }
        apply runs_bind. unfold runs at 1. rewrite ER.
        apply runs_bind. unfold runs at 1, note.
        assert (G1 : goes [(h_id x, elem_at x k)] d (fst d, snd d ++ [RDrop (g_id g) (elem_at x k) v (length (bl_log (fst d)))])).
        { apply (goes_note d (RDrop (g_id g) (elem_at x k) v)); [exact B|exact T|reflexivity|cbn; rewrite Egi; reflexivity|].
          cbn [true_to]. rewrite firstn_all. exists j, x, k, vs. split; [exact Gx|]. split; [exact Egi|]. split; [reflexivity|].
          split; [|exact Ev]. fold (state_of (fst d)). rewrite Gs, Egi. congruence. }
        pose proof G1 as (B1 & T1 & _).
        apply runs_bind. rewrite Egi in *. eapply runs_mono.
        + apply (run_dtor_ok dead j Hdead _ _ B1 T1). apply Hpol; [exact Gx|congruence|lia].
        + intros b d2 [G2 Hb]. cbv beta in *.
          assert (G12 : goes [(h_id x, elem_at x k)] d d2).
          { pose proof (goes_trans _ _ _ _ _ G1 G2) as G. rewrite app_nil_r in G. exact G. }
          pose proof G2 as (B2 & T2 & _).
          assert (Next : forall pk', (pk' = true -> panicky dtor) ->
            runs (busy_elems A dtor dead g (base + Z.of_nat k * g_xsize g + g_xsize g) n pk') d2
              (fun b d' => goes ((h_id x, elem_at x k) :: map (fun k => (h_id x, elem_at x k)) (seq (S k) n)) d d' /\ (b = true -> panicky dtor)) (fun _ => False) (panicky dtor)).
          { intros pk' Hpk'. replace (base + Z.of_nat k * g_xsize g + g_xsize g) with (base + Z.of_nat (S k) * g_xsize g) by lia.
            eapply runs_mono; [apply (IH (S k) d2 pk' ltac:(lia) B2 T2 Hpk')| |intros ? []|auto].
            intros b' d3 [G3 Hb']. split; [|exact Hb']. exact (goes_trans _ _ _ _ _ G12 G3). }
          destruct b.
          * assert (Py : panicky dtor) by (eexists _, _, _; exact (Hb eq_refl)).
            destruct pk; [exact Py|]. apply Next. intros _. exact Py.
          * apply Next. exact Hpk.
        + intros ? [].
        + intros [].
    Qed.
  End Elems.

  (** ** The list *)

  Lemma item_in t1 y : In y (live t1) -> forall p, item_at y = Some p -> exists c g, In (p, c, g) (items t1).
  Proof.
    intros Hin p E. unfold item_at in E. destruct (h_item y) as [g|] eqn:E1; [|discriminate E]. destruct (h_blks y) as [|u l] eqn:E2; [discriminate E|].
    injection E as <-. exists (h_cnt y), g. unfold items. apply in_flat_map. exists y. split; [exact Hin|]. unfold item_of. rewrite E1, E2. left. reflexivity.
  Qed.

  Lemma items_apart s t1 t2 p c g c' g' : binv fr s -> bl_tab s = t -> t = t1 ++ t2 -> In (p, c, g) (items t1) -> In (p, c', g') (items t2) -> False.
  Proof.
    intros (junk & Ho & _ & Hf & _) T E H1 H2. rewrite T, E in *. apply Forall2_app_inv_l in Hf. destruct Hf as (e1 & e2 & F1 & F2 & _).
    destruct (items_in _ _ _ _ _ _ F1 H1) as (u1 & I1 & U1 & L1). destruct (items_in _ _ _ _ _ _ F2 H2) as (u2 & I2 & U2 & L2).
    destruct (ct_wf _ _ _ _ Hct _ _ Ho) as [_ Hd]. rewrite blocks_app, <- app_assoc in Hd. apply pairwise_app in Hd. destruct Hd as (_ & _ & Hd).
    apply (Hd u1 u2 I1 ltac:(apply in_or_app; left; exact I2) p); unfold in_u; lia.
  Qed.

  Lemma busy_loop_ok t1 : forall t2 dead fuel d, t = t1 ++ t2 -> (forall a, In a dead -> exists c g, In (a, c, g) (items t2)) ->
    binv fr (fst d) -> bl_tab (fst d) = t -> polite dtor t -> (length (items t1) <= fuel)%nat ->
    runs (busy_loop A dtor fuel dead (match rev (items t1) with [] => None | (p, _, _) :: _ => Some p end)) d
      (fun _ d' => goes (to_drop t1) d d')
      (fun d' => panicky dtor /\ exists a x b, t1 = a ++ Some x :: b /\ h_item x <> None /\ goes (to_drop (Some x :: b)) d d')
      (panicky dtor).
  Proof.
    induction t1 as [|oh t1 IH] using rev_ind; intros t2 dead fuel d Et Hdead B T Hpol Hf.
    { cbn. destruct fuel; apply runs_ret; apply goes_refl; assumption. }
    rewrite items_app in *. rewrite <- app_assoc in Et. cbn [app] in Et.
    assert (Skip : items [oh] = [] -> to_drop [oh] = [] ->
      runs (busy_loop A dtor fuel dead (match rev (items t1 ++ items [oh]) with [] => None | (p, _, _) :: _ => Some p end)) d
        (fun _ d' => goes (to_drop (t1 ++ [oh])) d d')
        (fun d' => panicky dtor /\ exists a x b, t1 ++ [oh] = a ++ Some x :: b /\ h_item x <> None /\ goes (to_drop (Some x :: b)) d d')
        (panicky dtor)).
    { intros E1 E2. rewrite E1 in *. rewrite app_nil_r in *.
      eapply runs_mono; [apply (IH (oh :: t2) dead fuel d Et)|..]; try assumption.
      - intros a Ha. destruct (Hdead a Ha) as (c & g & Hi). exists c, g. change (oh :: t2) with ([oh] ++ t2). rewrite items_app. apply in_or_app. right. exact Hi.
      - intros u0 d' G. cbv beta in G. rewrite to_drop_app, E2. exact G.
      - intros d' (Py & a & x & b & E & Hx & G). split; [exact Py|]. exists a, x, (b ++ [oh]). rewrite E, <- app_assoc. split; [reflexivity|]. split; [exact Hx|].
        change (Some x :: b ++ [oh]) with ((Some x :: b) ++ [oh]). rewrite to_drop_app, E2. exact G.
      - auto. }
    destruct oh as [x|]; [|apply Skip; reflexivity].
    destruct (h_item x) as [g|] eqn:Ex.
    2: { apply Skip; unfold items, to_drop, item_of, elems_of; cbn; rewrite Ex; reflexivity. }
    clear Skip.
    assert (Gx : get (length t1) t = Some x) by (rewrite Et; apply get_mid).
    destruct (agree_at (fst d) (length t1) x B T Gx) as (reg & id & vs & Gs & (Er & Ei & Hh & Hp & Hall)).
    pose proof Hp as (P1 & P2 & P3 & P4 & P5 & P6).
    destruct (h_blks x) as [|u [|]] eqn:Eu; [destruct P6; congruence| |contradiction].
    rewrite Ex in P6. destruct P6 as (P6 & P7 & P8 & P9 & P10 & P11 & P12 & P13 & P14).
    assert (Eit : items [Some x] = [(u_ptr u, h_cnt x, g)]) by (unfold items, item_of; cbn; rewrite Ex, Eu; reflexivity).
    rewrite Eit in *. rewrite rev_app_distr. cbn [rev app].
    (* the list in memory *)
    pose proof B as (junk & _ & HC & _). rewrite T, Et in HC.
    change (t1 ++ Some x :: t2) with (t1 ++ [Some x] ++ t2) in HC. rewrite !items_app, Eit, !rev_app_distr, <- app_assoc in HC.
    apply chain_suffix in HC. cbn [rev app chain] in HC. destruct HC as (_ & C2 & C3 & C4 & C5 & r & C6 & C7).
    rewrite app_length in Hf. cbn [length] in Hf.
    destruct fuel as [|fuel]; [lia|]. cbn [busy_loop]. apply runs_bind. unfold busy_drop.
    assert (LD : forall a n v (Q : Z -> D -> Prop) P R, a mod 8 = 0 -> load (bmem (fst d)) a n = Some v -> Q v d -> runs (on_bl (load_at A a n 8)) d Q P R).
    { intros a n v Q P R Ha Hl HQ. unfold runs, on_bl, load_at. rewrite Ha. cbn [Z.eqb]. unfold on_alloc, mload.
      unfold BlinkInv.bmem in Hl. rewrite Hl. destruct d as [s rs]. destruct s; exact HQ. }
    apply runs_bind. eapply LD; [exact C3|exact C4|].
    apply runs_bind. eapply LD; [apply mod_add0; auto; lia|exact C5|].
    apply runs_bind. eapply LD; [apply mod_add0; auto; lia|exact C6|].
    cbv zeta. rewrite (fn_of_ptr g P8). apply runs_bind.
    assert (Hdead' : forall h, may t (length t1) h -> is_dead (u_ptr u :: dead) t h = false).
    { intros h Hm. unfold is_dead. destruct (get h t) as [y|] eqn:Gy; [|reflexivity]. destruct (item_at y) as [p|] eqn:Ey; [|reflexivity].
      destruct Hm as [Hm|Hm]; [|specialize (Hm y Gy); unfold item_at in Ey; rewrite Hm in Ey; discriminate Ey].
      destruct (existsb (Z.eqb p) (u_ptr u :: dead)) eqn:Ee; [exfalso|reflexivity]. apply existsb_exists in Ee. destruct Ee as (a & Ha & E). apply Z.eqb_eq in E. subst a.
      assert (Iy : In y (live t1)) by (rewrite Et, get_low in Gy by exact Hm; apply live_in; exists h; exact Gy).
      destruct (item_in t1 y Iy p Ey) as (c1 & g1 & I1).
      assert (I2 : exists c2 g2, In (p, c2, g2) (items (Some x :: t2))).
      { change (Some x :: t2) with ([Some x] ++ t2). rewrite items_app, Eit. destruct Ha as [<-|Ha]; [exists (h_cnt x), g; left; reflexivity|].
        destruct (Hdead p Ha) as (c2 & g2 & I2). exists c2, g2. right. exact I2. }
      destruct I2 as (c2 & g2 & I2). exact (items_apart _ _ _ _ _ _ _ _ B T Et I1 I2). }
    pose proof (busy_elems_ok (u_ptr u :: dead) (length t1) x g u Hdead' Gx Ex Eu Hp Hpol (Z.to_nat (h_cnt x)) O d false eq_refl B T ltac:(discriminate)) as BE.
    replace (u_ptr u + item_off (g_xalign g) + Z.of_nat 0 * g_xsize g) with (u_ptr u + item_off (g_xalign g)) in BE by lia.
    assert (Ed : map (fun k => (h_id x, elem_at x k)) (seq 0 (Z.to_nat (h_cnt x))) = to_drop [Some x]).
    { unfold to_drop, elems_of. cbn. rewrite Ex, app_nil_r. reflexivity. }
    rewrite Ed in BE. eapply runs_mono; [exact BE| |intros ? []|auto].
    intros bad d1 [G1 Hb]. cbv beta. destruct bad.
    - unfold runs at 1, panic. split; [exact (Hb eq_refl)|]. exists t1, x, []. split; [reflexivity|]. split; [congruence|exact G1].
    - apply runs_ret. cbv beta. pose proof G1 as (B1 & T1 & _).
      assert (Er' : unlink (link r) = match rev (items t1) with [] => None | (p, _, _) :: _ => Some p end).
      { destruct (rev (items t1)) as [|[[p' c'] g'] its']; cbn [chain] in C7; [subst r; reflexivity|].
        destruct C7 as (-> & Hp' & _). unfold unlink, link. replace (p' =? 0) with false by lia. reflexivity. }
      rewrite Er'. eapply runs_mono; [apply (IH (Some x :: t2) (u_ptr u :: dead) fuel d1 Et)|..]; try assumption.
      + intros a Ha. change (Some x :: t2) with ([Some x] ++ t2). rewrite items_app, Eit. destruct Ha as [<-|Ha]; [exists (h_cnt x), g; left; reflexivity|].
        destruct (Hdead a Ha) as (c & g' & Hi). exists c, g'. right. exact Hi.
      + lia.
      + intros u0 d2 G2. cbv beta in G2. rewrite to_drop_app. exact (goes_trans _ _ _ _ _ G1 G2).
      + intros d2 (Py & a & y & b & E & Hy & G2). split; [exact Py|]. exists a, y, (b ++ [Some x]). rewrite E, <- app_assoc. split; [reflexivity|]. split; [exact Hy|].
        change (Some y :: b ++ [Some x]) with ((Some y :: b) ++ [Some x]). rewrite to_drop_app. exact (goes_trans _ _ _ _ _ G1 G2).
      + auto.
  Qed.
End Facts.
