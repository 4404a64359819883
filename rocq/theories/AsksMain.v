(** Which calls an operation of a [Blink] makes. *)
From Verif Require Import Base BaseFacts Alloc AllocFacts History HistoryFacts Blink BlinkInv BlinkReset BlinkIter BlinkMain BlinkEnv BlinkYield BlinkProps Param BlinkParam
  Asks AsksFacts AsksCollect.

Section Main.
  Variable E : env.
  Notation EN := (noting E).

  Lemma makes_ends {B} (m : M (bl (e_W EN)) B) P Pp s s' : makes m P Pp -> (exists b, m s = ORet b s') \/ m s = OPanic s' ->
    exists new, notes s' = new ++ notes s /\ ((exists b, m s = ORet b s' /\ P b new) \/ (m s = OPanic s' /\ Pp new)).
  Proof.
    intros H Hs. specialize (H s). destruct Hs as [[b Hs]|Hs]; rewrite Hs in H; destruct H as (new & Hn & HP); exists new; (split; [exact Hn|]).
    - left. exists b. auto.
    - right. auto.
  Qed.

  Lemma emplace_asks k tr T r e out s s' : ty_okb T && res_okb T r && res_okb T e && match out with COk v => value_okb T v | _ => true end = true ->
    ends (erun1 EN (BEmplace k tr T r e BNil out) s) s' ->
    exists new, notes s' = new ++ notes s /\
      ((erun1 EN (BEmplace k tr T r e BNil out) s = ORet tt s' /\ placing (placed_lay k T e) out new) \/
       (erun1 EN (BEmplace k tr T r e BNil out) s = OPanic s' /\ at_most (placed_lay k T e) new)).
  Proof.
    intros Hok Hs. destruct (makes_ends (erun1 EN (BEmplace k tr T r e BNil out)) (fun _ => placing (placed_lay k T e) out) (at_most (placed_lay k T e)) s s') as (new & Hn & H).
    - unfold erun1. cbn [bstep]. rewrite Hok. cbn [brun]. apply m_emplace.
    - destruct Hs as [Hs|Hs]; eauto.
    - exists new. split; [exact Hn|]. destruct H as [(b & H1 & H2)|H]; [left|right; exact H]. destruct b. auto.
  Qed.
  Lemma makes_both {B} (m : M (bl (e_W EN)) B) (P : list uevent -> Prop) s s' : makes m (fun _ => P) P -> (exists b, m s = ORet b s') \/ m s = OPanic s' ->
    exists new, notes s' = new ++ notes s /\ P new.
  Proof. intros H Hs. destruct (makes_ends m _ _ s s' H Hs) as (new & Hn & [(b & _ & HP)|(_ & HP)]); eauto. Qed.
  Lemma ends_or {W} (o : outcome W unit) s' : ends o s' -> (exists b, o = ORet b s') \/ o = OPanic s'.
  Proof. intros [H|H]; eauto. Qed.

  Lemma copy_asks tr T vs s s' : ends (erun1 EN (BCopy tr T vs) s) s' -> exists new, notes s' = new ++ notes s /\
    (new = [] \/ exists a, new = [EvAlloc (mkLayout (Z.of_nat (length vs) * t_size T) (t_align T)) a]).
  Proof.
    intros Hs. eapply makes_both; [|apply ends_or; exact Hs]. unfold erun1. cbn [bstep]. destruct (_ && _).
    - eapply makes_mono; [apply m_copy| |]; [intros b new H; right; exact H|intros new H; exact H].
    - apply makes_ret. left. reflexivity.
  Qed.
  Lemma uninit_asks tr T s s' : ends (erun1 EN (BUninit tr T) s) s' -> exists new, notes s' = new ++ notes s /\
    (new = [] \/ exists a, new = [EvAlloc (mkLayout (t_size T) (t_align T)) a]).
  Proof.
    intros Hs. eapply makes_both; [|apply ends_or; exact Hs]. unfold erun1. cbn [bstep]. destruct (ty_okb T).
    - eapply makes_mono; [apply m_uninit| |]; [intros b new H; right; exact H|intros new H; exact H].
    - apply makes_ret. left. reflexivity.
  Qed.
  Lemma quiet o s s' : match o with BSet _ _ _ | BReset | BDropAll => true | _ => false end = true -> ends (erun1 EN o s) s' -> notes s' = notes s.
  Proof.
    intros Ho Hs. destruct (makes_both (erun1 EN o) (fun new => new = []) s s') as (new & -> & ->); [|apply ends_or; exact Hs|reflexivity].
    unfold erun1. destruct o; try discriminate Ho; cbn [bstep].
    - apply s_set_elem.
    - unfold blink_reset_all. apply s_bind; [apply s_reset|]. intros _. apply s_unnoted.
    - apply s_reset.
  Qed.

  Lemma sized_run k tr T it (P : list uevent -> Prop) s s' : P [] ->
    (script_okb T it = true -> makes (from_iter_sized (e_A EN) (e_dbg E) (e_bomb E) k tr T (biter (e_A EN) (e_reset EN) (e_dbg E) (e_bomb E) it)) (fun _ => P) P) ->
    0 < t_size T -> ends (erun1 EN (BFromIter k tr T it) s) s' -> exists new, notes s' = new ++ notes s /\ P new.
  Proof.
    intros H0 H Ht Hs. eapply makes_both; [|apply ends_or; exact Hs]. unfold erun1. cbn [bstep]. destruct (ty_okb T && script_okb T it) eqn:Eok.
    - apply andb_true_iff in Eok. unfold from_iter. destruct (Z.eqb_spec (t_size T) 0); [lia|]. apply H, Eok.
    - apply makes_ret. exact H0.
  Qed.
  Lemma collect_asks k tr T it s s' : 0 < t_size T -> plain it = true -> truthful it = true -> ends (erun1 EN (BFromIter k tr T it) s) s' ->
    exists new, notes s' = new ++ notes s /\ one_block new /\
      Forall (fun ev => wanted ev <= array_off (dropping k T) T + (2 * Z.of_nat (lead it) + 16) * t_size T /\
        wanted_align ev = array_align (dropping k T) T) new /\
      ((length new <= 1)%nat \/ 9 * 2 ^ (Z.of_nat (length new) - 2) <= Z.of_nat (lead it)).
  Proof.
    intros Ht Hp Htr Hs. destruct (sized_run k tr T it (few k T (Z.of_nat (lead it))) s s') as (new & Hn & H1 & H2 & H3); auto.
    - split; [exact I|]. split; [constructor|]. left. cbn. lia.
    - intros Hok. apply (m_sized (e_A E) (e_reset E) (e_dbg E) (e_bomb E) k tr T it Ht). split; auto.
    - exists new. split; [exact Hn|]. split; [exact H1|]. split; [exact H2|]. destruct H3 as [H3|(i & -> & H3)]; [left; exact H3|right].
      replace (Z.of_nat (S (S i)) - 2) with (Z.of_nat i) by lia. exact H3.
  Qed.
  Lemma exact_asks k tr T it s s' : 0 < t_size T -> plain it = true -> truthful it = true -> lower it = Z.of_nat (lead it) ->
    ends (erun1 EN (BFromIter k tr T it) s) s' -> exists new, notes s' = new ++ notes s /\
      (new = [] \/ (1 <= Z.of_nat (lead it) /\ exists lay r, new = [EvAlloc lay r] /\
         l_size lay = array_off (dropping k T) T + Z.max (Z.of_nat (lead it)) 8 * t_size T)).
  Proof.
    intros Ht Hp Htr Hl Hs. destruct (sized_run k tr T it (once k T (lower it)) s s') as (new & Hn & H); auto.
    - left. reflexivity.
    - intros Hok. apply (m_once (e_A E) (e_reset E) (e_dbg E) (e_bomb E) k tr T it Ht); [split; auto|exact Hl].
    - exists new. split; [exact Hn|]. destruct H as [H|(H & lay & r & [H1 _] & H2)]; [left; exact H|right]. rewrite <- Hl. split; [exact H|]. exists lay, r. auto.
  Qed.
  Lemma nothing_asks k tr T it s s' : 0 < t_size T -> plain it = true -> truthful it = true -> lead it = O ->
    ends (erun1 EN (BFromIter k tr T it) s) s' -> notes s' = notes s.
  Proof.
    intros Ht Hp Htr Hl Hs. destruct (sized_run k tr T it none s s') as (new & -> & ->); auto.
    - reflexivity.
    - intros Hok. apply (m_nothing (e_A E) (e_reset E) (e_dbg E) (e_bomb E) k tr T it Ht); [split; auto|exact Hl].
  Qed.
  Lemma zst_asks k tr T it s s' : t_size T = 0 -> plain it = true -> ends (erun1 EN (BFromIter k tr T it) s) s' ->
    exists new, notes s' = new ++ notes s /\ (new = [] \/ (dropping k T = true /\ exists r, new = [EvAlloc (head_layout T) r])).
  Proof.
    intros Ht Hp Hs. eapply makes_both; [|apply ends_or; exact Hs]. unfold erun1. cbn [bstep]. destruct (_ && _); [|apply makes_ret; left; reflexivity].
    unfold from_iter. rewrite Ht. cbn [Z.eqb]. apply (m_zst (e_A E) (e_reset E) (e_dbg E) (e_bomb E) k tr T it Hp).
  Qed.

  (** ** Taking notes changes nothing *)
  Definition forget_in (w : e_W EN) (w0 : e_W E) : Prop := w0 = fst w.
  Definition forget_out (w0 : e_W E) (w : e_W EN) : Prop := w0 = fst w.
  Lemma note_like {B} (m : M (e_W E) B) ev : like forget_in (note m ev) m /\ like forget_out m (note m ev).
  Proof.
    split; intros w1 w2 H; unfold forget_in, forget_out in H; subst; unfold note.
    - destruct (m (fst w1)); eauto; eexists; split; reflexivity.
    - destruct (m (fst w2)); eauto; eexists; split; reflexivity.
  Qed.
  Lemma unnote_like (m : M (e_W E) unit) : like forget_in (unnoted m) m /\ like forget_out m (unnoted m).
  Proof.
    split; intros w1 w2 H; unfold forget_in, forget_out in H; subst; unfold unnoted.
    - destruct (m (fst w1)); eauto; eexists; split; reflexivity.
    - destruct (m (fst w2)); eauto; eexists; split; reflexivity.
  Qed.
  Lemma in_alike : alike forget_in (e_A EN) (e_A E).
  Proof.
    constructor; intros; try (apply note_like); intros w1 w2 H; unfold forget_in in H; subst; unfold mload, mstore, mfill, mcopy, mwrite; cbn.
    - destruct (load _ _ _); [eexists; split; reflexivity|exact I].
    - eexists; split; reflexivity.
    - eexists; split; reflexivity.
    - destruct (_ || _); [eexists; split; reflexivity|exact I].
    - eexists; split; reflexivity.
  Qed.
  Lemma out_alike : alike forget_out (e_A E) (e_A EN).
  Proof.
    constructor; intros; try (apply note_like); intros w1 w2 H; unfold forget_out in H; subst; unfold mload, mstore, mfill, mcopy, mwrite; cbn.
    - destruct (load _ _ _); [eexists; split; reflexivity|exact I].
    - eexists; split; reflexivity.
    - eexists; split; reflexivity.
    - destruct (_ || _); [eexists; split; reflexivity|exact I].
    - eexists; split; reflexivity.
  Qed.
  Lemma strip_twins s : twins forget_in s (strip s).
  Proof. repeat split. Qed.
  Lemma twins_strip s s0 : twins forget_in s s0 -> s0 = strip s.
  Proof. intros (H1 & H2 & H3 & H4). destruct s0 as [w r t l]. cbn in *. unfold strip. unfold forget_in in H1. congruence. Qed.
  Lemma run_strip os s : erun E os (strip s) = omap strip (erun EN os s).
  Proof.
    pose proof (main_likes forget_in _ _ in_alike (e_reset EN) (e_reset E) (proj1 (unnote_like (e_reset E))) (e_dbg E) (e_bomb E) os s (strip s) (strip_twins s)) as H.
    unfold erun. change (e_dbg EN) with (e_dbg E). change (e_bomb EN) with (e_bomb E).
    destruct (bmain (e_A EN) (e_reset EN) (e_dbg E) (e_bomb E) os s) as [b s1|s1| |] eqn:Er; cbn [omap].
    - destruct H as (s2 & -> & H). rewrite (twins_strip _ _ H). reflexivity.
    - destruct H as (s2 & -> & H). rewrite (twins_strip _ _ H). reflexivity.
    - exact H.
    - clear H.
      assert (Ht : twins forget_out (strip s) s) by (repeat split).
      pose proof (main_likes forget_out _ _ out_alike (e_reset E) (e_reset EN) (proj2 (unnote_like (e_reset E))) (e_dbg E) (e_bomb E) os (strip s) s Ht) as H.
      rewrite Er in H. destruct (bmain (e_A E) (e_reset E) (e_dbg E) (e_bomb E) os (strip s)) as [b s1|s1| |]; [destruct H as (? & H & _); discriminate H|destruct H as (? & H & _); discriminate H|discriminate H|reflexivity].
  Qed.
End Main.
