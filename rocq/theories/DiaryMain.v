(** Erasing the diary; what a [Blink] does where there is room (C85). *)
From Verif Require Import Base BaseFacts Alloc AllocFacts Arena ArenaInv BlinkAlloc BlinkFacts History HistoryFacts Setup SetupFacts
  Blink BlinkInv BlinkIter BlinkMain BlinkEnv BlinkYield BlinkProps Param BlinkParam Asks AsksFacts AsksCollect AsksMain Paper PaperFacts Diary DiaryFacts.

(** ** Keeping a diary changes nothing *)
Section Erase.
  Variable E : env.
  Notation ED := (diary E).
  Definition undiary_in (w : e_W ED) (w0 : e_W E) : Prop := w0 = fst w.
  Definition undiary_out (w0 : e_W E) (w : e_W ED) : Prop := w0 = fst w.
  Lemma jot_like {B} (m : M (e_W E) B) ev : like undiary_in (jot m ev) m /\ like undiary_out m (jot m ev).
  Proof.
    split; intros w1 w2 H; unfold undiary_in, undiary_out in H; subst; unfold jot.
    - destruct (m (fst w1)); eauto; eexists; split; reflexivity.
    - destruct (m (fst w2)); eauto; eexists; split; reflexivity.
  Qed.
  Lemma unjot_like (m : M (e_W E) unit) : like undiary_in (unjotted m) m /\ like undiary_out m (unjotted m).
  Proof.
    split; intros w1 w2 H; unfold undiary_in, undiary_out in H; subst; unfold unjotted.
    - destruct (m (fst w1)); eauto; eexists; split; reflexivity.
    - destruct (m (fst w2)); eauto; eexists; split; reflexivity.
  Qed.
  Lemma undiary_reset : like undiary_in (e_reset ED) (e_reset E) /\ like undiary_out (e_reset E) (e_reset ED).
  Proof. unfold diary. cbn [e_reset]. destruct (e_shared E); [apply unjot_like|apply jot_like]. Qed.
  Lemma undiary_in_alike : alike undiary_in (e_A ED) (e_A E).
  Proof.
    constructor; intros; try (apply jot_like); intros w1 w2 H; unfold undiary_in in H; subst; unfold mload, mstore, mfill, mcopy, mwrite; cbn.
    - destruct (load _ _ _); [eexists; split; reflexivity|exact I].
    - eexists; split; reflexivity.
    - eexists; split; reflexivity.
    - destruct (_ || _); [eexists; split; reflexivity|exact I].
    - eexists; split; reflexivity.
  Qed.
  Lemma undiary_out_alike : alike undiary_out (e_A E) (e_A ED).
  Proof.
    constructor; intros; try (apply jot_like); intros w1 w2 H; unfold undiary_out in H; subst; unfold mload, mstore, mfill, mcopy, mwrite; cbn.
    - destruct (load _ _ _); [eexists; split; reflexivity|exact I].
    - eexists; split; reflexivity.
    - eexists; split; reflexivity.
    - destruct (_ || _); [eexists; split; reflexivity|exact I].
    - eexists; split; reflexivity.
  Qed.
  Lemma undiaried_twins s : twins undiary_in s (undiaried s).
  Proof. repeat split. Qed.
  Lemma twins_undiaried s s0 : twins undiary_in s s0 -> s0 = undiaried s.
  Proof. intros (H1 & H2 & H3 & H4). destruct s0 as [w r t l]. cbn in *. unfold undiaried. unfold undiary_in in H1. congruence. Qed.
  Lemma run_undiaried os s : erun E os (undiaried s) = omap undiaried (erun ED os s).
  Proof.
    pose proof (main_likes undiary_in _ _ undiary_in_alike (e_reset ED) (e_reset E) (proj1 undiary_reset) (e_dbg E) (e_bomb E) os s (undiaried s) (undiaried_twins s)) as H.
    unfold erun. change (e_dbg ED) with (e_dbg E). change (e_bomb ED) with (e_bomb E).
    destruct (bmain (e_A ED) (e_reset ED) (e_dbg E) (e_bomb E) os s) as [b s1|s1| |] eqn:Er; cbn [omap].
    - destruct H as (s2 & -> & H). rewrite (twins_undiaried _ _ H). reflexivity.
    - destruct H as (s2 & -> & H). rewrite (twins_undiaried _ _ H). reflexivity.
    - exact H.
    - clear H.
      assert (Ht : twins undiary_out (undiaried s) s) by (repeat split).
      pose proof (main_likes undiary_out _ _ undiary_out_alike (e_reset E) (e_reset ED) (proj2 undiary_reset) (e_dbg E) (e_bomb E) os (undiaried s) s Ht) as H.
      rewrite Er in H. destruct (bmain (e_A E) (e_reset E) (e_dbg E) (e_bomb E) os (undiaried s)) as [b s1|s1| |]; [destruct H as (? & H & _); discriminate H|destruct H as (? & H & _); discriminate H|discriminate H|reflexivity].
  Qed.

  (** ** Operations without resets: diary and notes say the same *)
  Notation EN := (noting E).
  Definition tells (ds0 : list dev) (w : e_W ED) (w' : e_W EN) : Prop := fst w = fst w' /\ snd w = map Asked (snd w') ++ ds0.
  Lemma tells_jot ds0 {B} (m : M (e_W E) B) ev : like (tells ds0) (jot m (fun b => Asked (ev b))) (note m ev).
  Proof.
    intros [w1 d1] [w2 n2] [H1 H2]. cbn [fst snd] in *. subst. unfold jot, note. cbn [fst snd].
    destruct (m w2); eauto; eexists; (split; [reflexivity|]); split; reflexivity.
  Qed.
  Lemma tells_alike ds0 : alike (tells ds0) (e_A ED) (e_A EN).
  Proof.
    constructor; intros; try (apply tells_jot); intros [w1 d1] [w2 n2] [H1 H2]; cbn [fst snd] in *; subst; unfold mload, mstore, mfill, mcopy, mwrite; cbn.
    - destruct (load _ _ _); [eexists; split; [reflexivity|split; reflexivity]|exact I].
    - eexists; split; [reflexivity|split; reflexivity].
    - eexists; split; [reflexivity|split; reflexivity].
    - destruct (_ || _); [eexists; split; [reflexivity|split; reflexivity]|exact I].
    - eexists; split; [reflexivity|split; reflexivity].
  Qed.
  Lemma tells_unjot ds0 (m : M (e_W E) unit) : like (tells ds0) (unjotted m) (unnoted m).
  Proof.
    intros [w1 d1] [w2 n2] [H1 H2]. cbn [fst snd] in *. subst. unfold unjotted, unnoted. cbn [fst snd].
    destruct (m w2); eauto; eexists; (split; [reflexivity|]); split; reflexivity.
  Qed.

  (** Only [Blink::reset] resets the allocator: in closures and iterators it cannot be called. *)
  Definition no_reset (o : bop) : bool := match o with BReset => false | _ => true end.
  Lemma same_nested {W} (A : Allocator W) r1 r2 dbg bomb :
    (forall o, bstep A r1 dbg bomb true o = bstep A r2 dbg bomb true o /\ (no_reset o = true -> bstep A r1 dbg bomb false o = bstep A r2 dbg bomb false o)).
  Proof.
    apply (bop_mind (fun o => bstep A r1 dbg bomb true o = bstep A r2 dbg bomb true o /\ (no_reset o = true -> bstep A r1 dbg bomb false o = bstep A r2 dbg bomb false o))
      (fun os => brun A r1 dbg bomb os = brun A r2 dbg bomb os) (fun it => biter A r1 dbg bomb it = biter A r2 dbg bomb it)).
    - intros k tr T r e body IH out.
      assert (X : forall n r0, bstep A r0 dbg bomb n (BEmplace k tr T r e body out) =
        if legal (BEmplace k tr T r e body out) then emplace A bomb k tr T r e (brun A r0 dbg bomb body) out else ret tt) by reflexivity.
      rewrite !X, IH. auto.
    - auto.
    - auto.
    - intros k tr T it IH.
      assert (X : forall n r0, bstep A r0 dbg bomb n (BFromIter k tr T it) =
        if legal (BFromIter k tr T it) then from_iter A dbg bomb k tr T (biter A r0 dbg bomb it) else ret tt) by reflexivity.
      rewrite !X, IH. auto.
    - auto.
    - split; [reflexivity|discriminate].
    - auto.
    - reflexivity.
    - intros o [H _] os IH.
      assert (X : forall r0, brun A r0 dbg bomb (BCons o os) = (bstep A r0 dbg bomb true o ;;; brun A r0 dbg bomb os)) by reflexivity.
      rewrite !X, H, IH. reflexivity.
    - reflexivity.
    - intros lo up body IH out rest IHr.
      assert (X : forall r0, biter A r0 dbg bomb (SNext lo up body out rest) =
        ((lo, up, (brun A r0 dbg bomb body ;;; match out with NSome v => ret (Some v) | NNone => ret None | NPanic => panic end)) :: fst (biter A r0 dbg bomb rest),
         snd (biter A r0 dbg bomb rest))) by reflexivity.
      rewrite !X, IH, IHr. reflexivity.
  Qed.
  Lemma same_step {W} (A : Allocator W) r1 r2 dbg bomb o : no_reset o = true -> bstep A r1 dbg bomb false o = bstep A r2 dbg bomb false o.
  Proof. apply same_nested. Qed.
  Lemma told o s s' : no_reset o = true -> ends (erun1 ED o s) s' ->
    exists n' : bl (e_W EN), ends (erun1 EN o (mkBl (fst (bl_w s), []) (bl_root s) (bl_tab s) (bl_log s))) n' /\ entries s' = map Asked (notes n') ++ entries s.
  Proof.
    intros Ho Hs. set (n := mkBl (fst (bl_w s), []) (bl_root s) (bl_tab s) (bl_log s) : bl (e_W EN)).
    assert (Ht : twins (tells (entries s)) s n) by (repeat split).
    pose proof (step_likes (tells (entries s)) _ _ (tells_alike (entries s)) (unjotted (e_reset E)) (unnoted (e_reset E)) (tells_unjot (entries s) (e_reset E))
      (e_dbg E) (e_bomb E) o false s n Ht) as H.
    unfold erun1 in Hs. change (e_dbg ED) with (e_dbg E) in Hs. change (e_bomb ED) with (e_bomb E) in Hs.
    rewrite (same_step (e_A ED) (e_reset ED) (unjotted (e_reset E)) _ _ o Ho) in Hs.
    destruct Hs as [Hs|Hs]; rewrite Hs in H; destruct H as (n' & Hn & (_ & Ht') & _); exists n'; (split; [|exact Ht']); [left|right]; exact Hn.
  Qed.

  (** ** When there is an entry about a reset *)
  Lemma others_do_not_clear o s s' : no_reset o = true -> ends (erun1 ED o s) s' -> exists new, entries s' = map Asked new ++ entries s.
  Proof. intros Ho H. destruct (told o s s' Ho H) as (n' & _ & En). eauto. Qed.
  Lemma reset_clears s s' : (erun1 ED BReset s = ORet tt s' -> entries s' = (if e_shared E then [] else [Cleared]) ++ entries s) /\
    (erun1 ED BReset s = OPanic s' -> entries s' = entries s).
  Proof.
    assert (X : erun1 ED BReset = (erun1 ED BDropAll ;;; on_alloc (e_reset ED))) by reflexivity. rewrite X.
    assert (Q : forall s1, ends (erun1 ED BDropAll s) s1 -> entries s1 = entries s).
    { intros s1 H. destruct (told BDropAll s s1 eq_refl H) as (n' & Hn & En). pose proof (quiet E BDropAll _ n' eq_refl Hn) as Hq.
      rewrite Hq in En. exact En. }
    unfold bind. destruct (erun1 ED BDropAll s) as [[] s1|s1| |] eqn:Ed; try (split; discriminate).
    - specialize (Q s1 (or_introl eq_refl)). unfold on_alloc. cbn [diary e_reset]. destruct (e_shared E); unfold unjotted, jot.
      + destruct (e_reset E (fst (bl_w s1))) as [[] w|w| |]; (split; [intros H|intros H]); try discriminate H; injection H as <-; exact Q.
      + destruct (e_reset E (fst (bl_w s1))) as [[] w|w| |]; (split; [intros H|intros H]); try discriminate H; injection H as <-.
        * unfold entries at 1. cbn [bl_w snd app]. f_equal. exact Q.
        * exact Q.
    - split; [discriminate|]. intros H. injection H as <-. apply Q. right. reflexivity.
  Qed.
  Lemma when_cleared o s s' : ends (erun1 ED o s) s' ->
    match o with
    | BReset => (erun1 ED o s = ORet tt s' /\ entries s' = (if e_shared E then [] else [Cleared]) ++ entries s) \/
                (erun1 ED o s = OPanic s' /\ entries s' = entries s)
    | _ => exists new, entries s' = map Asked new ++ entries s
    end.
  Proof.
    intros H. destruct o; try (refine (others_do_not_clear _ s s' _ H); reflexivity). destruct (reset_clears s s') as [H1 H2].
    destruct H as [H|H]; [left|right]; auto.
  Qed.
End Erase.

(** ** On paper *)
Section Replay.
  Variables (min : Z) (S : strategy).
  Notation rp := (replays min S).
  Notation pr := (prescribed min S).

  Lemma prescribed_fun d c c1 c2 : pr d c c1 -> pr d c c2 -> c1 = c2.
  Proof.
    destruct c1 as [k1 t1], c2 as [k2 t2]. destruct d as [[l r|p l|p old new r]|]; cbn [prescribed fst snd].
    - intros (a1 & H1 & _) (a2 & H2 & _). congruence.
    - congruence.
    - congruence.
    - congruence.
  Qed.
  Lemma replays_fun ds : forall c c1 c2, rp ds c c1 -> rp ds c c2 -> c1 = c2.
  Proof.
    induction ds as [|d ds IH]; cbn [replays]; intros c c1 c2; [congruence|].
    intros (x & H1 & H2) (y & H3 & H4). rewrite (IH _ _ _ H1 H3) in H2. exact (prescribed_fun _ _ _ _ H2 H4).
  Qed.
  Lemma replays_app b c0 c : forall a, rp (a ++ b) c0 c -> exists c1, rp b c0 c1 /\ rp a c1 c.
  Proof.
    intros a. revert c. induction a as [|d a IH]; cbn [replays app]; intros c H.
    - exists c. auto.
    - destruct H as (x & H & Hd). destruct (IH _ H) as (c1 & H1 & H2). exists c1. split; [exact H1|]. exists x. auto.
  Qed.

  Lemma take_room k older l tr n : l_size l <= n -> room k n (l_align l) ->
    take min S (k :: older) l tr = (Some (least_multiple (p_free k) (l_align l)), mkP (p_at k) (p_len k) (least_multiple (p_free k) (l_align l) + l_size l) :: older, tr).
  Proof.
    intros Hn [H1 H2]. unfold take. destruct (Z.leb_spec (p_free k + (l_size l + (l_align l - 1))) USIZE_MAX); [|lia].
    destruct (Z.leb_spec (least_multiple (p_free k) (l_align l) + l_size l) (p_end k)); [|lia]. reflexivity.
  Qed.

  (** All requests for one block are served in the newest chunk. *)
  Lemma stays k older tr n al evs : room k n al -> one_block evs -> Forall (fun ev => wanted ev <= n /\ wanted_align ev = al) evs ->
    forall c, rp (map Asked evs) (k :: older, tr) c ->
      snd c = tr /\ Forall (answered_at (least_multiple (p_free k) al)) evs /\
      fst c = match evs with [] => k :: older | ev :: _ => mkP (p_at k) (p_len k) (least_multiple (p_free k) al + wanted ev) :: older end.
  Proof.
    intros Hr. set (a := least_multiple (p_free k) al). induction evs as [|ev evs IH]; intros Ho Hf c Hc; cbn [map replays] in Hc.
    - subst c. repeat split. constructor.
    - destruct Hc as (c1 & Hc1 & Hd). pose proof (Forall_inv Hf) as [Hw Ha]. pose proof (Forall_inv_tail Hf) as Hf'.
      destruct ev as [l r|p l|p old new r].
      + assert (evs = []) as -> by (destruct evs as [|[] ?]; [reflexivity|destruct Ho..]). cbn [map replays] in Hc1. subst c1.
        cbn [prescribed fst snd wanted wanted_align] in *. subst al. destruct Hd as (x & Hd & ->).
        rewrite (take_room k older l tr n Hw Hr) in Hd. fold a in Hd. injection Hd as <- Hd1 Hd2. destruct c as [ks t]. cbn [fst snd] in *. subst.
        split; [reflexivity|]. split; [|reflexivity]. constructor; [|constructor]. reflexivity.
      + destruct Ho.
      + cbn [prescribed wanted wanted_align] in *. subst al.
        assert (Hp : exists ev b, hd_error evs = Some ev /\ answered_at (b_ptr b) ev /\ p = b_ptr b /\ wanted ev = l_size old /\ wanted_align ev = l_align old /\
                  l_size old < l_size new /\ one_block evs).
        { destruct evs as [|[l [b|]|q l|q o l [b|]] evs]; cbn [one_block] in Ho; try contradiction.
          - destruct Ho as (-> & -> & Ho1 & Ho). pose proof (IH Ho Hf' _ Hc1) as (_ & X & _). pose proof (Forall_inv X) as X1. cbn [answered_at] in X1. injection X1 as ->.
            exists (EvAlloc l (Some (mkBlock a (l_size l)))), (mkBlock a (l_size l)). repeat split; auto.
          - destruct Ho as (-> & -> & Ho1 & Ho). pose proof (IH Ho Hf' _ Hc1) as (_ & X & _). pose proof (Forall_inv X) as X1. cbn [answered_at] in X1. injection X1 as ->.
            exists (EvResize q o l (Some (mkBlock a (l_size l)))), (mkBlock a (l_size l)). repeat split; auto. }
        destruct Hp as (ev & b & He & Hb & -> & Hw1 & Ha1 & Hlt & Ho'). destruct evs as [|ev' evs]; [discriminate He|]. injection He as ->.
        destruct (IH Ho' Hf' _ Hc1) as (H1 & H2 & H3). pose proof (Forall_inv Hf') as [Hw2 Ha2].
        assert (b_ptr b = a) as Eb.
        { pose proof (Forall_inv H2) as X. destruct ev as [l r'|q l|q o l r']; cbn [answered_at] in *; congruence. }
        rewrite Eb in Hd. destruct c1 as [ks1 t1]. cbn [fst snd] in *. subst ks1 t1. unfold moves in Hd.
        rewrite Hw1 in Hd. rewrite Ha2 in Ha1.
        destruct (Z.leb_spec (l_align new) (l_align old)); [|lia]. destruct (Z.leb_spec (l_size new) (l_size old)); [lia|].
        cbn [p_free p_at p_len] in Hd. rewrite Z.eqb_refl in Hd. change (p_end (mkP (p_at k) (p_len k) (a + l_size old))) with (p_end k) in Hd.
        assert (a + l_size new <= p_end k) as Hroom by (destruct Hr; unfold a; lia).
        apply Z.leb_le in Hroom. rewrite Hroom in Hd. cbn [andb] in Hd. injection Hd as <- Hd1 Hd2. destruct c as [ks t]. cbn [fst snd] in *. subst.
        split; [reflexivity|]. split; [|reflexivity]. constructor; [reflexivity|exact H2].
  Qed.
End Replay.

Section Where.
  Variable su : setup.
  Hypothesis Hok : setup_ok su.
  Hypothesis Hs : ISIZE_MAX <= su_smax su.
  Variables (bomb : Z -> Z -> bool) (shared : bool).
  Notation D := (diary (backed su bomb shared)).
  Notation rp := (replays (su_min su) (su_strat su)).

  (** The books after one more operation. *)
  Lemma one_more ops rs st os s o s' ks : do_run su ops (start su) = ORet rs st -> shared = true \/ live (c_tab st) = [] ->
    forallb (sound true) os = true -> erun D os (bl_new (c_w st, [])) = ORet tt s -> sound true o = true -> ends (erun1 D o s) s' ->
    let p := snd (paper_run (su_min su) (su_smax su) (su_strat su) ops paper0) in
    rp (entries s) (p_chunks p, p_calls p) (ks, bw_trace (snd (fst (bl_w s)))) ->
    forall new, entries s' = new ++ entries s ->
    exists ks', rp new (ks, bw_trace (snd (fst (bl_w s)))) (ks', bw_trace (snd (fst (bl_w s')))).
  Proof.
    intros Hrun Hf Ho Hr Hso He p Hks new Hn.
    assert (Er : exists s2, erun D (os ++ [o]) (bl_new (c_w st, [])) = ORet tt s2 /\ bl_w s2 = bl_w s').
    { assert (X : forall os w, erun D os w = ORet tt s -> exists s2, erun D (os ++ [o]) w = ORet tt s2 /\ bl_w s2 = bl_w s').
      { clear Hr Ho. induction os0 as [|o' os0 IH]; intros w Hw.
        - injection Hw as ->. unfold erun. cbn [app bmain]. unfold bind, Blink.caught. unfold erun1 in He.
          destruct He as [He|He]; rewrite He; eexists; (split; [reflexivity|]); reflexivity.
        - unfold erun in Hw |- *. cbn [app bmain] in Hw |- *. unfold bind in Hw |- *. destruct (Blink.caught _ w) as [u w2|w2| |] eqn:Ew; try discriminate Hw.
          exact (IH w2 Hw). }
      exact (X os _ Hr). }
    destruct Er as (s2 & Er & Ew).
    destruct (diary_exact su bomb shared ops rs st (os ++ [o]) s2 Hok Hs Hrun Hf) as (ks2 & R2 & _).
    { rewrite forallb_app, Ho. cbn [forallb]. rewrite Hso. reflexivity. }
    { exact Er. }
    assert (E1 : entries s2 = new ++ entries s) by exact (eq_trans (f_equal snd Ew) Hn).
    assert (E2 : bw_trace (snd (fst (bl_w s2))) = bw_trace (snd (fst (bl_w s')))) by exact (f_equal (fun w => bw_trace (snd (fst w))) Ew).
    rewrite E1, E2 in R2. destruct (replays_app _ _ _ _ _ _ R2) as (c1 & R3 & R4).
    rewrite (replays_fun _ _ _ _ _ _ R3 Hks) in R4. exists ks2. exact R4.
  Qed.

  Lemma ended_fused it : ended it = true -> fused it = true.
  Proof. induction it as [|lo up body [v| |] rest IH]; cbn; auto. discriminate. Qed.
  Lemma truthful_fused it : truthful it = true -> fused it = true.
  Proof.
    induction it as [|lo up body out rest IH]; [reflexivity|]. cbn [truthful]. intros H. apply andb_true_iff in H. destruct H as [H Hr].
    apply andb_true_iff in H. destruct H as [_ H]. destruct out; cbn [fused]; auto.
  Qed.
  Lemma sound_plain k tr T it : plain it = true -> truthful it = true -> sound true (BFromIter k tr T it) = true.
  Proof.
    intros Hp Ht. apply truthful_fused in Ht. assert (X : sound_script true it = true).
    { clear Ht. induction it as [|lo up body out rest IH]; [reflexivity|]. cbn [plain] in Hp. destruct body; [|discriminate Hp]. cbn [sound_script sounds]. exact (IH Hp). }
    cbn [sound]. rewrite X, Ht. destruct (_ =? 0), (dropping k T); reflexivity.
  Qed.

  (** Collecting where there is room. *)
  Lemma collect_stays ops rs st os s k tr T it s' newest older : do_run su ops (start su) = ORet rs st -> shared = true \/ live (c_tab st) = [] ->
    forallb (sound true) os = true -> erun D os (bl_new (c_w st, [])) = ORet tt s ->
    0 < t_size T -> plain it = true -> truthful it = true -> ends (erun1 D (BFromIter k tr T it) s) s' ->
    let p := snd (paper_run (su_min su) (su_smax su) (su_strat su) ops paper0) in
    rp (entries s) (p_chunks p, p_calls p) (newest :: older, bw_trace (snd (fst (bl_w s)))) ->
    room newest (array_off (dropping k T) T + (2 * Z.of_nat (lead it) + 16) * t_size T) (array_align (dropping k T) T) ->
    bw_trace (snd (fst (bl_w s'))) = bw_trace (snd (fst (bl_w s))) /\
    exists new, entries s' = map Asked new ++ entries s /\
      Forall (answered_at (least_multiple (p_free newest) (array_align (dropping k T) T))) new.
  Proof.
    intros Hrun Hf Ho Hr Ht Hp Htr He p Hks Hroom.
    destruct (told (backed su bomb shared) (BFromIter k tr T it) s s' eq_refl He) as (n' & Hn & En).
    destruct (collect_asks (backed su bomb shared) k tr T it _ n' Ht Hp Htr Hn) as (new & En' & H1 & H2 & _).
    assert (En2 : notes n' = new) by (etransitivity; [exact En'|apply app_nil_r]). rewrite En2 in En.
    destruct (one_more ops rs st os s (BFromIter k tr T it) s' _ Hrun Hf Ho Hr (sound_plain k tr T it Hp Htr) He Hks _ En) as (ks' & R).
    destruct (stays _ _ newest older _ _ _ new Hroom H1 H2 _ R) as (X1 & X2 & _). cbn [snd] in X1. split; [exact X1|]. exists new. auto.
  Qed.

  (** One value. *)
  Lemma placing_stays newest older t lay out new ks' t' : room newest (l_size lay) (l_align lay) -> placing lay out new \/ at_most lay new ->
    rp (map Asked new) (newest :: older, t) (ks', t') -> t' = t /\ Forall (answered_at (least_multiple (p_free newest) (l_align lay))) new.
  Proof.
    intros Hroom Hn R.
    assert (One : forall a c, rp (map Asked [EvAlloc lay a]) (newest :: older, t) c ->
      a = Some (mkBlock (least_multiple (p_free newest) (l_align lay)) (l_size lay)) /\ snd c = t).
    { intros a c H. assert (Hw : Forall (fun ev => wanted ev <= l_size lay /\ wanted_align ev = l_align lay) [EvAlloc lay a]) by (constructor; [cbn; lia|constructor]).
      destruct (stays _ _ newest older t _ _ [EvAlloc lay a] Hroom Logic.I Hw c H) as (H1 & H2 & _).
      split; [|exact H1]. exact (Forall_inv H2). }
    destruct Hn as [(a & ->)|[->|(a & ->)]].
    - assert (Go : rp (map Asked [EvAlloc lay a]) (newest :: older, t) (ks', t') -> t' = t /\ Forall (answered_at (least_multiple (p_free newest) (l_align lay))) [EvAlloc lay a]).
      { intros H. destruct (One _ _ H) as [-> H2]. split; [exact H2|]. constructor; [reflexivity|constructor]. }
      destruct a as [b|]; [|exact (Go R)]. destruct out as [v|v|]; try exact (Go R).
      cbn [map replays] in R. destruct R as (c1 & R & Hd). destruct (One (Some b) c1 R) as [Eb H2]. injection Eb as ->. cbn [prescribed] in Hd. subst c1. split; [exact H2|].
      constructor; [reflexivity|]. constructor; [reflexivity|constructor].
    - cbn [map replays] in R. injection R as _ ->. split; [reflexivity|constructor].
    - destruct (One _ _ R) as [-> H2]. split; [exact H2|]. constructor; [reflexivity|constructor].
  Qed.

  Lemma value_stays ops rs st os s o lay s' newest older : do_run su ops (start su) = ORet rs st -> shared = true \/ live (c_tab st) = [] ->
    forallb (sound true) os = true -> erun D os (bl_new (c_w st, [])) = ORet tt s ->
    single o = Some lay -> sound true o = true -> ends (erun1 D o s) s' ->
    let p := snd (paper_run (su_min su) (su_smax su) (su_strat su) ops paper0) in
    rp (entries s) (p_chunks p, p_calls p) (newest :: older, bw_trace (snd (fst (bl_w s)))) ->
    room newest (l_size lay) (l_align lay) ->
    bw_trace (snd (fst (bl_w s'))) = bw_trace (snd (fst (bl_w s))) /\
    exists new, entries s' = map Asked new ++ entries s /\ Forall (answered_at (least_multiple (p_free newest) (l_align lay))) new.
  Proof.
    intros Hrun Hf Ho Hr Hsi Hso He p Hks Hroom.
    assert (Hnr : no_reset o = true) by (destruct o as [k tr T r e [] out| | | | | |]; try discriminate Hsi; reflexivity).
    destruct (told (backed su bomb shared) o s s' Hnr He) as (n' & Hn & En).
    assert (Hnew : exists new out, notes n' = new /\ (placing lay out new \/ at_most lay new)).
    { destruct o as [k tr T r e [] out|tr T vs|tr T| | | |]; try discriminate Hsi; cbn [single] in Hsi.
      - destruct (_ && _) eqn:Eok in Hsi; [|discriminate Hsi]. injection Hsi as <-.
        destruct (emplace_asks (backed su bomb shared) k tr T r e out _ n' Eok Hn) as (new & En' & H). exists new, out. split; [etransitivity; [exact En'|apply app_nil_r]|]. tauto.
      - injection Hsi as <-. destruct (copy_asks (backed su bomb shared) tr T vs _ n' Hn) as (new & En' & H). exists new, (CErr 0).
        split; [etransitivity; [exact En'|apply app_nil_r]|]. right. exact H.
      - injection Hsi as <-. destruct (uninit_asks (backed su bomb shared) tr T _ n' Hn) as (new & En' & H). exists new, (CErr 0).
        split; [etransitivity; [exact En'|apply app_nil_r]|]. right. exact H. }
    destruct Hnew as (new & out & En2 & Hnew). rewrite En2 in En.
    destruct (one_more ops rs st os s o s' _ Hrun Hf Ho Hr Hso He Hks _ En) as (ks' & R).
    destruct (placing_stays _ _ _ _ _ _ _ _ Hroom Hnew R) as [X1 X2]. split; [exact X1|]. exists new. auto.
  Qed.
End Where.
