(** How [reset] and [drop_all] end, depending on which destructors panic. *)
From Verif Require Import Base BaseFacts Alloc AllocFacts History HistoryFacts Blink BlinkInv BlinkReset BlinkOps BlinkIter
  BlinkMain BlinkEnv BlinkLog BlinkYield BlinkProps.

Section Fate.
  Context {W : Type} (A : Allocator W) (own : W -> list ublock -> Prop).
  Variable alloc_reset : M W unit.
  Variable bomb : Z -> Z -> bool.
  Notation bmem := (bmem A).

  (** Every way to end; undefined behaviour is none of them. *)
  Definition fate {B} (m : M (bl W) B) (s : bl W) (Q : B -> bl W -> Prop) (P : bl W -> Prop) (R : Prop) : Prop :=
    match m s with ORet b s' => Q b s' | OPanic s' => P s' | OAbort => R | OUB => False end.
  Lemma fate_bind {B C} (m : M (bl W) B) (f : B -> M (bl W) C) s Q P R :
    fate m s (fun b s' => fate (f b) s' Q P R) P R -> fate (bind m f) s Q P R.
  Proof. unfold fate, bind. destruct (m s); auto. Qed.
  Lemma fate_mono {B} (m : M (bl W) B) s (Q Q' : B -> bl W -> Prop) (P P' : bl W -> Prop) (R R' : Prop) :
    fate m s Q P R -> (forall b s', Q b s' -> Q' b s') -> (forall s', P s' -> P' s') -> (R -> R') -> fate m s Q' P' R'.
  Proof. unfold fate. destruct (m s); auto. Qed.

  Definition bads (ds : list (Z * Z)) : nat := length (filter (bad bomb) ds).
  Definition one_if (b : bool) : nat := if b then 1 else 0.

  Lemma drop_elems_fate g vs : forall a pk s,
    readable (bmem s) g a vs ->
    fate (drop_elems A bomb g a (length vs) pk) s
      (fun r s' => s' = with_log s (map edrop (map (fun v => (g_id g, v)) vs)) /\
                   (one_if pk + bads (map (fun v => (g_id g, v)) vs) = one_if r)%nat)
      (fun _ => False)
      (2 <= one_if pk + bads (map (fun v => (g_id g, v)) vs))%nat.
  Proof.
    induction vs as [|v vs IH]; intros a pk s Hr.
    - cbn [length drop_elems]. unfold fate, ret. cbn. rewrite with_log_nil. split; [reflexivity|unfold bads; cbn; lia].
    - cbn [length drop_elems]. apply fate_bind.
      assert (Hv : read_value A (g_tsize g) (a + g_xoff g) s = ORet v s).
      { unfold read_value. pose proof (Hr O v eq_refl) as H0. destruct (g_tsize g =? 0).
        - subst. reflexivity.
        - unfold on_alloc, mload. replace (a + Z.of_nat 0 * g_xsize g + g_xoff g) with (a + g_xoff g) in H0 by lia.
          unfold BlinkInv.bmem in H0. rewrite H0. destruct s; reflexivity. }
      unfold fate at 1. rewrite Hv. apply fate_bind. unfold log, fate at 1.
      assert (Hr' : readable (BlinkInv.bmem A (with_log s [EDrop (g_id g) v])) g (a + g_xsize g) vs).
      { intros i w Hi. specialize (Hr (S i) w Hi). cbn [nth_error] in Hr.
        replace (a + Z.of_nat (S i) * g_xsize g + g_xoff g) with (a + g_xsize g + Z.of_nat i * g_xsize g + g_xoff g) in Hr by lia.
        exact Hr. }
      fold (with_log s [EDrop (g_id g) v]).
      assert (Eb : bads (map (fun v => (g_id g, v)) (v :: vs)) = (one_if (bomb (g_id g) v) + bads (map (fun v => (g_id g, v)) vs))%nat).
      { unfold bads. cbn [map filter]. unfold bad at 1. cbn [fst snd]. destruct (bomb (g_id g) v); reflexivity. }
      rewrite Eb. destruct (bomb (g_id g) v).
      + destruct pk; [unfold fate, abort; cbn [one_if]; lia|].
        eapply fate_mono; [apply IH; exact Hr'| |auto|]; cbn [one_if]; [|lia]. intros r s' [-> E]. rewrite with_log_app.
        split; [reflexivity|lia].
      + eapply fate_mono; [apply IH; exact Hr'| |auto|]; cbn [one_if]; [|lia]. intros r s' [-> E]. rewrite with_log_app.
        split; [reflexivity|lia].
  Qed.

  Lemma bads_exists ds : existsb (bad bomb) ds = negb (Nat.eqb (bads ds) 0).
  Proof. unfold bads. induction ds as [|d ds IH]; [reflexivity|]. cbn [existsb filter]. destruct (bad bomb d); [reflexivity|exact IH]. Qed.
  Lemma bads_app a b : bads (a ++ b) = (bads a + bads b)%nat.
  Proof. unfold bads. rewrite filter_app, app_length. reflexivity. Qed.

  Lemma drop_loop_fate its es : forall fuel r s,
    Forall2 (item_holds (bmem s)) its es -> chain (bmem s) r its -> (length its <= fuel)%nat ->
    fate (drop_loop A bomb fuel r) s
      (fun _ s' => s' = with_log s (map edrop (expected_drops bomb es)) /\ bads (expected_drops bomb es) = 0%nat)
      (fun s' => s' = with_log s (map edrop (expected_drops bomb es)) /\ bads (expected_drops bomb es) = 1%nat)
      (2 <= bads (expected_drops bomb es))%nat.
  Proof.
    revert es. induction its as [|[[p c] g] its IH]; intros es fuel r s HF HC HL.
    - inversion HF; subst. cbn in HC. subst. destruct fuel; cbn [drop_loop]; unfold fate, ret; cbn; rewrite with_log_nil; auto.
    - inversion HF as [|? e ? es' He HF']; subst. cbn [chain] in HC.
      destruct HC as (-> & C2 & C3 & C4 & C5 & r' & C6 & C7).
      destruct fuel as [|fuel]; [cbn in HL; lia|]. cbn [drop_loop].
      destruct e as [[reg id] vs]. destruct He as (-> & G & E1 & E2 & E3 & E4).
      destruct (strip_all vs E3) as [S1 S2].
      apply fate_bind. unfold drops_drop.
      assert (LD : forall a n v, a mod 8 = 0 -> load (bmem s) a n = Some v -> load_at A a n 8 s = ORet v s).
      { intros a n v Ha Hl. unfold load_at. rewrite Ha. cbn [Z.eqb]. unfold on_alloc, mload.
        unfold BlinkInv.bmem in Hl. rewrite Hl. destruct s; reflexivity. }
      apply fate_bind. unfold fate at 1. rewrite (LD _ _ _ C3 C4).
      apply fate_bind. unfold fate at 1. erewrite LD; [|apply mod_add0; auto; lia|exact C5].
      apply fate_bind. unfold fate at 1. erewrite LD; [|apply mod_add0; auto; lia|exact C6].
      cbv zeta. rewrite (fn_of_ptr g G). apply fate_bind. subst c. rewrite Nat2Z.id.
      assert (Er : unlink (link r') = r').
      { destruct its as [|[[p' c'] g'] its']; cbn [chain] in C7.
        - subst r'. reflexivity.
        - destruct C7 as (-> & Hp & _). unfold unlink, link. replace (p' =? 0) with false by lia. reflexivity. }
      cbn [expected_drops]. rewrite entry_drops_strip, bads_exists. rewrite <- S2.
      eapply fate_mono; [apply (drop_elems_fate g (strip vs) _ false s E4)| |intros ? []|].
      + intros rb s' [-> Eb]. cbn [one_if Nat.add] in Eb. rewrite E1 in *. rewrite Eb. destruct rb; cbn [one_if Nat.eqb negb].
        * unfold fate, panic. rewrite app_nil_r. split; [reflexivity|exact Eb].
        * unfold fate at 1, ret. rewrite Er.
          eapply fate_mono; [apply (IH es'); [exact HF'|exact C7|cbn in HL; lia]| | |].
          -- intros [] s' [-> Ez]. rewrite with_log_app, map_app, bads_app, Ez, Eb. auto.
          -- intros s' [-> Ez]. rewrite with_log_app, map_app, bads_app, Ez, Eb. auto.
          -- rewrite bads_app, Eb. cbn [one_if]. auto.
      + cbn [one_if Nat.add]. intros Hb. rewrite E1 in Hb. rewrite bads_app. lia.
  Qed.

  Notation binv := (binv A own bomb).
  Lemma drop_list_reset_fate fr s : binv fr s ->
    let ds := expected_drops bomb (rev (live_entries (state_of bomb s))) in
    fate (drop_list_reset A bomb) s
      (fun _ s' => s' = after_reset bomb s /\ bads ds = 0%nat)
      (fun s' => s' = after_reset bomb s /\ bads ds = 1%nat)
      (2 <= bads ds)%nat.
  Proof.
    intros (junk & Ho & H1 & H2 & H3). unfold drop_list_reset.
    apply fate_bind. unfold invalidate at 1, fate at 1. cbv beta.
    apply fate_bind. unfold get_root at 1, fate at 1.
    apply fate_bind. unfold set_root at 1, fate at 1. cbn [bl_w bl_root bl_tab bl_log].
    set (s1 := mkBl _ None _ _).
    pose proof (drop_loop_fate (rev (BlinkInv.items (bl_tab s))) (rev (filter reg_entry (live (state_of bomb s))))
                  (length (bl_tab s)) (bl_root s) s1) as D.
    rewrite <- filter_rev', expected_filter, <- live_entries_live in D.
    assert (E : with_log s1 (map edrop (expected_drops bomb (rev (live_entries (state_of bomb s))))) = after_reset bomb s).
    { unfold with_log, after_reset, s1, reset_log. cbn [bl_w bl_root bl_tab bl_log]. rewrite <- app_assoc. reflexivity. }
    rewrite E in D. apply D.
    - rewrite filter_rev', live_entries_live. apply Forall2_rev. apply items_hold. exact H2.
    - exact H1.
    - rewrite rev_length. apply items_length.
  Qed.
End Fate.

Section Resets.
  Variable E : env.
  Hypothesis HE : env_ok E.

  (** What is due when the [Blink] is reset in state [s]: the registered values
      in memory, newest first; nothing after a value whose destructor panics. *)
  Definition due (s : bl (e_W E)) : list (Z * Z) :=
    expected_drops (e_bomb E) (map (entry_of (mem_of s)) (rev (live (bl_tab s)))).

  Definition clean (s s' : bl (e_W E)) : Prop :=
    bl_log s' = bl_log s ++ EReset :: map edrop (due s) /\ live (bl_tab s') = [] /\ bl_root s' = None.

  Lemma reset_fate fr w os s o : arrives E fr w os s -> o = BReset \/ o = BDropAll ->
    match erun1 E o s with
    | ORet _ s' => clean s s' /\ bads (e_bomb E) (due s) = 0%nat
    | OPanic s' => clean s s' /\ bads (e_bomb E) (due s) = 1%nat
    | OAbort => (2 <= bads (e_bomb E) (due s))%nat
    | OUB => False
    end.
  Proof.
    intros Ha Ho. destruct (arrived E HE _ _ _ _ Ha) as [B _]. destruct Ha as ((us & _ & HF) & _).
    pose proof (drop_list_reset_fate (e_A E) (e_own E) (e_bomb E) fr s B) as D. cbv zeta in D.
    rewrite (reset_drops E fr s B) in D. fold (due s) in D.
    assert (C : clean s (after_reset (e_bomb E) s)).
    { unfold clean, after_reset, reset_log. cbn [bl_log bl_tab bl_root]. rewrite (reset_drops E fr s B). fold (due s).
      split; [reflexivity|]. split; [apply live_none|reflexivity]. }
    pose proof (after_reset_inv (e_A E) (e_own E) (e_bomb E) fr s B) as (junk & Ow & _).
    destruct Ho as [-> | ->]; unfold erun1; cbn [bstep]; unfold blink_reset_all, blink_drop_all.
    - apply fate_bind. eapply fate_mono; [exact D| | |auto].
      + intros [] s' [-> Hz]. unfold fate, on_alloc. destruct HE as (_ & _ & _ & Hr). rewrite app_assoc in Ow.
        specialize (Hr _ _ _ Ow HF). unfold wp in Hr. destruct (e_reset E (bl_w (after_reset (e_bomb E) s))); try contradiction.
        split; [exact C|exact Hz].
      + intros s' [-> Hz]. split; [exact C|exact Hz].
    - eapply fate_mono; [exact D| | |auto].
      + intros [] s' [-> Hz]. split; [exact C|exact Hz].
      + intros s' [-> Hz]. split; [exact C|exact Hz].
  Qed.

  (** Without panicking destructors: everything registered, once, newest first. *)
  Lemma bads_none ds : (forall id v, e_bomb E id v = false) -> bads (e_bomb E) ds = 0%nat.
  Proof. intros H. unfold bads. induction ds as [|d ds IH]; [reflexivity|]. cbn. unfold bad at 1. rewrite H. exact IH. Qed.
  Lemma expected_all es : (forall id v, e_bomb E id v = false) -> expected_drops (e_bomb E) es = flat_map entry_drops es.
  Proof.
    intros H. induction es as [|e es IH]; [reflexivity|]. cbn [expected_drops flat_map]. rewrite IH. f_equal.
    rewrite bads_exists, bads_none by exact H. reflexivity.
  Qed.
  Lemma reset_all_dropped fr w os s o : arrives E fr w os s -> o = BReset \/ o = BDropAll -> (forall id v, e_bomb E id v = false) ->
    exists s', erun1 E o s = ORet tt s' /\ live (bl_tab s') = [] /\
      bl_log s' = bl_log s ++ EReset :: map edrop (flat_map entry_drops (map (entry_of (mem_of s)) (rev (live (bl_tab s))))).
  Proof.
    intros Ha Ho Hb. pose proof (reset_fate fr w os s o Ha Ho) as F. rewrite (bads_none (due s) Hb) in F.
    destruct (erun1 E o s) as [[] s'|s'| |]; [|destruct F; lia|lia|contradiction].
    exists s'. destruct F as [(F1 & F2 & _) _]. split; [reflexivity|]. split; [exact F2|]. rewrite F1. unfold due.
    rewrite expected_all by exact Hb. reflexivity.
  Qed.
End Resets.

(** ** Closures that panic *)
Section Unwinds.
  Context {W : Type} (A : Allocator W).

  Definition outc {B} (m : M (bl W) B) (s : bl W) (Q : B -> bl W -> Prop) (P : bl W -> Prop) : Prop :=
    match m s with ORet b s' => Q b s' | OPanic s' => P s' | _ => True end.
  Lemma outc_bind {B C} (m : M (bl W) B) (f : B -> M (bl W) C) s Q P :
    outc m s (fun b s' => outc (f b) s' Q P) P -> outc (bind m f) s Q P.
  Proof. unfold outc, bind. destruct (m s); auto. Qed.
  Lemma outc_still {B C} (m : M (bl W) B) (f : B -> M (bl W) C) s Q (P : bl W -> Prop) :
    still m -> (forall s', unchanged s s' -> P s') -> (forall b s', unchanged s s' -> outc (f b) s' Q P) -> outc (bind m f) s Q P.
  Proof. intros H HP Hf. apply outc_bind. unfold outc at 1. specialize (H s). destruct (m s); auto. Qed.
  Lemma store_no_panic a n al v s s' : store_at A a n al v s <> OPanic s'.
  Proof. unfold store_at, on_alloc, mstore, ub. destruct (_ =? _); discriminate. Qed.

  (** A panic leaves the [Blink] as the body of the closure left it: nothing
      registered, nothing handed out. *)
  Definition untouched (body : M (bl W) unit) (s s' : bl W) : Prop :=
    unchanged s s' \/
    exists s1 s2, unchanged s s1 /\ (body s1 = ORet tt s2 \/ body s1 = OPanic s2) /\ unchanged s2 s'.

  (** Out of memory: the value is dropped and the [Blink] is as before. *)
  Definition dropped_instead (tr : oom) (T : ty) (out : closure_end) (s s' : bl W) : Prop :=
    tr = Unwinds /\ bl_tab s' = bl_tab s /\ bl_root s' = bl_root s /\
    bl_log s' = bl_log s ++ match out with COk v => if t_drop T then [EEarly (t_id T) v] else [] | _ => [] end.

  Lemma outc_weaken {B} (m : M (bl W) B) s Q (P P' : bl W -> Prop) : outc m s Q P -> (forall s', P s' -> P' s') -> outc m s Q P'.
  Proof. unfold outc. intros H HP. destruct (m s); auto. Qed.

  Lemma emplace_unwinds bomb k tr T r e body out s :
    outc (emplace A bomb k tr T r e body out) s (fun _ _ => True) (fun s' => untouched body s s' \/ dropped_instead tr T out s s').
  Proof.
    unfold emplace. set (back := match out with COk v => log _ | _ => _ end). set (lost := match out with COk v => drop_unwinding _ _ _ | _ => _ end).
    assert (Hback : forall s1, unchanged s s1 -> outc (alloc_failed tr back lost) s1 (fun _ _ => True) (fun s' => untouched body s s' \/ dropped_instead tr T out s s')).
    { intros s1 (U1 & U2 & U3). unfold alloc_failed. destruct tr; [unfold back; destruct out; exact I|exact I|].
      unfold lost. destruct out as [v| |]; cbn; [|right; unfold dropped_instead; rewrite app_nil_r; repeat split; assumption..].
      unfold drop_unwinding, outc. destruct (t_drop T) eqn:Ed; cbn.
      - destruct (bomb _ _); cbn; [exact I|]. right. unfold dropped_instead. rewrite Ed. cbn. repeat split; congruence.
      - right. unfold dropped_instead. rewrite Ed, app_nil_r. repeat split; assumption. }
    assert (Main1 : forall {B} (m : M (bl W) B) s1, outc m s1 (fun _ _ => True) (untouched body s) ->
      outc m s1 (fun _ _ => True) (fun s' => untouched body s s' \/ dropped_instead tr T out s s')).
    { intros B m s1 H. eapply outc_weaken; [exact H|]. intros s' H'. left. exact H'. }
    assert (Body : forall (f : option Z + Z -> M (bl W) unit) s1, unchanged s s1 ->
      (forall o s2, body s1 = ORet tt s2 -> outc (f o) s2 (fun _ _ => True) (untouched body s)) ->
      outc (bind (closure body out) f) s1 (fun _ _ => True) (untouched body s)).
    { intros f s1 U Hf. apply outc_bind. unfold closure, outc at 1, bind. destruct (body s1) as [[] s2|s2| |] eqn:Eb; auto.
      - destruct out; cbn; [apply Hf; reflexivity|apply Hf; reflexivity|]. right. exists s1, s2. repeat split; auto; apply U.
      - right. exists s1, s2. repeat split; auto; apply U. }
    assert (Un : forall s1 s2 s', unchanged s s1 -> body s1 = ORet tt s2 -> unchanged s2 s' -> untouched body s s').
    { intros s1 s2 s' U E U'. right. exists s1, s2. auto. }
    destruct (negb (t_drop T) || no_drop k).
    - unfold emplace_no_drop. apply outc_still; [apply still_on_alloc|intros s' U; left; left; exact U|]. intros [b|] s1 U1; [|apply Hback; exact U1].
      apply Main1. apply Body; [exact U1|]. intros o s2 Eb. apply outc_still; [apply still_write_result|intros s' U; eapply Un; eassumption|].
      intros [] s3 U3. destruct o as [[v|]|err]; [exact I|exact I|].
      apply outc_still; [apply still_on_alloc|intros s' U; eapply Un; [exact U1|exact Eb|eapply unchanged_trans; eassumption]|].
      intros [] s4 U4. exact I.
    - unfold emplace_drop. apply outc_still; [apply still_on_alloc|intros s' U; left; left; exact U|]. intros [b|] s1 U1; [|apply Hback; exact U1].
      apply Main1. apply Body; [exact U1|]. intros o s2 Eb. apply outc_still; [apply still_write_result|intros s' U; eapply Un; eassumption|].
      intros [] s3 U3.
      apply outc_still; [apply still_write_drops|intros s' U; eapply Un; [exact U1|exact Eb|eapply unchanged_trans; eassumption]|].
      intros [] s4 U4. pose proof (unchanged_trans _ _ _ U3 U4) as U5. destruct o as [[v|]|err]; [|exact I|].
      + apply outc_bind. unfold drop_list_add, outc at 1, bind, get_root, set_root.
        destruct (store_at A _ 8 8 _ _) eqn:Es; try exact I. exact (False_ind _ (store_no_panic _ _ _ _ _ _ Es)).
      + apply outc_still; [apply still_on_alloc|intros s' U; eapply Un; [exact U1|exact Eb|eapply unchanged_trans; eassumption]|].
        intros [] s6 U6. exact I.
  Qed.
End Unwinds.

Lemma Forall2_len {X Y} (R : X -> Y -> Prop) l l' : Forall2 R l l' -> length l = length l'.
Proof. intros H. induction H; cbn; congruence. Qed.
Lemma app_eq_length {X} (a b c d : list X) : length a = length c -> a ++ b = c ++ d -> a = c /\ b = d.
Proof.
  revert c. induction a as [|x a IH]; intros [|y c] L H; cbn in *; try discriminate; [auto|].
  inversion H; subst. destruct (IH c ltac:(lia) H2). subst. auto.
Qed.

Section More.
  Variable E : env.
  Hypothesis HE : env_ok E.

  Lemma emplace_panics s k tr T r e body out s' :
    erun1 E (BEmplace k tr T r e body out) s = OPanic s' ->
    untouched (brun (e_A E) (e_reset E) (e_dbg E) (e_bomb E) body) s s' \/ dropped_instead tr T out s s'.
  Proof.
    rewrite run_emplace. destruct (legal _); [|discriminate]. intros Hr.
    pose proof (emplace_unwinds (e_A E) (e_bomb E) k tr T r e (brun (e_A E) (e_reset E) (e_dbg E) (e_bomb E) body) out s) as H.
    unfold outc in H. rewrite Hr in H. exact H.
  Qed.

  (** Any iterator for which collecting is safe, even if it uses the [Blink]. *)
  Lemma collect_all fr w os s k tr T it s' : arrives E fr w os s ->
    let o := BFromIter k tr T it in
    sound (e_exact E) o = true -> legal o = true -> t_size T <> 0 -> erun1 E o s = ORet tt s' ->
    exists used rest vals one,
      outs_of it = used ++ rest /\ no_panic used /\ vals ++ opt_list one = somes used /\
      holds_slice E s' (dropping k T) T vals /\
      ((one = None /\ stopped used rest) \/
       (tr = Try /\ exists d, bl_log s' = bl_log s ++ d ++ EFail :: map (EBack (t_id T)) (opt_list one))).
  Proof.
    intros Ha o Ho Hl Hz Hr. pose proof (goes_on E _ _ _ _ _ _ Ha Ho (or_introl Hr)) as Ha'.
    assert (S := arrived_step E HE _ _ _ _ _ Ha Ho). unfold safe in S. rewrite Hr in S. destruct S as (_ & _ & [[_ D]|[L _]]); [|congruence].
    cbn [did o] in D. destruct (Z.eqb_spec (t_size T) 0); [contradiction|].
    destruct D as (used & rest & Eo & Hp & [[Hs [d D]]|(Ht & vals & one & Ev & [d D])]).
    - rewrite flush_new in D. cbn [app] in D. exists used, rest, (somes used), None. cbn [opt_list]. rewrite app_nil_r.
      split; [exact Eo|]. split; [exact Hp|]. split; [reflexivity|]. split; [|left; auto].
      eapply (shows_new E HE _ _ _ _ (bl_log s ++ d) _ _ (somes used) []); [exact Ha'| |constructor]. rewrite D, <- app_assoc. reflexivity.
    - rewrite flush_new in D. cbn [app] in *. exists used, rest, vals, one.
      split; [exact Eo|]. split; [exact Hp|]. split; [symmetry; exact Ev|]. split.
      + eapply (shows_new E HE _ _ _ _ (bl_log s ++ d)); [exact Ha'|rewrite D, <- app_assoc; reflexivity|apply back_fine].
      + right. split; [exact Ht|]. exists (d ++ [ENew (dropping k T && negb (is_nil vals)) (t_id T) (map Some vals)]).
        rewrite D, <- !app_assoc. reflexivity.
  Qed.

  (** A copy lies in memory of its own. *)
  Lemma copy_fresh fr w os s tr T vs s' : arrives E fr w os s ->
    legal (BCopy tr T vs) = true -> erun1 E (BCopy tr T vs) s = ORet tt s' ->
    (exists h, bl_tab s' = bl_tab s ++ [Some h] /\ h_id h = t_id T /\ h_ptr h mod h_align h = 0 /\ registered h = false /\
       contents (mem_of s') h = map Some vs /\
       (forall i hi x, get i (bl_tab s) = Some hi -> covers hi x -> ~ covers h x) /\
       (forall x u, covers h x -> In u fr -> ~ in_u x u)) \/
    (tr = Try /\ bl_log s' = bl_log s ++ [EFail] /\ bl_tab s' = bl_tab s /\ bl_root s' = bl_root s).
  Proof.
    intros Ha Hl Hr. pose proof (goes_on E _ _ _ _ (BCopy tr T vs) _ Ha eq_refl (or_introl Hr)) as Ha'.
    destruct (copy_exact E HE _ _ _ _ _ _ _ _ Ha Hl Hr) as [[(t & h & Et & Hreg & Hid & Hc) D]|D]; [left|right; exact D].
    pose proof (op_grows E _ _ _ _ (BCopy tr T vs) Ha eq_refl) as G. rewrite Hr in G. destruct G as [t' G].
    assert (Ets : t = bl_tab s /\ t' = [Some h]).
    { destruct (arrived E HE _ _ _ _ Ha) as [(j1 & _ & _ & F1 & _) _]. destruct (arrived E HE _ _ _ _ Ha') as [(j2 & _ & _ & F2 & _) _].
      apply Forall2_len in F1. apply Forall2_len in F2. unfold state_of in *. rewrite D, especs_app in F2. cbn [especs espec fst] in F2.
      rewrite app_length in F2. cbn [length] in F2. rewrite Et, app_length in F2. cbn [length] in F2. rewrite Et in G.
      assert (Hl2 : length t = length (bl_tab s)) by lia. destruct (app_eq_length _ _ _ _ Hl2 G) as [H1 H2]. auto. }
    destruct Ets as [-> ->]. exists h. split; [exact Et|]. split; [exact Hid|].
    assert (Gl : get (length (bl_tab s)) (bl_tab s') = Some h).
    { rewrite Et. unfold get. rewrite nth_error_app2, Nat.sub_diag by lia. reflexivity. }
    destruct (refs_placed E HE _ _ _ _ _ _ Ha' Gl) as (P1 & _ & P3).
    split; [exact P1|]. split; [exact Hreg|]. split; [exact Hc|]. split; [|exact P3].
    intros i hi x Gi Ci Ch. unfold get in Gi. destruct (nth_error (bl_tab s) i) as [o|] eqn:Ei; [|discriminate].
    assert (Hlt : (i < length (bl_tab s))%nat) by (apply nth_error_Some; congruence).
    apply (refs_apart E HE _ _ _ _ i (length (bl_tab s)) hi h x Ha'); [|exact Gl|lia|exact Ci|exact Ch].
    unfold get. rewrite Et, nth_error_app1, Ei by lia. exact Gi.
  Qed.
End More.
