(** Destructors that do something: a whole [reset] or [drop_all] (Dtor.v). *)
From Verif Require Import Base BaseFacts Alloc AllocFacts History HistoryFacts Blink BlinkInv BlinkReset BlinkOps BlinkMain BlinkEnv BlinkProps Dtor DtorFacts.

(** [reset] ([full]) or [drop_all]. *)
Definition busy (E : env) (dtor : Z -> Z -> Z -> dprog) (full : bool) (s : bl (e_W E)) : outcome (bl (e_W E) * list drec) unit :=
  (if full then busy_reset (e_A E) dtor (e_reset E) else busy_drop_all (e_A E) dtor) (s, []).

(** How it ends: the [Blink] is empty, its allocator can be used on, others kept their
    memory, and destructors saw the truth. *)
Definition went (E : env) (fr : list ublock) (s s' : bl (e_W E)) (rs : list drec) : Prop :=
  bl_root s' = None /\ live (bl_tab s') = [] /\ ready E fr (bl_w s') /\ same_on fr (mem_of s) (mem_of s') /\
  (exists sets, bl_log s' = bl_log s ++ sets /\ Forall is_set sets) /\ Forall (true_to (e_bomb E) (bl_tab s) (bl_log s')) rs.

Section Props.
  Variable E : env.
  Hypothesis HE : env_ok E.

  Lemma over_went fr w os s d : arrives E fr w os s -> forall X, goes (e_A E) (e_own E) (e_bomb E) (bl_tab s) fr X (s, []) d ->
    went E fr s (fst (over d)) (snd (over d)) /\ dropped (snd (over d)) = X.
  Proof.
    intros Ha X G. destruct G as (B & T & R & S & sets & new & L & F & N & Dn & C). cbn [fst snd app] in *.
    assert (En : snd (over d) = new) by exact N.
    rewrite En. split; [|exact Dn]. unfold went, over. cbn [fst snd bl_root bl_tab bl_w bl_log].
    split; [reflexivity|]. split; [apply live_none|]. split.
    - destruct B as (junk & Ho & _). rewrite app_assoc in Ho. eexists. split; [exact Ho|]. destruct Ha as ((_ & _ & HF) & _). exact HF.
    - split; [exact S|]. split; [exists sets; split; assumption|]. eapply Forall_impl; [|exact C]. intros r H. apply H.
  Qed.

  Theorem busy_ok fr w os s dtor full : arrives E fr w os s -> polite dtor (bl_tab s) ->
    match busy E dtor full s with
    | ORet _ (s', rs) => went E fr s s' rs /\ dropped rs = to_drop (bl_tab s)
    | OPanic (s', rs) => went E fr s s' rs /\ panicky dtor /\
        exists older x newer, bl_tab s = older ++ Some x :: newer /\ h_item x <> None /\ dropped rs = to_drop (Some x :: newer)
    | OAbort => panicky dtor
    | OUB => False
    end.
  Proof.
    intros Ha Hpol. destruct (arrived E HE _ _ _ _ Ha) as [B _]. pose proof HE as (Hct & Hsm & _ & Hrs).
    pose proof (busy_loop_ok (e_amax E) (e_smax E) (e_A E) (e_own E) Hct Hsm (e_bomb E) dtor (bl_tab s) fr (bl_tab s) [] [] (length (bl_tab s)) (s, [])
      ltac:(rewrite app_nil_r; reflexivity) ltac:(intros ? []) B eq_refl Hpol (items_length _)) as L.
    assert (Er : bl_root s = match rev (BlinkInv.items (bl_tab s)) with [] => None | (p, _, _) :: _ => Some p end).
    { destruct B as (junk & _ & HC & _). destruct (rev (BlinkInv.items (bl_tab s))) as [|[[p c] g] l]; [exact HC|apply HC]. }
    rewrite <- Er in L. unfold runs in L.
    assert (Hd : match busy_drop_all (e_A E) dtor (s, []) with
      | ORet _ (s', rs) => went E fr s s' rs /\ dropped rs = to_drop (bl_tab s)
      | OPanic (s', rs) => went E fr s s' rs /\ panicky dtor /\
          exists older x newer, bl_tab s = older ++ Some x :: newer /\ h_item x <> None /\ dropped rs = to_drop (Some x :: newer)
      | OAbort => panicky dtor
      | OUB => False
      end).
    { unfold busy_drop_all. cbn [fst]. destruct (busy_loop (e_A E) dtor (length (bl_tab s)) [] (bl_root s) (s, [])) as [u d'|d'| |]; try exact L.
      - pose proof (over_went _ _ _ _ _ Ha _ L) as [H1 H2]. destruct (over d') as [s' rs]. split; assumption.
      - destruct L as (Py & a & x & b & Et & Hx & G). pose proof (over_went _ _ _ _ _ Ha _ G) as [H1 H2]. destruct (over d') as [s' rs]. split; [exact H1|].
        split; [exact Py|]. exists a, x, b. auto. }
    unfold busy. destruct full; [|exact Hd]. unfold busy_reset, bind.
    destruct (busy_drop_all (e_A E) dtor (s, [])) as [u [s1 rs]|[s1 rs]| |]; try exact Hd.
    destruct Hd as ((W1 & W2 & (us & Ho & HF) & W4 & W5 & W6) & Dr).
    pose proof (Hrs _ _ _ Ho HF) as R. unfold wp in R. unfold on_bl, on_alloc. cbn [fst snd].
    destruct (e_reset E (bl_w s1)) as [[] w'|w'| |]; try contradiction. destruct R as (us' & Ho' & S').
    split; [|exact Dr]. split; [exact W1|]. split; [exact W2|]. split; [exists us'; cbn [bl_w]; auto|]. split; [|split; [exact W5|exact W6]].
    eapply same_on_trans; [exact W4|exact S'].
  Qed.

  (** Nobody panics: it returns. *)
  Theorem busy_returns fr w os s dtor full : arrives E fr w os s -> polite dtor (bl_tab s) -> ~ panicky dtor ->
    exists s' rs, busy E dtor full s = ORet tt (s', rs) /\ went E fr s s' rs /\ dropped rs = to_drop (bl_tab s).
  Proof.
    intros Ha Hp Hn. pose proof (busy_ok fr w os s dtor full Ha Hp) as H. destruct (busy E dtor full s) as [[] [s' rs]|[s' rs]| |].
    - exists s', rs. split; [reflexivity|exact H].
    - destruct H as (_ & Py & _). contradiction.
    - contradiction.
    - contradiction.
  Qed.
End Props.

(** Destructors without references are always polite. *)
Lemma blind_older t j p : blind p -> only_older t j p.
Proof. induction p as [b|h i k IH|h i v k IH|keep l c k IH]; cbn; try contradiction; auto. Qed.
Lemma blind_polite dtor t : (forall id a v, blind (dtor id a v)) -> polite dtor t.
Proof. intros H j x k v _ _ _. apply blind_older, H. Qed.
Theorem blind_ok E : env_ok E -> forall fr w os s dtor full, arrives E fr w os s -> (forall id a v, blind (dtor id a v)) -> ~ panicky dtor ->
  exists s' rs, busy E dtor full s = ORet tt (s', rs) /\ went E fr s s' rs /\ dropped rs = to_drop (bl_tab s).
Proof. intros HE fr w os s dtor full Ha Hb Hp. apply (busy_returns E HE fr w os); [exact Ha|apply blind_polite, Hb|exact Hp]. Qed.

(** ** Destructors that do nothing but panic or not are those of Blink.v *)

Definition ev_of (r : drec) : list bev := match r with RDrop id _ v _ => [EDrop id v] | RSaw _ _ _ _ => [] end.

Section Plain.
  Context {W : Type} (A : Allocator W) (alloc_reset : M W unit) (bomb : Z -> Z -> bool).
  Notation plain := (fun id (_ : Z) v => DEnd (bomb id v)).

  (** The same outcome; the logs tell the same drops. *)
  Definition seen r lg (d : bl W * list drec) : bl W :=
    mkBl (bl_w (fst d)) r (map (fun _ => None) (bl_tab (fst d))) (lg ++ flat_map ev_of (snd d)).
  Definition same_end {B} (r : option Z) (lg : list bev) (o : outcome (bl W * list drec) B) (o' : outcome (bl W) B) : Prop :=
    match o, o' with
    | ORet b d, ORet b' s => b' = b /\ s = seen r lg d
    | OPanic d, OPanic s => s = seen r lg d
    | OAbort, OAbort => True
    | OUB, OUB => True
    | _, _ => False
    end.

  Lemma same_bind {B C} r lg (m : M (bl W * list drec) B) (m' : M (bl W) B) (f : B -> M (bl W * list drec) C) (f' : B -> M (bl W) C) d :
    same_end r lg (m d) (m' (seen r lg d)) -> (forall b d', same_end r lg (f b d') (f' b (seen r lg d'))) ->
    same_end r lg (bind m f d) (bind m' f' (seen r lg d)).
  Proof.
    intros H Hf. unfold bind. destruct (m d) as [b d1|d1| |], (m' (seen r lg d)) as [b' s1|s1| |]; cbn in H; try contradiction; auto.
    destruct H as [-> ->]. apply Hf.
  Qed.
  Lemma same_load r lg (g : M W Z) d : same_end r lg (on_bl (on_alloc g) d) (on_alloc g (seen r lg d)).
  Proof.
    unfold on_bl, on_alloc. cbn [seen bl_w]. destruct (g (bl_w (fst d))) as [b w'|w'| |]; cbn; auto.
  Qed.

  Lemma same_elems r lg dead g n : forall a pk d,
    same_end r lg (busy_elems A plain dead g a n pk d) (drop_elems A bomb g a n pk (seen r lg d)).
  Proof.
    induction n as [|n IH]; intros a pk d; cbn [busy_elems drop_elems]; [split; reflexivity|].
    apply same_bind.
    { unfold read_value. destruct (g_tsize g =? 0); [split; reflexivity|]. apply same_load. }
    intros v d1. set (x := RDrop (g_id g) (a + g_xoff g) v (length (bl_log (fst d1)))).
    assert (El : log (EDrop (g_id g) v) (seen r lg d1) = ORet tt (seen r lg (fst d1, snd d1 ++ [x]))).
    { unfold log, seen. cbn [fst snd bl_w bl_root bl_tab bl_log]. rewrite flat_map_app. cbn [flat_map ev_of app x]. rewrite app_assoc. reflexivity. }
    unfold bind at 1 3, note. fold x. rewrite El. cbn [run_dtor]. unfold bind at 1, ret at 1.
    destruct (bomb (g_id g) v); [|apply IH]. destruct pk; [exact Logic.I|apply IH].
  Qed.

  Lemma same_loop r lg fuel : forall dead p d, same_end r lg (busy_loop A plain fuel dead p d) (drop_loop A bomb fuel p (seen r lg d)).
  Proof.
    induction fuel as [|fuel IH]; intros dead [a|] d; cbn [busy_loop drop_loop]; try exact Logic.I; try (split; reflexivity).
    apply same_bind; [|intros b d'; apply IH]. unfold busy_drop, drops_drop.
    assert (HL : forall b d', same_end r lg (on_bl (load_at A b 8 8) d') (load_at A b 8 8 (seen r lg d'))).
    { intros b d'. unfold load_at. destruct (_ =? 0); [|exact Logic.I]. apply same_load. }
    apply same_bind; [apply HL|]. intros c d1. apply same_bind; [apply HL|]. intros f d2. apply same_bind; [apply HL|]. intros nx d3. cbv zeta.
    apply same_bind; [apply same_elems|]. intros [|] d4; [reflexivity|split; reflexivity].
  Qed.
End Plain.

(** For every [Blink] in every state. *)
Theorem busy_plain (E : env) o s : o = BReset \/ o = BDropAll ->
  match busy E (fun id _ v => DEnd (e_bomb E id v)) (match o with BReset => true | _ => false end) s, erun1 E o s with
  | ORet _ (s1, rs), ORet _ s2 | OPanic (s1, rs), OPanic s2 =>
      s2 = mkBl (bl_w s1) (bl_root s1) (bl_tab s1) (bl_log s ++ EReset :: flat_map ev_of rs)
  | OAbort, OAbort | OUB, OUB => True
  | _, _ => False
  end.
Proof.
  intros Ho.
  pose proof (same_loop (e_A E) (e_bomb E) None (bl_log s ++ [EReset]) (length (bl_tab s)) [] (bl_root s) (s, [])) as L.
  assert (Ed : drop_list_reset (e_A E) (e_bomb E) s =
               drop_loop (e_A E) (e_bomb E) (length (bl_tab s)) (bl_root s) (seen None (bl_log s ++ [EReset]) (s, []))).
  { unfold seen. cbn [fst snd flat_map]. rewrite app_nil_r. reflexivity. }
  rewrite <- Ed in L.
  assert (P : match busy_drop_all (e_A E) (fun id _ v => DEnd (e_bomb E id v)) (s, []), drop_list_reset (e_A E) (e_bomb E) s with
    | ORet _ (s1, rs), ORet _ s2 | OPanic (s1, rs), OPanic s2 =>
        s2 = mkBl (bl_w s1) (bl_root s1) (bl_tab s1) (bl_log s ++ EReset :: flat_map ev_of rs)
    | OAbort, OAbort | OUB, OUB => True
    | _, _ => False
    end).
  { unfold busy_drop_all. cbn [fst]. unfold same_end in L.
    destruct (busy_loop _ _ _ _ _ _) as [u d|d| |], (drop_list_reset _ _ _) as [u' s2|s2| |]; cbn in *; try contradiction; try exact Logic.I.
    - destruct L as [_ ->]. unfold seen. rewrite <- app_assoc. reflexivity.
    - subst s2. unfold seen. rewrite <- app_assoc. reflexivity. }
  unfold busy, erun1. destruct Ho as [-> | ->].
  - change (bstep (e_A E) (e_reset E) (e_dbg E) (e_bomb E) false BReset s) with
      (bind (drop_list_reset (e_A E) (e_bomb E)) (fun _ => on_alloc (e_reset E)) s).
    unfold busy_reset, bind.
    destruct (busy_drop_all _ _ _) as [u [s1 rs]|[s1 rs]| |], (drop_list_reset _ _ _) as [u' s2|s2| |]; try contradiction; try exact P.
    subst s2. unfold on_bl, on_alloc. cbn [fst snd bl_w bl_root bl_tab bl_log]. destruct (e_reset E (bl_w s1)) as [[] w'|w'| |]; cbn; auto.
  - exact P.
Qed.
