(** Which ways of putting values in register them for dropping, said one by one
    (C31, C32). *)
From Verif Require Import Base BaseFacts Alloc AllocFacts Arena BlinkAlloc History HistoryFacts Setup SetupFacts
  Blink BlinkInv BlinkReset BlinkIter BlinkMain BlinkEnv BlinkLog BlinkYield BlinkProps BlinkFate.

(** [put], [emplace], [emplace_unchecked] of a type with a destructor; the others. *)
Definition with_dropping (k : entry) (T : ty) : Prop :=
  t_drop T = true /\ (k = Put \/ k = Emplace \/ k = EmplaceUnchecked).
Definition without_dropping (k : entry) (T : ty) : Prop :=
  t_drop T = false \/ k = PutNoDrop \/ k = EmplaceNoDrop \/ k = EmplaceShared.

Lemma with_yes k T : with_dropping k T -> dropping k T = true.
Proof. intros (H & [-> | [-> | ->]]); unfold dropping; rewrite H; reflexivity. Qed.
Lemma without_no k T : without_dropping k T -> dropping k T = false.
Proof. unfold dropping. intros [-> | [-> | [-> | ->]]]; [reflexivity| | |]; apply negb_false_iff, orb_true_r. Qed.

Section Entry.
  Variable E : env.
  Hypothesis HE : env_ok E.

  Lemma value_registered fr w os s k tr T r e body v s' :
    arrives E fr w os s -> with_dropping k T ->
    let o := BEmplace k tr T r e body (COk v) in
    sound (e_exact E) o = true -> legal o = true -> erun1 E o s = ORet tt s' ->
    shows E s' true (t_id T) [v] \/
    (tr = Try /\ bl_log s' = bl_log s ++ [EFail; EBack (t_id T) v] /\ bl_tab s' = bl_tab s /\ bl_root s' = bl_root s).
  Proof.
    intros Ha Hk o Hs Hl Hr. pose proof (emplace_value E HE fr w os s k tr T r e body v s' Ha Hs Hl Hr) as H.
    rewrite (with_yes k T Hk) in H. exact H.
  Qed.
  Lemma value_not_registered fr w os s k tr T r e body v s' :
    arrives E fr w os s -> without_dropping k T ->
    let o := BEmplace k tr T r e body (COk v) in
    sound (e_exact E) o = true -> legal o = true -> erun1 E o s = ORet tt s' ->
    shows E s' false (t_id T) [v] \/
    (tr = Try /\ bl_log s' = bl_log s ++ [EFail; EBack (t_id T) v] /\ bl_tab s' = bl_tab s /\ bl_root s' = bl_root s).
  Proof.
    intros Ha Hk o Hs Hl Hr. pose proof (emplace_value E HE fr w os s k tr T r e body v s' Ha Hs Hl Hr) as H.
    rewrite (without_no k T Hk) in H. exact H.
  Qed.

  Lemma slice_registered fr w os s k tr T it s' :
    arrives E fr w os s -> with_dropping k T ->
    let o := BFromIter k tr T it in
    sound (e_exact E) o = true -> legal o = true -> t_size T <> 0 -> fused it = true -> items it <> [] -> erun1 E o s = ORet tt s' ->
    shows E s' true (t_id T) (items it) \/ (tr = Try /\ In EFail (bl_log s')).
  Proof.
    intros Ha Hk o Hs Hl Hz Hf Hn Hr.
    destruct (collect_fused E HE fr w os s k tr T it s' Ha Hs Hl Hz Hf Hr) as [[H _]|(-> & d & vals & one & _ & H & _)].
    - left. unfold holds_slice in H. rewrite (with_yes k T Hk) in H. destruct (items it); [contradiction|exact H].
    - right. split; [reflexivity|]. rewrite H. apply in_or_app. right. apply in_or_app. right. left. reflexivity.
  Qed.
  Lemma slice_not_registered fr w os s k tr T it s' :
    arrives E fr w os s -> without_dropping k T ->
    let o := BFromIter k tr T it in
    sound (e_exact E) o = true -> legal o = true -> t_size T <> 0 -> erun1 E o s = ORet tt s' ->
    exists vals, shows E s' false (t_id T) vals.
  Proof.
    intros Ha Hk o Hs Hl Hz Hr.
    destruct (collect_all E HE fr w os s k tr T it s' Ha Hs Hl Hz Hr) as (used & rest & vals & one & _ & _ & _ & H & _).
    exists vals. unfold holds_slice in H. rewrite (without_no k T Hk) in H. exact H.
  Qed.

  (** What the next reset does with it. *)
  Lemma reset_newest fr w os s s' id vs :
    arrives E fr w os s -> shows E s true id vs -> (forall id v, e_bomb E id v = false) -> erun1 E BReset s = ORet tt s' ->
    exists older, bl_log s' = bl_log s ++ EReset :: map (EDrop id) vs ++ older.
  Proof.
    intros Ha (t & h & Et & Hr & Hi & Hc) Hb Hrun.
    destruct (reset_all_dropped E HE fr w os s BReset Ha (or_introl eq_refl) Hb) as (s2 & R & _ & Hlog).
    rewrite Hrun in R. injection R as <-. rewrite Hlog, Et.
    rewrite live_app, rev_app_distr. cbn [live flat_map app rev map].
    rewrite map_app.
    eexists. f_equal. f_equal. f_equal.
    unfold entry_of, entry_drops. rewrite Hr, Hc, Hi.
    clear. induction vs as [|v vs IH]; [reflexivity|]. cbn [map flat_map app]. rewrite IH. reflexivity.
  Qed.
End Entry.

(** ** Types that are put in only in certain ways (C32, C33) *)

(** The operation puts in values of type [i], with a destructor, by one of the entry points
    [ks] only. *)
Definition entry_eqb (a b : entry) : bool :=
  match a, b with
  | Put, Put | PutNoDrop, PutNoDrop | Emplace, Emplace | EmplaceNoDrop, EmplaceNoDrop
  | EmplaceShared, EmplaceShared | EmplaceUnchecked, EmplaceUnchecked => true
  | _, _ => false
  end.
Definition only_by (ks : list entry) (i : Z) (o : bop) : bool :=
  match o with
  | BEmplace k _ T _ _ _ _ | BFromIter k _ T _ =>
      negb (t_id T =? i) || negb (t_drop T) || existsb (entry_eqb k) ks
  | _ => true
  end.

Lemma all_op_mono (f g : bop -> bool) : (forall o, f o = true -> g o = true) ->
  (forall o, all_op f o = true -> all_op g o = true) /\
  (forall os, all_ops f os = true -> all_ops g os = true) /\
  (forall it, all_script f it = true -> all_script g it = true).
Proof.
  intros H. apply client_ind; intros; cbn [all_op all_ops all_script] in *;
    repeat match goal with X : _ && _ = true |- _ => apply andb_true_iff in X; destruct X end;
    repeat (apply andb_true_iff; split); auto.
Qed.

Lemma only_by_fine ks i o : (forall k, existsb (entry_eqb k) ks = true -> no_drop k = true) ->
  only_by ks i o = true -> op_fine i false true o = true.
Proof.
  intros Hk H. unfold op_fine. cbn [orb]. rewrite andb_true_r.
  assert (G : forall k T, negb (t_id T =? i) || negb (t_drop T) || existsb (entry_eqb k) ks = true ->
    negb (existsb (Z.eqb i) (if dropping k T then [t_id T] else [])) = true).
  { intros k T X. unfold dropping. destruct (t_drop T); cbn [negb orb] in *; [|reflexivity].
    destruct (no_drop k) eqn:En; [reflexivity|]. cbn [negb existsb]. rewrite orb_false_r.
    destruct (existsb (entry_eqb k) ks) eqn:Ek; [rewrite (Hk k Ek) in En; discriminate|].
    rewrite Z.eqb_sym. destruct (t_id T =? i); [discriminate X|reflexivity]. }
  destruct o; cbn [registers only_by] in *; try reflexivity; apply G; exact H.
Qed.

Lemma only_by_never E (HE : env_ok E) ks fr w os s i :
  (forall k, existsb (entry_eqb k) ks = true -> no_drop k = true) ->
  arrives E fr w os s -> forallb (all_op (only_by ks i)) os = true ->
  new_n i (bl_log s) = 0%nat /\ drop_n i (bl_log s) = 0%nat.
Proof.
  intros Hk Ha Ho. apply (never_registered E HE fr w os s i Ha). rewrite forallb_forall in *. intros o Hin.
  apply (proj1 (all_op_mono _ _ (fun o => only_by_fine ks i o Hk))). apply Ho. exact Hin.
Qed.

Lemma no_drop_entries_never E (HE : env_ok E) fr w os s i :
  arrives E fr w os s -> forallb (all_op (only_by [PutNoDrop; EmplaceNoDrop] i)) os = true ->
  new_n i (bl_log s) = 0%nat /\ drop_n i (bl_log s) = 0%nat.
Proof. apply (only_by_never E HE). intros []; cbn; congruence. Qed.
Lemma shared_entry_never E (HE : env_ok E) fr w os s i :
  arrives E fr w os s -> forallb (all_op (only_by [EmplaceShared] i)) os = true -> drop_n i (bl_log s) = 0%nat.
Proof. intros Ha Ho. apply (only_by_never E HE [EmplaceShared] fr w os s i); auto. intros []; cbn; congruence. Qed.
