(** The length of the slices that [Blink] collects zero-sized elements into. *)
From Verif Require Import Base BaseFacts Alloc AllocFacts Arena Blink BlinkInv BlinkIter BlinkMain BlinkEnv BlinkLog BlinkProps.

(** What comes before the first [None]. *)
Fixpoint until_none (l : list next_end) : Z :=
  match l with NSome _ :: l' => 1 + until_none l' | _ => 0 end.
(** The lower bounds of all hints are true. *)
Fixpoint true_hints (it : script) : Prop :=
  match it with
  | SEnd lo _ => lo = 0
  | SNext lo _ _ _ rest => 0 <= lo <= until_none (outs_of it) /\ true_hints rest
  end.

Lemma until_none_nonneg l : 0 <= until_none l.
Proof. induction l as [|[v| |] l IH]; cbn [until_none]; lia. Qed.
(** Every result of [m] has [P]. *)
Definition gives {S B} (m : M S B) (P : B -> Prop) : Prop := forall s r s', m s = ORet r s' -> P r.
Lemma gives_bind {S B C} (m : M S B) (f : B -> M S C) P Q : gives m P -> (forall r, P r -> gives (f r) Q) -> gives (bind m f) Q.
Proof. intros H1 H2 s r s' E. unfold bind in E. destruct (m s) as [b s1| | |] eqn:E1; try discriminate. eapply H2; eauto. Qed.
Lemma gives_ret {S B} (b : B) (P : B -> Prop) : P b -> gives (S := S) (ret b) P.
Proof. intros H s r s' E. inversion E; subst; exact H. Qed.
Lemma gives_any {S B} (m : M S B) : gives m (fun _ => True).
Proof. intros s r s' _. exact I. Qed.
Lemma gives_usize {S} dbg a b : a + b <= USIZE_MAX -> gives (S := S) (add_usize dbg a b) (fun r => r = a + b).
Proof. intros H. unfold add_usize. replace (a + b <=? USIZE_MAX) with true by lia. apply gives_ret. reflexivity. Qed.

Section DrainBlink.
  Context {W : Type} (bomb : Z -> Z -> bool) (dbg : bool) (T : ty).

  Definition gives_out (m : M (bl W) (option Z)) (o : next_end) : Prop :=
    gives m (fun r => match o with NSome v => r = Some v | NNone => r = None | NPanic => False end).
  Fixpoint drawn (its : list (Z * option Z * M (bl W) (option Z))) (last : Z * option Z) (outs : list next_end) : Prop :=
    match its, outs with
    | [], [] => fst last = 0
    | x :: its', o :: outs' => 0 <= fst (fst x) <= until_none outs /\ gives_out (snd x) o /\ drawn its' last outs'
    | _, _ => False
    end.

  Lemma hint_true its last outs : drawn its last outs -> 0 <= fst (hint (its, last)) <= until_none outs.
  Proof.
    destruct its as [|[h m] its], outs as [|o outs]; try contradiction; cbn [drawn hint fst]; [|tauto].
    intros H. unfold hint. cbn [fst snd until_none]. lia.
  Qed.

  Lemma next_gives its last outs : drawn its last outs ->
    gives (next T (its, last)) (fun r => snd (snd r) = last /\
      match fst r with
      | Some _ => exists outs', drawn (fst (snd r)) last outs' /\ until_none outs = until_none outs' + 1 /\ S (length (fst (snd r))) = length its
      | None => until_none outs = 0
      end).
  Proof.
    intros H. unfold next. cbn [fst]. destruct its as [|[h m] its].
    - apply gives_ret. cbn. destruct outs; [auto|contradiction].
    - destruct outs as [|o outs]; [contradiction|]. destruct H as (_ & Hm & H). cbn [snd] in Hm.
      eapply gives_bind; [exact Hm|]. intros r Hr. destruct o as [v| |]; subst; [| |contradiction].
      + eapply gives_bind; [apply gives_any|]. intros _ _. apply gives_ret. cbn [fst snd].
        split; [reflexivity|]. exists outs. split; [exact H|]. cbn [until_none length]. split; [lia|reflexivity].
      + apply gives_ret. cbn. auto.
  Qed.

  Lemma nth_gives last : forall its n outs, drawn its last outs -> 0 <= n < until_none outs ->
    gives (drain_nth bomb T n its last) (fun r => fst r = true /\ snd (snd r) = last /\
      exists outs', drawn (fst (snd r)) last outs' /\ until_none outs = until_none outs' + n + 1 /\ (length (fst (snd r)) < length its)%nat).
  Proof.
    induction its as [|x its IH]; intros n outs H Hn.
    - destruct outs; [cbn in Hn; lia|contradiction].
    - cbn [drain_nth]. eapply gives_bind; [apply (next_gives (x :: its) last outs H)|].
      intros [o [its' l']] [El Ho]. cbn [fst snd] in *. subst l'. destruct o as [v|]; [|lia].
      destruct Ho as (outs' & Hd & Hu & Hl). cbn [length] in Hl.
      eapply gives_bind; [apply gives_any|]. intros _ _.
      assert (Hd2 : drawn its last (tl outs)) by (destruct outs; [contradiction|apply H]).
      assert (Hu2 : until_none outs = until_none (tl outs) + 1).
      { destruct outs as [|[w| |] outs]; cbn [until_none tl] in *; lia. }
      destruct (Z.leb_spec n 0).
      + apply gives_ret. cbn [fst snd]. split; [reflexivity|]. split; [reflexivity|]. exists (tl outs).
        split; [exact Hd2|]. cbn [length]. split; lia.
      + intros s r s' E. destruct (IH (n - 1) (tl outs) Hd2 ltac:(lia) s r s' E) as (E1 & E2 & o2 & D2 & U2 & L2).
        split; [exact E1|]. split; [exact E2|]. exists o2. split; [exact D2|]. cbn [length]. split; lia.
  Qed.

  Lemma drain_gives last : forall fuel d its outs, drawn its last outs -> 0 <= d -> d + until_none outs <= USIZE_MAX ->
    gives (drain dbg bomb fuel T d (its, last)) (fun n => n = d + until_none outs).
  Proof.
    induction fuel as [|fuel IH]; intros d its outs H Hd Hu; [intros s r s' E; discriminate E|]. cbn [drain].
    eapply gives_bind; [apply gives_any|]. intros _ _.
    pose proof (hint_true its last outs H) as Hh. destruct (Z.eqb_spec (fst (hint (its, last))) 0).
    - eapply gives_bind; [apply (next_gives its last outs H)|]. intros [o [its' l']] [El Ho]. cbn [fst snd] in *. subst l'.
      destruct o as [v|]; [|apply gives_ret; lia]. destruct Ho as (outs' & D & U & L).
      eapply gives_bind; [apply gives_any|]. intros _ _.
      pose proof (until_none_nonneg outs').
      eapply gives_bind; [apply gives_usize; lia|]. intros d' ->.
      intros s r s' E. rewrite (IH (d + 1) its' outs' D ltac:(lia) ltac:(lia) s r s' E). lia.
    - cbv zeta. set (lo := fst (hint (its, last))) in *. rewrite Z.min_l by lia.
      assert (Hsub : gives (S := bl W) (sub_usize dbg lo 1) (fun k => k = lo - 1)).
      { unfold sub_usize. replace (1 <=? lo) with true by lia. apply gives_ret. reflexivity. }
      eapply gives_bind; [exact Hsub|]. intros k ->.
      eapply gives_bind; [apply (nth_gives last its (lo - 1) outs H); lia|].
      intros [b [its' l']] (Eb & El & outs' & D & U & L). cbn [fst snd] in *. subst b l'.
      pose proof (until_none_nonneg outs').
      eapply gives_bind; [apply gives_usize; lia|]. intros d' ->.
      destruct (Z.eqb_spec (d + lo) USIZE_MAX); [apply gives_ret; lia|].
      intros s r s' E. rewrite (IH (d + lo) its' outs' D ltac:(lia) ltac:(lia) s r s' E). lia.
  Qed.
End DrainBlink.

Section Collect.
  Variable E : env.
  Notation biter := (biter (e_A E) (e_reset E) (e_dbg E) (e_bomb E)).

  Lemma biter_drawn it : true_hints it -> drawn (fst (biter it)) (snd (biter it)) (outs_of it).
  Proof.
    induction it as [lo up|lo up body out rest IH]; intros H; [exact H|]. destruct H as [H1 H2].
    cbn [Blink.biter]. cbv zeta. cbn [fst snd outs_of drawn]. split; [exact H1|]. split; [|apply IH; exact H2].
    eapply gives_bind; [apply gives_any|]. intros _ _. destruct out; [apply gives_ret; reflexivity|apply gives_ret; reflexivity|].
    intros s r s' Ep. discriminate Ep.
  Qed.

  (** Any iterator, even if it uses the [Blink], panics or resumes after [None]. *)
  Lemma collect_count k tr T it s s' :
    t_size T = 0 -> legal (BFromIter k tr T it) = true -> true_hints it -> until_none (outs_of it) <= USIZE_MAX ->
    erun1 E (BFromIter k tr T it) s = ORet tt s' ->
    exists t h, bl_tab s' = t ++ [Some h] /\
      (h_cnt h = until_none (outs_of it) \/ (tr = Try /\ h_cnt h = 0 /\ exists d, bl_log s' = d ++ [EFail])).
  Proof.
    intros Hz Hl Ht Hu Hr. rewrite run_from_iter, Hl in Hr. unfold from_iter in Hr. rewrite Hz, Z.eqb_refl in Hr.
    pose proof (biter_drawn it Ht) as D. destruct (biter it) as [its last]. cbn [fst snd] in D.
    assert (G : forall fuel, gives (drain (e_dbg E) (e_bomb E) fuel T 0 (its, last)) (fun n => n = until_none (outs_of it))).
    { intros fuel. apply (drain_gives (e_bomb E) (e_dbg E) T last fuel 0 its (outs_of it) D); lia. }
    unfold from_iter_zst in Hr. cbn [fst] in Hr. specialize (G (S (length its))).
    destruct (dropping k T).
    - unfold bind at 1 in Hr. destruct (on_alloc _ s) as [[b|] s1| | |]; try discriminate.
      + unfold bind at 1 in Hr. destruct (drain _ _ _ _ _ _ _) as [n s2| | |] eqn:Ed; try discriminate. apply G in Ed. subst n.
        unfold bind at 1 in Hr. destruct (init_slice _ _ _ _ _ _) as [u s3| | |]; try discriminate.
        unfold bind at 1 in Hr. destruct (drop_list_add _ _ _) as [u' s4| | |]; try discriminate.
        unfold hand_out in Hr. injection Hr as <-. cbn [bl_tab]. do 2 eexists. split; [reflexivity|]. left. reflexivity.
      + destruct tr; try discriminate. unfold bind, hand_out, log in Hr. injection Hr as <-. cbn [bl_tab bl_log].
        do 2 eexists. split; [reflexivity|]. right. split; [reflexivity|]. split; [reflexivity|]. eexists. reflexivity.
    - unfold bind at 1 in Hr. destruct (drain _ _ _ _ _ _ _) as [n s2| | |] eqn:Ed; try discriminate. apply G in Ed. subst n.
      unfold hand_out in Hr. injection Hr as <-. cbn [bl_tab]. do 2 eexists. split; [reflexivity|]. left. reflexivity.
  Qed.
End Collect.
