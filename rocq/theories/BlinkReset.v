(** Running the drop list. *)
From Coq Require Import Permutation.
From Verif Require Import Base BaseFacts Alloc AllocFacts History HistoryFacts Blink BlinkInv.

Definition edrop (d : Z * Z) : bev := EDrop (fst d) (snd d).

Lemma drops_of_map ds : drops_of (map edrop ds) = ds.
Proof. induction ds as [|[id v] ds IH]; [reflexivity|]. cbn. f_equal. exact IH. Qed.

Lemma especs_edrop bomb s ds : especs bomb s (map edrop ds) = (s, []).
Proof. induction ds as [|d ds IH]; cbn; [reflexivity|]. rewrite IH. reflexivity. Qed.

Lemma live_entries_live s : live_entries s = live s.
Proof. induction s as [|[e|] s IH]; cbn; congruence. Qed.

Definition reg_entry (e : sval) : bool := fst (fst e).

Lemma expected_filter bomb es : expected_drops bomb (filter reg_entry es) = expected_drops bomb es.
Proof.
  induction es as [|[[[|] id] vs] es IH]; [reflexivity| |].
  - cbn [filter reg_entry fst expected_drops]. rewrite IH. reflexivity.
  - cbn [filter reg_entry fst expected_drops entry_drops app existsb]. exact IH.
Qed.

Lemma filter_rev' {T} (f : T -> bool) l : filter f (rev l) = rev (filter f l).
Proof.
  induction l as [|x l IH]; [reflexivity|]. cbn [rev filter]. rewrite filter_app, IH. cbn [filter].
  destruct (f x); cbn; [reflexivity|apply app_nil_r].
Qed.

Lemma Forall2_rev {X Y} (R : X -> Y -> Prop) l l' : Forall2 R l l' -> Forall2 R (rev l) (rev l').
Proof.
  intros H. induction H; cbn; [constructor|]. apply Forall2_app; [assumption|]. constructor; [assumption|constructor].
Qed.

Definition strip (vs : list (option Z)) : list Z := flat_map (fun v => match v with Some v => [v] | None => [] end) vs.

Lemma strip_all vs : Forall (fun v => v <> None) vs -> map Some (strip vs) = vs /\ length (strip vs) = length vs.
Proof.
  intros H. induction H as [|v vs Hv H IH]; [split; reflexivity|]. destruct v as [v|]; [|congruence].
  destruct IH as [E1 E2]. cbn. unfold strip in *. rewrite E1, E2. split; reflexivity.
Qed.

Lemma entry_drops_strip id vs : entry_drops (true, id, vs) = map (fun v => (id, v)) (strip vs).
Proof. cbn. induction vs as [|[v|] vs IH]; cbn; [reflexivity| |exact IH]. f_equal. exact IH. Qed.

Section Reset.
  Context {W : Type} (amax smax : Z) (A : Allocator W) (own : W -> list ublock -> Prop).
  Hypothesis Hct : contract amax smax A own.
  Variable alloc_reset : M W unit.
  Variable dbg : bool.
  Variable bomb : Z -> Z -> bool.
  Notation bmem := (bmem A).
  Notation binv := (binv A own bomb).

  (** The values an item stands for can be read from memory. *)
  Definition readable (m : mem) (g : glue) (a : Z) (vs : list Z) : Prop :=
    forall i v, nth_error vs i = Some v ->
      if g_tsize g =? 0 then v = 0 else load m (a + Z.of_nat i * g_xsize g + g_xoff g) (g_tsize g) = Some v.

  Definition with_log (s : bl W) (d : list bev) : bl W := mkBl (bl_w s) (bl_root s) (bl_tab s) (bl_log s ++ d).

  Lemma with_log_nil s : with_log s [] = s.
  Proof. destruct s. unfold with_log. cbn. rewrite app_nil_r. reflexivity. Qed.
  Lemma with_log_app s d d' : with_log (with_log s d) d' = with_log s (d ++ d').
  Proof. unfold with_log. cbn. rewrite app_assoc. reflexivity. Qed.

  Lemma drop_elems_ok g vs : forall a pk s,
    readable (bmem s) g a vs ->
    safe (drop_elems A bomb g a (length vs) pk) s
      (fun r s' => s' = with_log s (map edrop (map (fun v => (g_id g, v)) vs)) /\
                   r = pk || existsb (bomb (g_id g)) vs)
      (fun _ => False).
  Proof.
    induction vs as [|v vs IH]; intros a pk s Hr.
    - cbn [length drop_elems]. apply safe_ret. cbn. rewrite with_log_nil, orb_false_r. auto.
    - cbn [length drop_elems]. apply safe_bind.
      assert (Hv : safe (read_value A (g_tsize g) (a + g_xoff g)) s (fun b s' => b = v /\ s' = s) (fun _ => False)).
      { unfold read_value. pose proof (Hr O v eq_refl) as H0. destruct (g_tsize g =? 0).
        - apply safe_ret. subst. auto.
        - apply safe_on_alloc. unfold mload, wp. replace (a + Z.of_nat 0 * g_xsize g + g_xoff g) with (a + g_xoff g) in H0 by lia.
          unfold BlinkInv.bmem in H0. rewrite H0. split; [reflexivity|destruct s; reflexivity]. }
      eapply safe_mono; [exact Hv| |intros ? []]. intros b s0 [-> ->].
      apply safe_bind. unfold log, safe at 1.
      assert (Hr' : readable (BlinkInv.bmem A (with_log s [EDrop (g_id g) v])) g (a + g_xsize g) vs).
      { intros i w Hi. specialize (Hr (S i) w Hi). cbn [nth_error] in Hr.
        replace (a + Z.of_nat (S i) * g_xsize g + g_xoff g) with (a + g_xsize g + Z.of_nat i * g_xsize g + g_xoff g) in Hr by lia.
        exact Hr. }
      fold (with_log s [EDrop (g_id g) v]).
      destruct (bomb (g_id g) v) eqn:Eb.
      + destruct pk; [apply safe_abort|].
        eapply safe_mono; [apply IH; exact Hr'| |intros ? []]. intros r s' [-> ->].
        rewrite with_log_app. cbn [map app existsb edrop fst snd]. rewrite Eb. split; reflexivity.
      + eapply safe_mono; [apply IH; exact Hr'| |intros ? []]. intros r s' [-> ->].
        rewrite with_log_app. cbn [map app existsb edrop fst snd]. rewrite Eb. split; reflexivity.
  Qed.

  (** Items and what they hold. *)
  Definition item_holds (m : mem) (it : Z * Z * glue) (e : sval) : Prop :=
    let '(p, c, g) := it in
    let '(reg, id, vs) := e in
    reg = true /\ glue_ok g /\ g_id g = id /\ Z.of_nat (length vs) = c /\
    Forall (fun v => v <> None) vs /\ readable m g (p + item_off (g_xalign g)) (strip vs).

  Lemma existsb_map_bad id vs : existsb (bad bomb) (map (fun v => (id, v)) vs) = existsb (bomb id) vs.
  Proof. induction vs as [|v vs IH]; [reflexivity|]. cbn. unfold bad at 1. cbn. rewrite IH. reflexivity. Qed.

  Lemma drop_loop_ok its es : forall fuel r s,
    Forall2 (item_holds (bmem s)) its es -> chain (bmem s) r its -> (length its <= fuel)%nat ->
    safe (drop_loop A bomb fuel r) s
      (fun _ s' => s' = with_log s (map edrop (expected_drops bomb es)))
      (fun s' => s' = with_log s (map edrop (expected_drops bomb es))).
  Proof.
    revert es. induction its as [|[[p c] g] its IH]; intros es fuel r s HF HC HL.
    - inversion HF; subst. cbn in HC. subst. destruct fuel; cbn [drop_loop]; apply safe_ret; cbn; rewrite with_log_nil; reflexivity.
    - inversion HF as [|? e ? es' He HF']; subst. cbn [chain] in HC.
      destruct HC as (-> & C2 & C3 & C4 & C5 & r' & C6 & C7).
      destruct fuel as [|fuel]; [cbn in HL; lia|]. cbn [drop_loop].
      destruct e as [[reg id] vs]. destruct He as (-> & G & E1 & E2 & E3 & E4).
      destruct (strip_all vs E3) as [S1 S2].
      apply safe_bind. unfold drops_drop.
      assert (LD : forall a n v (Q : Z -> bl W -> Prop) P, a mod 8 = 0 -> load (bmem s) a n = Some v -> Q v s -> safe (load_at A a n 8) s Q P).
      { intros a n v Q P Ha Hl HQ. unfold load_at. rewrite Ha. cbn [Z.eqb]. apply safe_on_alloc. unfold mload, wp.
        unfold BlinkInv.bmem in Hl. rewrite Hl. destruct s; exact HQ. }
      apply safe_bind. eapply LD; [exact C3|exact C4|].
      apply safe_bind. eapply LD; [apply mod_add0; auto; lia|exact C5|].
      apply safe_bind. eapply LD; [apply mod_add0; auto; lia|exact C6|].
      cbv zeta. rewrite (fn_of_ptr g G). apply safe_bind. subst c. rewrite Nat2Z.id.
      rewrite <- S2. eapply safe_mono; [apply drop_elems_ok; exact E4| |intros ? []].
      intros rb s' [-> ->]. cbn [orb].
      assert (Er : unlink (link r') = r').
      { destruct its as [|[[p' c'] g'] its']; cbn [chain] in C7.
        - subst r'. reflexivity.
        - destruct C7 as (-> & Hp & _). unfold unlink, link. replace (p' =? 0) with false by lia. reflexivity. }
      cbn [expected_drops]. rewrite entry_drops_strip, existsb_map_bad, E1.
      destruct (existsb (bomb id) (strip vs)).
      + apply safe_panic. rewrite app_nil_r. reflexivity.
      + apply safe_ret. rewrite Er.
        eapply safe_mono; [apply (IH es'); [exact HF'|exact C7|cbn in HL; lia]| |];
          intros; subst; rewrite with_log_app, map_app; reflexivity.
  Qed.

  Lemma items_hold m t e :
    Forall2 (agree m) t e -> Forall2 (item_holds m) (items t) (filter reg_entry (live e)).
  Proof.
    intros H. induction H as [|oh oe t e H1 H2 IH]; [constructor|].
    destruct oh as [h|], oe as [[[reg id] vs]|]; cbn in H1; try contradiction; [|exact IH].
    destruct H1 as (E1 & E2 & [H1 H3] & P & F). unfold items. cbn [live flat_map filter reg_entry fst].
    fold (items t). unfold item_of, registered in *.
    destruct P as (P1 & P2 & P3 & P4 & P5 & P6).
    destruct (h_item h) as [g|]; subst reg.
    2: { cbn [app]. exact IH. }
    destruct (h_blks h) as [|u [|]]; [destruct P6; discriminate| |contradiction].
    destruct P6 as (P6 & P7 & P8 & P9 & P10 & P11 & P12 & P13 & P14).
    cbn [app]. constructor; [|exact IH]. cbn. split; [reflexivity|]. split; [exact P8|]. split; [congruence|].
    split; [exact H1|]. split; [apply F; reflexivity|].
    destruct (strip_all vs (F eq_refl)) as [S1 S2].
    intros i v Hi. assert (Hv : nth_error vs i = Some (Some v)) by (rewrite <- S1; apply map_nth_error; exact Hi).
    specialize (H3 i v Hv). rewrite P10. destruct (h_size h =? 0); [exact H3|]. rewrite <- H3. f_equal.
    rewrite P13. destruct P14 as [P14|P14]; [|rewrite P14; lia].
    assert (i < length vs)%nat by (apply nth_error_Some; congruence).
    assert (i = 0)%nat by lia. subst i. cbn. lia.
  Qed.

  Lemma items_length t : (length (items t) <= length t)%nat.
  Proof.
    induction t as [|[h|] t IH]; [cbn; lia| |cbn [length]; exact (le_S _ _ IH)].
    change (items (Some h :: t)) with (item_of h ++ items t). rewrite app_length. cbn [length].
    assert (length (item_of h) <= 1)%nat by (unfold item_of; destruct (h_item h); [destruct (h_blks h)|]; cbn; lia).
    lia.
  Qed.

  Lemma blocks_none {T} (t : list T) : blocks (map (fun _ => None) t) = [].
  Proof. unfold blocks. rewrite live_none. reflexivity. Qed.
  Lemma items_none {T} (t : list T) : items (map (fun _ => None) t) = [].
  Proof. unfold items. rewrite live_none. reflexivity. Qed.

  Lemma agree_none m t e : Forall2 (agree m) t e -> Forall2 (agree m) (map (fun _ => None) t) (map (fun _ => None) e).
  Proof. intros H. induction H; cbn; constructor; cbn; auto. Qed.

  (** What [reset]/[drop_all] log. *)
  Definition reset_log (s : bl W) : list bev :=
    EReset :: map edrop (expected_drops bomb (rev (live_entries (state_of bomb s)))).

  Definition after_reset (s : bl W) : bl W :=
    mkBl (bl_w s) None (map (fun _ => None) (bl_tab s)) (bl_log s ++ reset_log s).

  Lemma after_reset_inv fr s : binv fr s -> binv fr (after_reset s).
  Proof.
    intros (junk & Ho & H1 & H2 & H3). exists (blocks (bl_tab s) ++ junk).
    unfold after_reset, state_of, BlinkInv.bmem; cbn [bl_w bl_root bl_tab bl_log].
    rewrite blocks_none, items_none. cbn [app rev chain]. split; [rewrite <- app_assoc; exact Ho|].
    split; [reflexivity|]. unfold reset_log. fold (state_of bomb s).
    rewrite especs_app. cbn [especs espec]. rewrite especs_edrop. cbn [fst snd]. split.
    - apply agree_none. exact H2.
    - rewrite drops_of_app, H3. f_equal. cbn. rewrite drops_of_map, app_nil_r. reflexivity.
  Qed.

  Lemma drop_list_reset_ok fr s :
    binv fr s ->
    safe (drop_list_reset A bomb) s (fun _ s' => s' = after_reset s) (fun s' => s' = after_reset s).
  Proof.
    intros (junk & Ho & H1 & H2 & H3). unfold drop_list_reset.
    apply safe_bind. unfold invalidate at 1, safe at 1. cbv beta.
    apply safe_bind. unfold get_root at 1, safe at 1.
    apply safe_bind. unfold set_root at 1, safe at 1. cbn [bl_w bl_root bl_tab bl_log].
    set (s1 := mkBl _ None _ _).
    pose proof (drop_loop_ok (rev (items (bl_tab s))) (rev (filter reg_entry (live (state_of bomb s))))
                  (length (bl_tab s)) (bl_root s) s1) as D.
    rewrite <- filter_rev', expected_filter, <- live_entries_live in D.
    assert (E : with_log s1 (map edrop (expected_drops bomb (rev (live_entries (state_of bomb s))))) = after_reset s).
    { unfold with_log, after_reset, s1, reset_log. cbn [bl_w bl_root bl_tab bl_log]. rewrite <- app_assoc. reflexivity. }
    rewrite E in D. apply D.
    - rewrite filter_rev', live_entries_live. apply Forall2_rev. apply items_hold. exact H2.
    - exact H1.
    - rewrite rev_length. apply items_length.
  Qed.
End Reset.
