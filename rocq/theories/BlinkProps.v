(** What the invariant means for clients of [Blink]. *)
From Coq Require Import Permutation.
From Verif Require Import Base BaseFacts Alloc AllocFacts History HistoryFacts Blink BlinkInv BlinkReset BlinkOps BlinkIter
  BlinkMain BlinkEnv BlinkLog BlinkYield.

(** ** Vocabulary *)

(** Memory as the client sees it. *)
Definition mem_of {E} (s : bl (e_W E)) : mem := al_mem (e_A E) (bl_w s).

(** The elements of a reference, read from memory; zero-sized values read 0. *)
Definition contents (m : mem) (h : handle) : list (option Z) :=
  map (fun j => if h_size h =? 0 then Some 0 else load m (h_ptr h + Z.of_nat j * h_size h) (h_size h))
      (seq 0 (Z.to_nat (h_cnt h))).

(** Registered for dropping or not, type, elements. *)
Definition entry_of (m : mem) (h : handle) : sval := (registered h, h_id h, contents m h).

(** Elements of type [i] registered for dropping, and dropped. *)
Fixpoint new_n (i : Z) (es : list bev) : nat :=
  match es with
  | [] => 0
  | ENew true j vs :: es' => (if j =? i then length vs else 0) + new_n i es'
  | _ :: es' => new_n i es'
  end.
Fixpoint drop_n (i : Z) (es : list bev) : nat :=
  match es with
  | [] => 0
  | EDrop j _ :: es' => (if j =? i then 1 else 0) + drop_n i es'
  | _ :: es' => drop_n i es'
  end.

(** Bytes of a reference. *)
Definition covers (h : handle) (x : Z) : Prop := h_ptr h <= x < h_ptr h + h_cnt h * h_size h.

(** ** Counting *)

Fixpoint count_id (i : Z) (ds : list (Z * Z)) : nat :=
  match ds with [] => 0 | (j, _) :: ds' => (if (j : Z) =? i then 1 else 0) + count_id i ds' end.
Definition pend1 (i : Z) (e : sval) : nat := let '(reg, id, vs) := e in if reg && (id =? i) then length vs else 0.
Fixpoint pend (i : Z) (es : list sval) : nat := match es with [] => 0 | e :: es' => pend1 i e + pend i es' end.
Definition full (e : sval) : Prop := let '(reg, _, vs) := e in reg = true -> Forall (fun v => v <> None) vs.

Lemma count_id_app i a b : count_id i (a ++ b) = (count_id i a + count_id i b)%nat.
Proof. induction a as [|[j v] a IH]; cbn; [reflexivity|]. rewrite IH. lia. Qed.
Lemma pend_app i a b : pend i (a ++ b) = (pend i a + pend i b)%nat.
Proof. induction a as [|e a IH]; cbn; [reflexivity|]. rewrite IH. lia. Qed.
Lemma pend_rev i a : pend i (rev a) = pend i a.
Proof. induction a as [|e a IH]; cbn; [reflexivity|]. rewrite pend_app, IH. cbn. lia. Qed.
Lemma drops_count i es : count_id i (drops_of es) = drop_n i es.
Proof. induction es as [|e es IH]; [reflexivity|]. destruct e; cbn; rewrite <- IH; reflexivity. Qed.

Lemma entry_count i e : (count_id i (entry_drops e) <= pend1 i e)%nat.
Proof.
  destruct e as [[reg id] vs]. unfold entry_drops, pend1. destruct reg; [|cbn; lia]. cbn [andb].
  induction vs as [|[v|] vs IH]; cbn; destruct (id =? i) eqn:E; cbn in *; try rewrite E; lia.
Qed.
Lemma entry_count_full i e : full e -> count_id i (entry_drops e) = pend1 i e.
Proof.
  destruct e as [[reg id] vs]. unfold full, entry_drops, pend1. destruct reg; [|reflexivity]. intros F. specialize (F eq_refl). cbn [andb].
  induction F as [|v vs Hv F IH]; cbn; [destruct (id =? i); reflexivity|]. destruct v as [v|]; [|congruence].
  cbn. destruct (id =? i) eqn:E; cbn in *; rewrite IH; reflexivity.
Qed.

Section Counting.
  Variable bomb : Z -> Z -> bool.

  Lemma expected_count i es : (count_id i (expected_drops bomb es) <= pend i es)%nat.
  Proof.
    induction es as [|e es IH]; cbn; [lia|]. rewrite count_id_app. pose proof (entry_count i e).
    destruct (existsb (bad bomb) (entry_drops e)); cbn; lia.
  Qed.
  Lemma expected_count_full i es : (forall id v, bomb id v = false) -> Forall full es ->
    count_id i (expected_drops bomb es) = pend i es.
  Proof.
    intros Hb F. induction F as [|e es Hf F IH]; cbn; [reflexivity|]. rewrite count_id_app, (entry_count_full i e Hf).
    replace (existsb (bad bomb) (entry_drops e)) with false; [rewrite IH; reflexivity|].
    symmetry. induction (entry_drops e) as [|d ds IHd]; cbn; [reflexivity|]. unfold bad. rewrite Hb. exact IHd.
  Qed.

  Lemma pend_live_app i (a : list (option sval)) x : pend i (live_entries (a ++ [Some x])) = (pend i (live_entries a) + pend1 i x)%nat.
  Proof. rewrite !live_entries_live, live_app, pend_app. cbn. lia. Qed.
  Lemma pend_set i st h x n v : get h st = Some x ->
    pend i (live_entries (set_nth h (Some (entry_set n v x)) st)) = pend i (live_entries st).
  Proof.
    intros G. destruct (get_split _ _ _ G) as (t1 & t2 & -> & <-). rewrite set_nth_split, !live_entries_live, !live_app, !pend_app.
    cbn [live pend]. do 2 f_equal. destruct x as [[reg id] vs]. cbn. rewrite set_nth_length. reflexivity.
  Qed.
  Lemma full_set h n v (st : list (option sval)) x : get h st = Some x -> Forall full (live_entries st) ->
    Forall full (live_entries (set_nth h (Some (entry_set n v x)) st)).
  Proof.
    intros G. destruct (get_split _ _ _ G) as (t1 & t2 & -> & <-). rewrite set_nth_split, !live_entries_live, !live_app.
    cbn [live]. intros F. apply Forall_app in F. destruct F as [F1 F2]. apply Forall_app. split; [exact F1|].
    inversion F2 as [|? ? Hx F3]; subst. constructor; [|exact F3]. destruct x as [[reg id] vs]. cbn [entry_set full] in *.
    intros E. specialize (Hx E). clear - Hx. revert n. induction Hx as [|y vs Hy Hv IH]; intros n; [destruct n; constructor|].
    destruct n; cbn; constructor; auto. discriminate.
  Qed.
  Lemma live_none_entries (st : list (option sval)) : live_entries (map (fun _ => @None sval) st) = [].
  Proof. rewrite live_entries_live. apply live_none. Qed.

  (** What was dropped and what still will be is what was put in. *)
  Lemma spec_count i : forall es st,
    (count_id i (snd (especs bomb st es)) + pend i (live_entries (fst (especs bomb st es))) <= pend i (live_entries st) + new_n i es)%nat.
  Proof.
    induction es as [|e es IH]; intros st; [cbn; lia|]. cbn [especs].
    destruct (espec bomb st e) as [s1 d1] eqn:E. destruct (especs bomb s1 es) as [s2 d2] eqn:E2.
    specialize (IH s1). rewrite E2 in IH. cbn [fst snd] in *. rewrite count_id_app. destruct e; cbn [espec new_n] in *; inversion E; subst; cbn [count_id]; try lia.
    - rewrite pend_live_app in IH. cbn [pend1] in IH. destruct reg; cbn [andb] in IH; lia.
    - destruct (get h st) as [x|] eqn:G; [rewrite (pend_set i st h x i0 v G) in IH|]; lia.
    - rewrite live_none_entries in IH. pose proof (expected_count i (rev (live_entries st))) as X. rewrite pend_rev in X. cbn [pend] in IH. lia.
  Qed.

  Lemma spec_count_full i : (forall id v, bomb id v = false) -> forall es st,
    Forall full (live_entries st) -> Forall (fun e => match e with ENew true _ vs => Forall (fun v => v <> None) vs | _ => True end) es ->
    (count_id i (snd (especs bomb st es)) + pend i (live_entries (fst (especs bomb st es))) = pend i (live_entries st) + new_n i es)%nat.
  Proof.
    intros Hb. induction es as [|e es IH]; intros st F1 F2; [cbn; lia|]. cbn [especs]. inversion F2 as [|? ? He F3]; subst.
    destruct (espec bomb st e) as [s1 d1] eqn:E. destruct (especs bomb s1 es) as [s2 d2] eqn:E2.
    assert (F4 : Forall full (live_entries s1)).
    { destruct e; cbn [espec] in E; inversion E; subst; try exact F1.
      - rewrite live_entries_live, live_app. apply Forall_app. rewrite <- live_entries_live. split; [exact F1|].
        constructor; [|constructor]. cbn [full]. intros ->. exact He.
      - destruct (get h st) as [x|] eqn:G; [|exact F1]. apply full_set; assumption.
      - rewrite live_none_entries. constructor. }
    specialize (IH s1 F4 F3). rewrite E2 in IH. cbn [fst snd] in *. rewrite count_id_app.
    destruct e; cbn [espec new_n] in *; inversion E; subst; cbn [count_id]; try lia.
    - rewrite pend_live_app in IH. cbn [pend1] in IH. destruct reg; cbn [andb] in IH; lia.
    - destruct (get h st) as [x|] eqn:G; [rewrite (pend_set i st h x i0 v G) in IH|]; lia.
    - rewrite live_none_entries in IH. rewrite (expected_count_full i (rev (live_entries st)) Hb), pend_rev; [cbn [pend] in IH; lia|].
      apply Forall_rev. exact F1.
  Qed.
End Counting.

(** ** Contents *)

Lemma contents_holds m h vs : holds m h vs -> Forall (fun v => v <> None) vs -> contents m h = vs.
Proof.
  intros [L H] F. unfold contents. apply nth_ext with (d := None) (d' := None).
  - rewrite map_length, seq_length. lia.
  - intros j Hj. rewrite map_length, seq_length in Hj.
    set (f := fun j => if h_size h =? 0 then Some 0 else load m (h_ptr h + Z.of_nat j * h_size h) (h_size h)).
    assert (Hf : nth j (map f (seq 0 (Z.to_nat (h_cnt h)))) None = f j).
    { rewrite (nth_indep _ None (f 0%nat)) by (rewrite map_length, seq_length; exact Hj). rewrite map_nth, seq_nth by exact Hj. reflexivity. }
    rewrite Hf. assert (Hv : (j < length vs)%nat) by lia.
    destruct (nth_error vs j) as [x|] eqn:E; [|apply nth_error_None in E; lia].
    rewrite (nth_error_nth _ _ None E). rewrite Forall_forall in F. pose proof (F x (nth_error_In _ _ E)) as Hx.
    destruct x as [v|]; [|congruence]. specialize (H j v E). unfold f. destruct (h_size h =? 0); [subst; reflexivity|exact H].
Qed.

Lemma contents_some m h vs j v : holds m h vs -> nth_error vs j = Some (Some v) -> nth_error (contents m h) j = Some (Some v).
Proof.
  intros [L H] E. specialize (H j v E). assert (Hv : (j < length vs)%nat) by (apply nth_error_Some; congruence).
  unfold contents. rewrite nth_error_map. rewrite (nth_error_nth' _ 0%nat) by (rewrite seq_length; lia).
  rewrite seq_nth by lia. cbn. destruct (h_size h =? 0); [subst; reflexivity|]. rewrite H. reflexivity.
Qed.

Lemma agree_drops m h reg id vs : agree m (Some h) (Some (reg, id, vs)) -> entry_drops (entry_of m h) = entry_drops (reg, id, vs).
Proof.
  intros (-> & -> & H & _ & F). unfold entry_of. destruct (registered h); [|reflexivity].
  rewrite (contents_holds m h vs H (F eq_refl)). reflexivity.
Qed.

Lemma expected_ext bomb es es' : map entry_drops es = map entry_drops es' -> expected_drops bomb es = expected_drops bomb es'.
Proof.
  revert es'. induction es as [|e es IH]; intros [|e' es'] E; cbn in *; try discriminate; [reflexivity|].
  inversion E as [[E1 E2]]. rewrite E1, (IH es' E2). reflexivity.
Qed.

Section Props.
  Variable E : env.
  Hypothesis HE : env_ok E.
  Notation einv := (binv (e_A E) (e_own E) (e_bomb E)).

  Lemma state_entries m t e : Forall2 (agree m) t e -> map entry_drops (map (entry_of m) (live t)) = map entry_drops (live_entries e).
  Proof.
    intros H. induction H as [|oh oe t e H1 H2 IH]; [reflexivity|]. destruct oh as [h|], oe as [[[reg id] vs]|]; cbn in H1; try contradiction.
    - cbn [live map live_entries]. rewrite IH. f_equal. apply agree_drops. exact H1.
    - exact IH.
  Qed.

  Lemma reset_drops fr s : einv fr s ->
    expected_drops (e_bomb E) (rev (live_entries (state_of (e_bomb E) s))) =
    expected_drops (e_bomb E) (map (entry_of (mem_of s)) (rev (live (bl_tab s)))).
  Proof.
    intros (junk & _ & _ & H & _). apply expected_ext. rewrite map_rev, !map_rev. f_equal. symmetry. apply state_entries. exact H.
  Qed.

  (** C31 *)
  Lemma reset_log_ok fr w os s o : arrives E fr w os s -> o = BReset \/ o = BDropAll ->
    safe (erun1 E o) s
      (fun _ s' => bl_log s' = bl_log s ++ EReset :: map edrop (expected_drops (e_bomb E) (map (entry_of (mem_of s)) (rev (live (bl_tab s))))))
      (fun s' => bl_log s' = bl_log s ++ EReset :: map edrop (expected_drops (e_bomb E) (map (entry_of (mem_of s)) (rev (live (bl_tab s)))))).
  Proof.
    intros Ha Ho. destruct (arrived E HE _ _ _ _ Ha) as [B _].
    assert (Hs : sound (e_exact E) o = true) by (destruct Ho as [-> | ->]; reflexivity).
    rewrite <- (reset_drops fr s B).
    assert (X : safe (erun1 E o) s (fun _ s' => bl_log s' = bl_log s ++ reset_log (e_bomb E) s) (fun s' => bl_log s' = bl_log s ++ reset_log (e_bomb E) s)); [|exact X].
    destruct HE as (Hct & Hsm & Hex & Hr). destruct Ha as ((us & _ & HF) & _). unfold erun1.
    destruct Ho as [-> | ->]; cbn [bstep].
    - eapply safe_mono; [apply (reset_all_ok (e_A E) (e_own E) (e_reset E) (e_bomb E) (fun fr => e_shared E = true \/ fr = []) Hr fr s B HF)| |].
      + intros [] s' (_ & _ & L). exact L.
      + intros s' (_ & _ & L). exact L.
    - eapply safe_mono; [apply (drop_all_ok (e_A E) (e_own E) (e_bomb E) fr s B)| |].
      + intros [] s' (_ & _ & L). exact L.
      + intros s' (_ & _ & L). exact L.
  Qed.

  Lemma all_drops fr w os s : arrives E fr w os s -> snd (especs (e_bomb E) [] (bl_log s)) = drops_of (bl_log s).
  Proof. intros Ha. destruct (arrived E HE _ _ _ _ Ha) as [(junk & _ & _ & _ & H) _]. exact H. Qed.

  Lemma at_most_once fr w os s i : arrives E fr w os s -> (drop_n i (bl_log s) <= new_n i (bl_log s))%nat.
  Proof.
    intros Ha. pose proof (spec_count (e_bomb E) i (bl_log s) []) as H. rewrite (all_drops _ _ _ _ Ha), drops_count in H.
    cbn in H. lia.
  Qed.

  Lemma all_fine i os : forallb (all_op (op_fine i true true)) os = true.
  Proof.
    assert (H : (forall o, all_op (op_fine i true true) o = true) /\ (forall os, all_ops (op_fine i true true) os = true) /\
                (forall it, all_script (op_fine i true true) it = true)).
    { apply client_ind; intros; cbn [all_op all_ops all_script op_fine orb andb]; auto.
      - rewrite H, H0. reflexivity.
      - rewrite H, H0. reflexivity. }
    induction os as [|o os IH]; [reflexivity|]. cbn [forallb]. rewrite (proj1 H o), IH. reflexivity.
  Qed.

  Lemma log_full fr w os s : arrives E fr w os s ->
    Forall (fun e => match e with ENew true _ vs => Forall (fun v => v <> None) vs | _ => True end) (bl_log s).
  Proof.
    intros (_ & _ & Hr). pose proof (adds_main 0 true true true (e_A E) (e_reset E) (e_dbg E) (e_bomb E) os eq_refl (all_fine 0 os) (bl_new w)) as H.
    unfold erun in Hr. rewrite Hr in H. destruct H as (_ & d & L & F). cbn [bl_new bl_log app] in L. rewrite L.
    eapply Forall_impl; [|exact F]. intros e. destruct e as [[|]| | | | | | | |]; cbn; tauto.
  Qed.

  (** Without panicking destructors nothing is forgotten. *)
  Lemma exactly_once fr w os s i : arrives E fr w os s -> (forall id v, e_bomb E id v = false) ->
    live (bl_tab s) = [] -> drop_n i (bl_log s) = new_n i (bl_log s).
  Proof.
    intros Ha Hb Ht. pose proof (spec_count_full (e_bomb E) i Hb (bl_log s) [] (Forall_nil _) (log_full _ _ _ _ Ha)) as H.
    rewrite (all_drops _ _ _ _ Ha), drops_count in H. destruct (arrived E HE _ _ _ _ Ha) as [(junk & _ & _ & Hf & _) _].
    assert (L : live_entries (fst (especs (e_bomb E) [] (bl_log s))) = []).
    { fold (state_of (e_bomb E) s). clear - Hf Ht. rewrite live_entries_live. induction Hf as [|oh oe t e H1 H2 IH]; [reflexivity|].
      destruct oh, oe; cbn in *; try contradiction; [discriminate|auto]. }
    rewrite L in H. cbn in H. lia.
  Qed.

  (** C32 *)
  Lemma never_registered fr w os s i : arrives E fr w os s -> forallb (all_op (op_fine i false true)) os = true ->
    new_n i (bl_log s) = 0%nat /\ drop_n i (bl_log s) = 0%nat.
  Proof.
    intros Ha Hf. pose proof (adds_main i false true true (e_A E) (e_reset E) (e_dbg E) (e_bomb E) os eq_refl Hf (bl_new w)) as H.
    pose proof (at_most_once _ _ _ _ i Ha) as Hle.
    destruct Ha as (_ & _ & Hr). unfold erun in Hr. rewrite Hr in H. destruct H as (_ & d & L & F). cbn [bl_new bl_log app] in L.
    assert (Hn : new_n i (bl_log s) = 0%nat).
    { rewrite L. clear - F. induction F as [|e d He F IH]; [reflexivity|]. destruct e as [[|] j vs| | | | | | | |]; cbn; auto.
      destruct (Z.eqb_spec j i) as [Ej|Ej]; [|exact IH]. destruct He as [He _]. discriminate (He Ej). }
    lia.
  Qed.
  Lemma never_early fr w os s i : arrives E fr w os s -> forallb (all_op (op_fine i true false)) os = true ->
    forall v, ~ In (EEarly i v) (bl_log s).
  Proof.
    intros (_ & _ & Hr) Hf v Hin. pose proof (adds_main i true false true (e_A E) (e_reset E) (e_dbg E) (e_bomb E) os eq_refl Hf (bl_new w)) as H.
    unfold erun in Hr. rewrite Hr in H. destruct H as (_ & d & L & F). cbn [bl_new bl_log app] in L. rewrite L in Hin.
    rewrite Forall_forall in F. specialize (F _ Hin). discriminate (F eq_refl).
  Qed.

  (** C36 *)
  Lemma no_ub fr w os : ready E fr w -> forallb (sound (e_exact E)) os = true ->
    match erun E os (bl_new w) with ORet _ _ => True | OPanic _ => False | OAbort => True | OUB => False end.
  Proof.
    intros (us & Ho & HF) Hs. pose proof (erun_safe E HE fr os (bl_new w) Hs (bl_new_inv (e_A E) (e_own E) (e_bomb E) w us fr Ho) HF) as S.
    unfold safe in S. destruct (erun E os (bl_new w)); auto.
  Qed.

  Lemma agree_get m t e i h : Forall2 (agree m) t e -> get i t = Some h -> exists x, get i e = Some x /\ agree m (Some h) (Some x).
  Proof.
    intros H. revert i. induction H as [|oh oe t e H1 H2 IH]; intros [|i] G; cbn in G; try discriminate.
    - destruct oh as [h'|]; inversion G; subst. destruct oe as [x|]; [|contradiction]. exists x. split; [reflexivity|exact H1].
    - apply IH. exact G.
  Qed.

  (** The reference lies in one block. *)
  Lemma covers_block h x : placed h -> covers h x -> exists u, h_blks h = [u] /\ in_u x u.
  Proof.
    intros (P1 & P2 & P3 & P4 & P5 & P6) Hc. unfold covers in Hc. destruct (h_blks h) as [|u [|]]; [nia| |contradiction].
    exists u. split; [reflexivity|]. unfold in_u. lia.
  Qed.

  Lemma pairwise_app {T} (R : T -> T -> Prop) l1 l2 : pairwise R (l1 ++ l2) -> pairwise R l1 /\ pairwise R l2 /\ forall x y, In x l1 -> In y l2 -> R x y.
  Proof.
    induction l1 as [|a l1 IH]; cbn; [intros H; split; [exact I|split; [exact H|contradiction]]|].
    intros [H1 H2]. apply Forall_app in H1. destruct H1 as [H1 H3]. destruct (IH H2) as (I1 & I2 & I3).
    split; [split; assumption|]. split; [exact I2|]. intros x y [<-|Hx] Hy; [|auto]. rewrite Forall_forall in H3. auto.
  Qed.

  Lemma refs_apart fr w os s i j hi hj x : arrives E fr w os s ->
    get i (bl_tab s) = Some hi -> get j (bl_tab s) = Some hj -> i <> j -> covers hi x -> covers hj x -> False.
  Proof.
    intros Ha Gi Gj Nij Ci Cj. destruct (arrived E HE _ _ _ _ Ha) as [(junk & Ho & _ & Hf & _) _].
    destruct (agree_get _ _ _ _ _ Hf Gi) as ([[r1 d1] v1] & _ & (_ & _ & _ & P1 & _)).
    destruct (agree_get _ _ _ _ _ Hf Gj) as ([[r2 d2] v2] & _ & (_ & _ & _ & P2 & _)).
    destruct (covers_block _ _ P1 Ci) as (u1 & B1 & I1). destruct (covers_block _ _ P2 Cj) as (u2 & B2 & I2).
    destruct (ct_wf _ _ _ _ (proj1 HE) _ _ Ho) as [_ Pw]. apply pairwise_app in Pw. destruct Pw as (Pw & _ & _).
    assert (X : forall a b ha hb ua ub, get a (bl_tab s) = Some ha -> get b (bl_tab s) = Some hb -> (a < b)%nat ->
               h_blks ha = [ua] -> h_blks hb = [ub] -> disjoint_u ua ub).
    { clear - Pw. intros a b ha hb ua ub. revert a b. induction (bl_tab s) as [|oh t IH]; intros a b Ga Gb Hab Ba Bb; [destruct a; discriminate|].
      destruct b as [|b]; [lia|]. cbn in Gb. unfold blocks in *. destruct a as [|a].
      - cbn in Ga. destruct oh as [h|]; inversion Ga; subst. cbn [live flat_map] in Pw. rewrite Ba in Pw. cbn [app pairwise] in Pw.
        destruct Pw as [Pw _]. rewrite Forall_forall in Pw. apply Pw. apply in_flat_map. exists hb. split; [|rewrite Bb; left; reflexivity].
        apply live_in. exists b. exact Gb.
      - cbn in Ga. apply (IH) with (a := a) (b := b); try assumption; [|lia]. destruct oh; cbn [live flat_map] in Pw; [|exact Pw].
        apply pairwise_app in Pw. apply Pw. }
    destruct (Nat.lt_trichotomy i j) as [Hl|[He|Hl]]; [|congruence|].
    - exact (X i j hi hj u1 u2 Gi Gj Hl B1 B2 x I1 I2).
    - exact (X j i hj hi u2 u1 Gj Gi Hl B2 B1 x I2 I1).
  Qed.

  Lemma refs_placed fr w os s i h : arrives E fr w os s -> get i (bl_tab s) = Some h ->
    h_ptr h mod h_align h = 0 /\ (forall x, covers h x -> 0 < x < e_amax E) /\
    (forall x u, covers h x -> In u fr -> ~ in_u x u).
  Proof.
    intros Ha Gi. destruct (arrived E HE _ _ _ _ Ha) as [(junk & Ho & _ & Hf & _) _].
    destruct (agree_get _ _ _ _ _ Hf Gi) as ([[r1 d1] v1] & _ & (_ & _ & _ & P1 & _)).
    destruct (ct_wf _ _ _ _ (proj1 HE) _ _ Ho) as [Hok Pw].
    split; [apply P1|]. split.
    - intros x Hc. destruct (covers_block _ _ P1 Hc) as (u & Bu & Iu).
      assert (Hin : In u (blocks (bl_tab s))) by (apply in_flat_map; exists h; split; [apply live_in; eauto|rewrite Bu; left; reflexivity]).
      rewrite Forall_forall in Hok. destruct (Hok u (in_or_app _ _ _ (or_introl Hin))) as ((G1 & G2 & G3 & G4) & _).
      unfold in_u in Iu. cbn in *. lia.
    - intros x v Hc Hv Ix. destruct (covers_block _ _ P1 Hc) as (u & Bu & Iu).
      assert (Hin : In u (blocks (bl_tab s))) by (apply in_flat_map; exists h; split; [apply live_in; eauto|rewrite Bu; left; reflexivity]).
      apply pairwise_app in Pw. destruct Pw as (_ & _ & Pw). exact (Pw u v Hin (in_or_app _ _ _ (or_intror Hv)) x Iu Ix).
  Qed.

  (** What each live reference shows is what was put in and written since. *)
  Lemma refs_hold fr w os s i h : arrives E fr w os s -> get i (bl_tab s) = Some h ->
    exists vs, get i (fst (especs (e_bomb E) [] (bl_log s))) = Some (registered h, h_id h, vs) /\
      Z.of_nat (length vs) = h_cnt h /\ forall j v, nth_error vs j = Some (Some v) -> nth_error (contents (mem_of s) h) j = Some (Some v).
  Proof.
    intros Ha Gi. destruct (arrived E HE _ _ _ _ Ha) as [(junk & _ & _ & Hf & _) _].
    destruct (agree_get _ _ _ _ _ Hf Gi) as ([[r1 d1] v1] & G & (-> & -> & H & _)).
    exists v1. split; [exact G|]. split; [apply H|]. intros j v. apply contents_some. exact H.
  Qed.

  (** The blocks of others. *)
  Lemma others_untouched fr w os s : arrives E fr w os s -> same_on fr (al_mem (e_A E) w) (mem_of s).
  Proof. intros Ha. apply (arrived E HE _ _ _ _ Ha). Qed.

  (** ** One more operation *)

  (** The reference handed out last. *)
  Lemma last_ref fr s d0 reg id vs l : einv fr s -> bl_log s = l ++ d0 ++ [ENew reg id vs] -> Forall (fun v => v <> None) vs ->
    exists t h, bl_tab s = t ++ [Some h] /\ registered h = reg /\ h_id h = id /\ contents (mem_of s) h = vs.
  Proof.
    intros (junk & _ & _ & Hf & _) L F. unfold state_of in Hf. rewrite L, app_assoc, especs_app in Hf. cbn [especs espec fst snd] in Hf.
    apply Forall2_app_inv_r in Hf. destruct Hf as (t1 & t2 & _ & H2 & Et). inversion H2 as [|oh oe ? ? Ho Hn]; subst. inversion Hn; subst.
    destruct oh as [h|]; [|contradiction]. destruct Ho as (-> & -> & H & _). exists t1, h. split; [exact Et|].
    split; [reflexivity|]. split; [reflexivity|]. apply contents_holds; assumption.
  Qed.

  (** Old references stay. *)
  Lemma op_grows fr w os s o : arrives E fr w os s -> resets o = false ->
    match erun1 E o s with ORet _ s' | OPanic s' => exists t, bl_tab s' = bl_tab s ++ t | _ => True end.
  Proof.
    intros _ Hr. assert (Hf : all_op (op_fine 0 true true) o = true).
    { pose proof (all_fine 0 [o]) as H. cbn [forallb] in H. apply andb_true_iff in H. apply H. }
    pose proof (proj1 (client_adds 0 true true false (e_A E) (e_reset E) (e_dbg E) (e_bomb E)) o Hf false ltac:(rewrite Hr; reflexivity) s) as H.
    unfold erun1. destruct (bstep _ _ _ _ false o s); auto; destruct H as ([H|H] & _); try discriminate; exact H.
  Qed.

  (** A program goes on. *)
  Lemma bmain_snoc os o s s1 : erun E os s = ORet tt s1 ->
    erun E (os ++ [o]) s = match erun1 E o s1 with ORet _ s' | OPanic s' => ORet tt s' | OAbort => OAbort | OUB => OUB end.
  Proof.
    unfold erun, erun1. revert s. induction os as [|o' os IH]; intros s H.
    - inversion H; subst. cbn [app bmain]. unfold bind, caught. destruct (bstep _ _ _ _ false o s1) as [[] s'|s'| |]; reflexivity.
    - cbn [app bmain] in *. unfold bind in *. destruct (caught _ s) as [[] s2| | |]; try discriminate. apply IH. exact H.
  Qed.
  Lemma goes_on fr w os s o s' : arrives E fr w os s -> sound (e_exact E) o = true ->
    erun1 E o s = ORet tt s' \/ erun1 E o s = OPanic s' -> arrives E fr w (os ++ [o]) s'.
  Proof.
    intros (Hr & Hs & He) Ho H. split; [exact Hr|]. split; [rewrite forallb_app, Hs; cbn; rewrite Ho; reflexivity|].
    rewrite (bmain_snoc os o _ s He). destruct H as [-> | ->]; reflexivity.
  Qed.

  (** The last reference handed out shows these values. *)
  Definition shows (s : bl (e_W E)) (reg : bool) (id : Z) (vals : list Z) : Prop :=
    exists t h, bl_tab s = t ++ [Some h] /\ registered h = reg /\ h_id h = id /\ contents (mem_of s) h = map Some vals.

  Lemma somes_all vals : Forall (fun v : option Z => v <> None) (map Some vals).
  Proof. apply Forall_forall. intros x H. apply in_map_iff in H. destruct H as (v & <- & _). discriminate. Qed.

  Lemma shows_new fr w os s l reg id vals rest :
    arrives E fr w os s -> bl_log s = l ++ ENew reg id (map Some vals) :: rest ->
    Forall (fun e => match e with EFail | EBack _ _ | EEarly _ _ => True | _ => False end) rest -> shows s reg id vals.
  Proof.
    intros Ha L F. destruct (arrived E HE _ _ _ _ Ha) as [(junk & _ & _ & Hf & _) _].
    unfold state_of in Hf. replace (ENew reg id (map Some vals) :: rest) with ([ENew reg id (map Some vals)] ++ rest) in L by reflexivity.
    rewrite L, !especs_app in Hf. cbn [especs espec fst snd] in Hf.
    assert (Q : forall st, fst (especs (e_bomb E) st rest) = st).
    { clear - F. induction F as [|e rest He F IH]; intros st; [reflexivity|]. destruct e; try contradiction; cbn [especs espec];
        specialize (IH st); destruct (especs (e_bomb E) st rest) as [a b]; exact IH. }
    rewrite Q in Hf. apply Forall2_app_inv_r in Hf. destruct Hf as (t1 & t2 & _ & H2 & Et).
    inversion H2 as [|oh oe ? ? Ho Hn]; subst. inversion Hn; subst.
    destruct oh as [h|]; [|contradiction]. destruct Ho as (-> & -> & H & _). exists t1, h. split; [exact Et|].
    split; [reflexivity|]. split; [reflexivity|]. apply contents_holds; [exact H|apply somes_all].
  Qed.

  (** C35 *)
  Lemma emplace_value fr w os s k tr T r e body v s' : arrives E fr w os s ->
    let o := BEmplace k tr T r e body (COk v) in
    sound (e_exact E) o = true -> legal o = true -> erun1 E o s = ORet tt s' ->
    shows s' (dropping k T) (t_id T) [v] \/
    (tr = Try /\ bl_log s' = bl_log s ++ [EFail; EBack (t_id T) v] /\ bl_tab s' = bl_tab s /\ bl_root s' = bl_root s).
  Proof.
    intros Ha o Ho Hl Hr. pose proof (goes_on _ _ _ _ _ _ Ha Ho (or_introl Hr)) as Ha'.
    assert (S := arrived_step E HE _ _ _ _ _ Ha Ho). unfold safe in S. rewrite Hr in S. destruct S as (_ & _ & [[_ D]|[L _]]); [|congruence].
    destruct D as [[d D]|D]; [left|right; exact D]. eapply (shows_new _ _ _ _ (bl_log s ++ d) _ _ [v] []); [exact Ha'| |constructor].
    rewrite D, <- app_assoc. reflexivity.
  Qed.

  Lemma run_emplace k tr T r e body out : erun1 E (BEmplace k tr T r e body out) =
    if legal (BEmplace k tr T r e body out) then emplace (e_A E) (e_bomb E) k tr T r e (brun (e_A E) (e_reset E) (e_dbg E) (e_bomb E) body) out else ret tt.
  Proof. reflexivity. Qed.
  Lemma run_from_iter k tr T it : erun1 E (BFromIter k tr T it) =
    if legal (BFromIter k tr T it) then from_iter (e_A E) (e_dbg E) (e_bomb E) k tr T (biter (e_A E) (e_reset E) (e_dbg E) (e_bomb E) it) else ret tt.
  Proof. reflexivity. Qed.

  Lemma emplace_error s k tr T r e body x s' :
    let o := BEmplace k tr T r e body (CErr x) in
    legal o = true -> erun1 E o s = ORet tt s' ->
    refused tr (brun (e_A E) (e_reset E) (e_dbg E) (e_bomb E) body) x s s'.
  Proof.
    intros o Hl Hr. unfold o in *. rewrite run_emplace, Hl in Hr.
    pose proof (emplace_err (e_A E) (e_bomb E) k tr T r e (brun (e_A E) (e_reset E) (e_dbg E) (e_bomb E) body) x s) as X.
    unfold does in X. rewrite Hr in X. exact X.
  Qed.

  (** C43 *)
  Lemma copy_exact fr w os s tr T vs s' : arrives E fr w os s ->
    legal (BCopy tr T vs) = true -> erun1 E (BCopy tr T vs) s = ORet tt s' ->
    (shows s' false (t_id T) vs /\ bl_log s' = bl_log s ++ [ENew false (t_id T) (map Some vs)]) \/
    (tr = Try /\ bl_log s' = bl_log s ++ [EFail] /\ bl_tab s' = bl_tab s /\ bl_root s' = bl_root s).
  Proof.
    intros Ha Hl Hr. pose proof (goes_on _ _ _ _ (BCopy tr T vs) _ Ha eq_refl (or_introl Hr)) as Ha'.
    assert (S := arrived_step E HE _ _ _ _ (BCopy tr T vs) Ha eq_refl). unfold safe in S. rewrite Hr in S.
    destruct S as (_ & _ & [[_ [D|D]]|[L _]]); [left|right; exact D|congruence].
    split; [|exact D]. eapply (shows_new _ _ _ _ (bl_log s) _ _ vs []); [exact Ha'|exact D|constructor].
  Qed.
  Lemma copy_panics fr w os s tr T vs s' : arrives E fr w os s -> erun1 E (BCopy tr T vs) s = OPanic s' ->
    tr = Unwinds /\ bl_log s' = bl_log s /\ bl_tab s' = bl_tab s /\ bl_root s' = bl_root s.
  Proof.
    intros Ha Hr. assert (S := arrived_step E HE _ _ _ _ (BCopy tr T vs) Ha eq_refl). unfold safe in S. rewrite Hr in S. apply S.
  Qed.

  (** C37 - C39 *)

  (** The elements up to the first [None]. *)
  Fixpoint items (it : script) : list Z :=
    match it with SNext _ _ _ (NSome v) rest => v :: items rest | _ => [] end.

  Lemma items_used it : forall used rest, outs_of it = used ++ rest -> no_panic used -> stopped used rest -> fused it = true ->
    somes used = items it.
  Proof.
    assert (En : forall l, endedl l = true -> somes l = []).
    { induction l as [|[v| |] l IH]; cbn; auto; discriminate. }
    induction it as [|lo up body out it IH]; intros used rest Eu Hp Hs Hf; cbn [outs_of] in Eu.
    - destruct used; [reflexivity|discriminate].
    - destruct used as [|o used]; cbn [app] in Eu.
      + destruct Hs as [-> | [l El]]; [discriminate|destruct l; discriminate].
      + inversion Eu as [[Eo Er]]. subst o. destruct out as [v| |].
        * cbn [items]. cbn [fused] in Hf. change (somes (NSome v :: used)) with (v :: somes used). f_equal. apply (IH used rest Er); auto.
          -- intros x Hx. apply Hp. right. exact Hx.
          -- destruct Hs as [-> | [l El]]; [left; reflexivity|]. destruct l as [|y l]; [discriminate|]. cbn in El. injection El as _ El. right. exists l. exact El.
        * cbn [items]. cbn [fused] in Hf. change (somes (NNone :: used)) with (somes used). rewrite ended_outs, Er in Hf.
          apply En. clear - Hf. induction used as [|[v| |] used IH]; cbn in *; auto; discriminate.
        * exfalso. apply (Hp NPanic); [left|]; reflexivity.
  Qed.

  (** The slice handed out, or put on the list of things to drop, holds [vals]. *)
  Definition holds_slice (s : bl (e_W E)) (d : bool) (T : ty) (vals : list Z) : Prop :=
    shows s (d && negb (is_nil vals)) (t_id T) vals.

  Lemma flush_new d T vals : flush_log d T vals true = [ENew (d && negb (is_nil vals)) (t_id T) (map Some vals)].
  Proof. unfold flush_log. destruct vals; cbn; [rewrite andb_false_r|rewrite andb_true_r]; reflexivity. Qed.

  Lemma back_fine T one : Forall (fun e => match e with EFail | EBack _ _ | EEarly _ _ => True | _ => False end)
    (EFail :: map (EBack (t_id T)) (opt_list one)).
  Proof. constructor; [exact I|]. destruct one; constructor; [exact I|constructor]. Qed.

  Lemma collect_fused fr w os s k tr T it s' : arrives E fr w os s ->
    let o := BFromIter k tr T it in
    sound (e_exact E) o = true -> legal o = true -> t_size T <> 0 -> fused it = true -> erun1 E o s = ORet tt s' ->
    (holds_slice s' (dropping k T) T (items it) /\ exists d, bl_log s' = bl_log s ++ d ++ [ENew (dropping k T && negb (is_nil (items it))) (t_id T) (map Some (items it))]) \/
    (tr = Try /\ exists d vals one, holds_slice s' (dropping k T) T vals /\
       bl_log s' = bl_log s ++ d ++ EFail :: map (EBack (t_id T)) (opt_list one) /\
       exists used rest, outs_of it = used ++ rest /\ no_panic used /\ vals ++ opt_list one = somes used).
  Proof.
    intros Ha o Ho Hl Hz Hf Hr. pose proof (goes_on _ _ _ _ _ _ Ha Ho (or_introl Hr)) as Ha'.
    assert (S := arrived_step E HE _ _ _ _ _ Ha Ho). unfold safe in S. rewrite Hr in S. destruct S as (_ & _ & [[_ D]|[L _]]); [|congruence].
    cbn [did o] in D. destruct (Z.eqb_spec (t_size T) 0); [contradiction|].
    destruct D as (used & rest & Eo & Hp & [[Hs [d D]]|(Ht & vals & one & Ev & [d D])]).
    - left. rewrite flush_new in D. cbn [app] in D. rewrite (items_used it used rest Eo Hp Hs Hf) in D.
      split; [|exists d; exact D].
      eapply (shows_new _ _ _ _ (bl_log s ++ d) _ _ (items it) []); [exact Ha'| |constructor]. rewrite D, <- app_assoc. reflexivity.
    - right. split; [exact Ht|]. rewrite flush_new in D. cbn [app] in *.
      exists (d ++ [ENew (dropping k T && negb (is_nil vals)) (t_id T) (map Some vals)]), vals, one. split; [|split].
      + eapply (shows_new _ _ _ _ (bl_log s ++ d)); [exact Ha'|rewrite D, <- app_assoc; reflexivity|apply back_fine].
      + rewrite D, <- !app_assoc. reflexivity.
      + exists used, rest. auto.
  Qed.

  (** Any iterator that only yields: what was taken is in the slice or given back. *)
  Lemma collect_any fr w os s k tr T it s' : arrives E fr w os s ->
    let o := BFromIter k tr T it in
    sound (e_exact E) o = true -> legal o = true -> t_size T <> 0 -> plain it = true -> erun1 E o s = ORet tt s' ->
    exists vals one,
      holds_slice s' (dropping k T) T vals /\ (tr <> Try -> one = None) /\
      exists tail, (tail = [] /\ one = None \/ tr = Try /\ tail = EFail :: map (EBack (t_id T)) (opt_list one)) /\
      bl_log s' = bl_log s ++ map (EYield (t_id T)) (vals ++ opt_list one) ++
                  [ENew (dropping k T && negb (is_nil vals)) (t_id T) (map Some vals)] ++ tail.
  Proof.
    intros Ha o Ho Hl Hz Hpl Hr. pose proof (goes_on _ _ _ _ _ _ Ha Ho (or_introl Hr)) as Ha'.
    unfold o in *. rewrite run_from_iter, Hl in Hr. unfold from_iter in Hr.
    destruct (Z.eqb_spec (t_size T) 0); [contradiction|].
    pose proof (sized_does (e_A E) (e_dbg E) (e_bomb E) k tr T (biter (e_A E) (e_reset E) (e_dbg E) (e_bomb E) it) s
      (plain_yielders (e_A E) (e_reset E) (e_dbg E) (e_bomb E) it Hpl)) as D.
    unfold does in D. rewrite Hr in D. destruct D as [ys [D|(Ht & vals & one & Ev & D)]]; rewrite flush_new in D; cbn [app] in *.
    - exists ys, None. cbn [opt_list]. split; [|split; [reflexivity|exists []; split; [auto|rewrite !app_nil_r; exact D]]].
      eapply (shows_new _ _ _ _ (bl_log s ++ map (EYield (t_id T)) ys) _ _ ys []); [exact Ha'| |constructor].
      rewrite D, <- app_assoc. reflexivity.
    - exists vals, one. split; [|split; [intros; congruence|]].
      + eapply (shows_new _ _ _ _ (bl_log s ++ map (EYield (t_id T)) ys)); [exact Ha'|rewrite D, <- app_assoc; reflexivity|apply back_fine].
      + exists (EFail :: map (EBack (t_id T)) (opt_list one)). split; [auto|]. rewrite <- Ev. exact D.
  Qed.

  (** C42 *)

  (** The script after [n] calls. *)
  Fixpoint skip (n : nat) (it : script) : script :=
    match n, it with S n', SNext _ _ _ _ rest => skip n' rest | _, _ => it end.

  Lemma blamed_skip it : forall used o rest, outs_of it = used ++ o :: rest -> blamed (reenters it) o rest ->
    exists lo up body rest', skip (length used) it = SNext lo up body o rest' /\ (o = NPanic \/ body <> BNil).
  Proof.
    induction it as [|lo up body out it IH]; intros used o rest Ho Hb; [destruct used; discriminate|].
    destruct used as [|x used]; cbn [outs_of app] in Ho; inversion Ho as [[E1 E2]]; subst.
    - exists lo, up, body, it. split; [reflexivity|]. destruct Hb as [Hb|Hb]; [auto|]. cbn [reenters] in Hb. rewrite Nat.eqb_refl in Hb.
      right. destruct body; [discriminate|discriminate].
    - cbn [skip length]. apply (IH used o rest E2). destruct Hb as [Hb|Hb]; [left; exact Hb|right]. cbn [reenters] in Hb.
      destruct (Nat.eqb_spec (length rest) (length (outs_of it))) as [En|_]; [|exact Hb].
      rewrite E2, app_length in En. cbn in En. lia.
  Qed.

  Lemma hint_skip it : forall used rest, outs_of it = used ++ rest -> hint_panics it (length rest) = true ->
    first_lower (skip (length used) it) = PANICS.
  Proof.
    induction it as [lo up|lo up body out it IH]; intros used rest Ho Hp.
    - destruct used, rest; try discriminate. cbn [hint_panics length Nat.eqb andb] in Hp. apply Z.eqb_eq in Hp. exact Hp.
    - destruct used as [|x used]; cbn [outs_of app] in Ho; [subst rest|inversion Ho as [[E1 E2]]; subst].
      + cbn [hint_panics outs_of] in Hp. rewrite Nat.eqb_refl in Hp. apply Z.eqb_eq in Hp. exact Hp.
      + cbn [skip length]. apply (IH used rest E2). cbn [hint_panics outs_of length] in Hp.
        destruct (Nat.eqb_spec (length rest) (S (length (outs_of it)))) as [En|_]; [|exact Hp].
        rewrite E2, app_length in En. lia.
  Qed.

  (** Registered, if there is anything. *)
  Definition kept (s : bl (e_W E)) (T : ty) (vals : list Z) : Prop := vals = [] \/ shows s true (t_id T) vals.

  Lemma collect_panics fr w os s k tr T it s' : arrives E fr w os s ->
    let o := BFromIter k tr T it in
    sound (e_exact E) o = true -> t_size T <> 0 -> dropping k T = true -> erun1 E o s = OPanic s' ->
    (exists used lo up body out rest, firstn (length used) (outs_of it) = used /\ no_panic used /\
       skip (length used) it = SNext lo up body out rest /\ (out = NPanic \/ body <> BNil) /\ kept s' T (somes used)) \/
    (tr <> Try /\ exists used rest vals v, outs_of it = used ++ rest /\ no_panic used /\ somes used = vals ++ [v] /\
       kept s' T vals /\ exists d, bl_log s' = bl_log s ++ d ++ [EEarly (t_id T) v]) \/
    (exists used rest, outs_of it = used ++ rest /\ no_panic used /\ somes used = [] /\
       (tr = Unwinds \/ tr = Aborts /\ 2 ^ 62 < Z.max (first_lower it) 8 * t_size T)) \/
    (exists used, firstn (length used) (outs_of it) = used /\ no_panic used /\ first_lower (skip (length used) it) = PANICS /\
       (somes used = [] \/
        exists vals v, somes used = vals ++ [v] /\ kept s' T vals /\
          exists d d', bl_log s' = bl_log s ++ d ++ EEarly (t_id T) v :: d' /\
            (d' = [] \/ d' = [ENew true (t_id T) (map Some vals)]))).
  Proof.
    intros Ha o Ho Hz Hd Hr. pose proof (goes_on _ _ _ _ _ _ Ha Ho (or_intror Hr)) as Ha'.
    assert (S := arrived_step E HE _ _ _ _ _ Ha Ho). unfold safe in S. rewrite Hr in S. destruct S as (_ & _ & D).
    cbn [gave_up o] in D. destruct (Z.eqb_spec (t_size T) 0); [contradiction|]. rewrite Hd in D.
    assert (Kept : forall vals d tail, bl_log s' = bl_log s ++ d ++ flush_log true T vals false ++ tail ->
       Forall (fun e => match e with EFail | EBack _ _ | EEarly _ _ => True | _ => False end) tail -> kept s' T vals).
    { intros vals d tail L F. destruct vals as [|v vals]; [left; reflexivity|right]. cbn [flush_log is_nil] in L.
      eapply (shows_new _ _ _ _ (bl_log s ++ d)); [exact Ha'| |exact F]. rewrite L, <- app_assoc. reflexivity. }
    destruct D as (used & rest & Eo & Hp & [(x & rest' & -> & Hb & [d D])|[(Ht & vals & v & Ev & [d D])|[(Ht & Hbig & Ev & _)|(Hl & Hw)]]]).
    - left. destruct (blamed_skip it used x rest' Eo Hb) as (lo & up & body & rest & Es & Hw).
      exists used, lo, up, body, x, rest. split; [rewrite Eo, firstn_app, firstn_all, Nat.sub_diag; cbn; apply app_nil_r|].
      split; [exact Hp|]. split; [exact Es|]. split; [exact Hw|]. cbn [app saved] in D.
      apply (Kept _ d []); [rewrite app_nil_r; exact D|constructor].
    - right. left. split; [exact Ht|]. exists used, rest, vals, v. split; [exact Eo|]. split; [exact Hp|]. split; [exact Ev|].
      assert (Et : t_drop T = true) by (unfold dropping in Hd; destruct (t_drop T); [reflexivity|discriminate]).
      unfold early in D. rewrite Et in D. split.
      + apply (Kept _ d [EEarly (t_id T) v]); [exact D|repeat constructor].
      + exists (d ++ flush_log true T vals false). rewrite D, <- !app_assoc. reflexivity.
    - right. right. left. exists used, rest. split; [exact Eo|]. split; [exact Hp|]. split; [exact Ev|].
      destruct tr; [contradiction|right; split; [reflexivity|]|left; reflexivity]. destruct Hbig as [Hbig|]; [|discriminate]. destruct (Z.ltb_spec (2 ^ 62) (Z.max (first_lower it) 8 * t_size T)) as [|Hn]; [assumption|exfalso].
      assert (HT : ty_okb T = true).
      { unfold o in Hr. rewrite run_from_iter in Hr. cbn [legal] in Hr. destruct (ty_okb T); [reflexivity|discriminate]. }
      destruct (ty_ok_facts T HT) as (T1 & T2 & T3 & T4 & T5). destruct (array_off_facts T HT) as (O1 & O2 & O3 & O4 & O5 & O6 & O7).
      cbn [lay_for] in Hbig. unfold full_layout, array_layout in Hbig. change FASTER_START with 8 in Hbig.
      set (len := Z.max (first_lower it) 8) in *. assert (0 <= len) by (unfold len; lia).
      assert (Ha2 : 0 <= t_align T <= 2 ^ 32) by (unfold item_align in O7; lia).
      destruct (Z.leb_spec (len * t_size T) (ISIZE_MAX - (t_align T - 1))) as [_|Hn2]; [|unfold ISIZE_MAX in Hn2; lia].
      cbn [l_size l_align] in Hbig. change (l_size (head_layout T)) with (array_off true T) in Hbig.
      change (l_align (head_layout T)) with (item_align (t_align T)) in Hbig.
      replace (Z.max (item_align (t_align T)) (t_align T)) with (item_align (t_align T)) in Hbig by (unfold item_align; lia).
      unfold layout_okb in Hbig. cbn [l_size l_align] in Hbig. rewrite O6 in Hbig.
      destruct (Z.leb_spec (item_align (t_align T)) (2 ^ 63)); [|lia].
      destruct (Z.leb_spec 0 (array_off true T + len * t_size T)); [|nia].
      destruct (Z.leb_spec (array_off true T + len * t_size T) (ISIZE_MAX - (item_align (t_align T) - 1))) as [_|Hn3]; [discriminate|].
      unfold ISIZE_MAX in Hn3. lia.
    - right. right. right. exists used. split; [rewrite Eo, firstn_app, firstn_all, Nat.sub_diag; cbn; apply app_nil_r|].
      split; [exact Hp|]. split; [apply (hint_skip it used rest Eo Hl)|].
      destruct Hw as [(vals & v & Ev & [d D])|[Ev _]]; [right|left; exact Ev]. exists vals, v. split; [exact Ev|].
      assert (Et : t_drop T = true) by (unfold dropping in Hd; destruct (t_drop T); [reflexivity|discriminate]).
      unfold early in D. rewrite Et in D. cbn [saved] in D. split.
      + apply (Kept _ (d ++ [EEarly (t_id T) v]) []); [|constructor]. rewrite app_nil_r, D, <- !app_assoc. reflexivity.
      + exists d, (flush_log true T vals false). split; [exact D|]. unfold flush_log. destruct vals; [left|right]; reflexivity.
  Qed.

  (** C44 *)
  Definition reads {B} (m : M (bl (e_W E)) B) : Prop := forall s, match m s with ORet _ s' | OPanic s' => bl_w s' = bl_w s | _ => True end.
  Lemma reads_bind {B C} (m : M (bl (e_W E)) B) (f : B -> M (bl (e_W E)) C) : reads m -> (forall b, reads (f b)) -> reads (bind m f).
  Proof.
    intros Hm Hf s. unfold bind. specialize (Hm s). destruct (m s) as [b s1|s1| |]; auto. specialize (Hf b s1).
    destruct (f b s1); auto; congruence.
  Qed.
  Lemma reads_load a n al : reads (load_at (e_A E) a n al).
  Proof.
    intros s. unfold load_at. destruct (_ =? _); [|exact I]. unfold on_alloc, mload. destruct (load _ _ _); [reflexivity|exact I].
  Qed.
  Lemma reads_elems g : forall n a p, reads (drop_elems (e_A E) (e_bomb E) g a n p).
  Proof.
    induction n as [|n IH]; intros a p; cbn [drop_elems]; [intros s; reflexivity|].
    apply reads_bind.
    { intros s. unfold read_value. destruct (_ =? _); [reflexivity|]. unfold on_alloc, mload. destruct (load _ _ _); [reflexivity|exact I]. }
    intros v. apply reads_bind; [intros s; reflexivity|intros []]. destruct (e_bomb E (g_id g) v); [|apply IH].
    destruct p; [intros s; exact I|apply IH].
  Qed.
  Lemma reads_drops p : reads (drops_drop (e_A E) (e_bomb E) p).
  Proof.
    unfold drops_drop. apply reads_bind; [apply reads_load|intros c]. apply reads_bind; [apply reads_load|intros f].
    apply reads_bind; [apply reads_load|intros n]. apply reads_bind; [apply reads_elems|intros [|]]; intros s; reflexivity.
  Qed.
  Lemma reads_loop : forall n p, reads (drop_loop (e_A E) (e_bomb E) n p).
  Proof.
    induction n as [|n IH]; intros [a|]; cbn [drop_loop]; try (intros s; exact I || reflexivity).
    apply reads_bind; [apply reads_drops|]. apply IH.
  Qed.
  Lemma reads_reset : reads (blink_drop_all (e_A E) (e_bomb E)).
  Proof.
    unfold blink_drop_all, drop_list_reset. apply reads_bind; [intros s; reflexivity|intros n].
    apply reads_bind; [intros s; reflexivity|intros r]. apply reads_bind; [intros s; reflexivity|intros []]. apply reads_loop.
  Qed.
  (** A reset that does nothing to the allocator. *)
  Lemma shared_reset s : e_reset E = ret tt ->
    match erun1 E BReset s with ORet _ s' | OPanic s' => bl_w s' = bl_w s | _ => True end.
  Proof.
    intros Hr. unfold erun1. cbn [bstep]. rewrite Hr. unfold blink_reset_all. apply reads_bind; [apply reads_reset|].
    intros [] s'. reflexivity.
  Qed.
End Props.
