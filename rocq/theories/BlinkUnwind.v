(** Running out of memory when [handle_alloc_error] unwinds (C82). *)
From Verif Require Import Base BaseFacts Alloc AllocFacts History HistoryFacts Blink BlinkInv BlinkReset BlinkOps BlinkIter
  BlinkMain BlinkEnv BlinkLog BlinkYield BlinkProps BlinkFate.

(** Neither [next] nor [size_hint] of the iterator panics. *)
Definition steady (it : script) : Prop := no_panic (outs_of it) /\ hints_panic it = false.

Section Unwind.
  Variable E : env.
  Hypothesis HE : env_ok E.

  Lemma plain_quiet it : plain it = true -> forall n, reenters it n = false.
  Proof.
    induction it as [|lo up body out rest IH]; intros H n; [reflexivity|]. destruct body; [|discriminate]. cbn [reenters].
    destruct (_ =? _)%nat; [reflexivity|]. apply IH. exact H.
  Qed.
  Lemma hints_quiet it : hints_panic it = false -> forall n, hint_panics it n = false.
  Proof.
    induction it as [lo up|lo up body out rest IH]; cbn [hints_panic hint_panics]; intros H n.
    - rewrite H. apply andb_false_r.
    - apply orb_false_iff in H. destruct H as [H1 H2]. destruct (_ =? _)%nat; [exact H1|apply IH; exact H2].
  Qed.

  (** If the iterator is not to blame, memory is: the elements collected so far are
      still owned, the one at hand is dropped. *)
  Lemma collect_unwinds fr w os s k T it s' : arrives E fr w os s ->
    let o := BFromIter k Unwinds T it in
    sound (e_exact E) o = true -> t_size T <> 0 -> plain it = true -> steady it -> erun1 E o s = OPanic s' ->
    exists used rest vals one, outs_of it = used ++ rest /\ somes used = vals ++ opt_list one /\ (one = None -> vals = []) /\
      (vals = [] \/ shows E s' (dropping k T) (t_id T) vals) /\
      exists d, bl_log s' = bl_log s ++ d ++ (if t_drop T then map (EEarly (t_id T)) (opt_list one) else []).
  Proof.
    intros Ha o Ho Hz Hpl [Hno Hh] Hr. pose proof (goes_on E _ _ _ _ _ _ Ha Ho (or_intror Hr)) as Ha'.
    assert (S := arrived_step E HE _ _ _ _ _ Ha Ho). unfold safe in S. rewrite Hr in S. destruct S as (_ & _ & D).
    cbn [gave_up o] in D. destruct (Z.eqb_spec (t_size T) 0); [contradiction|].
    destruct D as (used & rest & Eo & Hp & [(x & rest' & -> & Hb & _)|[(Ht & vals & v & Ev & [d D])|[(Ht & Hbig & Ev & [d D])|(Hl & _)]]]).
    - exfalso. destruct Hb as [-> | Hb]; [|rewrite (plain_quiet it Hpl) in Hb; discriminate].
      apply (Hno NPanic); [|reflexivity]. rewrite Eo. apply in_or_app. right. left. reflexivity.
    - exists used, rest, vals, (Some v). split; [exact Eo|]. split; [exact Ev|]. split; [discriminate|]. cbn [app] in Ev. split.
      + destruct vals as [|y vals]; [left; reflexivity|right]. cbn [flush_log is_nil] in D.
        eapply (shows_new E HE _ _ _ _ (bl_log s ++ d)); [exact Ha'|rewrite D, <- app_assoc; reflexivity|].
        unfold early. destruct (t_drop T); repeat constructor.
      + exists (d ++ flush_log (dropping k T) T vals false). rewrite D, <- !app_assoc. unfold early. destruct (t_drop T); reflexivity.
    - exists used, rest, [], None. split; [exact Eo|]. split; [exact Ev|]. split; [reflexivity|]. split; [left; reflexivity|].
      exists d. rewrite D. destruct (t_drop T); reflexivity.
    - exfalso. rewrite (hints_quiet it Hh) in Hl. discriminate.
  Qed.

  (** A value: dropped at once, nothing else happens. *)
  Definition unpanicking {B} (m : M (bl (e_W E)) B) : Prop := forall s s', m s <> OPanic s'.
  Lemma un_bind {B C} (m : M (bl (e_W E)) B) (f : B -> M (bl (e_W E)) C) : unpanicking m -> (forall b, unpanicking (f b)) -> unpanicking (bind m f).
  Proof. intros Hm Hf s s'. unfold bind. specialize (Hm s). destruct (m s) as [x q|q| |]; [apply Hf|exact (fun _ => Hm q eq_refl)|discriminate|discriminate]. Qed.
  Lemma un_store a n al v : unpanicking (store_at (e_A E) a n al v).
  Proof. intros s s'. apply store_no_panic. Qed.
  Lemma un_result T r a o : unpanicking (write_result (e_A E) T r a o).
  Proof.
    unfold write_result. destruct (_ =? _); [|intros s s'; discriminate]. apply un_bind; [intros s s'; discriminate|].
    intros []. destruct o; [apply un_store|intros s s'; discriminate].
  Qed.
  Lemma un_drops p n g nx : unpanicking (write_drops (e_A E) p n g nx).
  Proof. unfold write_drops. apply un_bind; [apply un_store|intros []]. apply un_bind; [apply un_store|intros []]. apply un_store. Qed.
  Lemma un_add p : unpanicking (drop_list_add (e_A E) p).
  Proof.
    unfold drop_list_add. apply un_bind; [intros s s'; discriminate|intros x]. apply un_bind; [intros s s'; discriminate|intros []].
    apply un_bind; [apply un_store|intros []]. intros s s'. discriminate.
  Qed.

  Lemma alloc_unpanicking fr w os s lay s' : arrives E fr w os s -> req_ok (e_smax E) lay -> on_alloc (al_allocate (e_A E) lay) s <> OPanic s'.
  Proof.
    intros Ha Hq Hp. destruct (arrived E HE _ _ _ _ Ha) as [B _]. destruct HE as (Hct & _).
    pose proof (safe_allocate _ _ _ _ Hct (e_bomb E) fr s lay (fun _ => False) B Hq) as S. unfold safe in S. rewrite Hp in S. exact S.
  Qed.

  Lemma value_unwinds fr w os s k T r e v s' : arrives E fr w os s ->
    let o := BEmplace k Unwinds T r e BNil (COk v) in
    sound (e_exact E) o = true -> erun1 E o s = OPanic s' ->
    bl_tab s' = bl_tab s /\ bl_root s' = bl_root s /\ bl_log s' = bl_log s ++ (if t_drop T then [EEarly (t_id T) v] else []).
  Proof.
    intros Ha o Ho H. unfold o in *. rewrite run_emplace in H. destruct (legal _) eqn:Hl; [|discriminate].
    assert (Hlost : forall s1, unchanged s s1 -> alloc_failed Unwinds (log (EBack (t_id T) v)) (drop_unwinding (e_bomb E) T v) s1 = OPanic s' ->
      bl_tab s' = bl_tab s /\ bl_root s' = bl_root s /\ bl_log s' = bl_log s ++ (if t_drop T then [EEarly (t_id T) v] else [])).
    { intros s1 (U1 & U2 & U3) Hp. unfold alloc_failed, drop_unwinding, bind in Hp. destruct (t_drop T).
      - cbn in Hp. destruct (e_bomb E _ _); [discriminate|]. cbn in Hp. injection Hp as <-. cbn. repeat split; congruence.
      - cbn in Hp. injection Hp as <-. rewrite app_nil_r. auto. }
    cbn [legal] in Hl. apply andb_true_iff in Hl. destruct Hl as [Hl _]. apply andb_true_iff in Hl. destruct Hl as [Hl He]. apply andb_true_iff in Hl. destruct Hl as [HT Hrr].
    destruct (ty_ok_facts T HT) as (T1 & T2 & T3 & T4 & T5). destruct (res_ok_facts T e He) as (R1 & R2 & R3 & R4 & R5 & R6 & R7 & R8).
    destruct HE as (_ & Hsm & _).
    unfold emplace in H. destruct (negb (t_drop T) || no_drop k).
    - unfold emplace_no_drop in H. unfold bind at 1 in H.
      destruct (on_alloc _ s) as [[b|] s1|s1| |] eqn:Ea; try discriminate H.
      + exfalso. change (bind (write_result (e_A E) T r (b_ptr b) (Some v)) (fun _ => hand_out
          (mkH [mkU (b_ptr b) (b_len b) (mkLayout (t_size T) (t_align T))] (b_ptr b + r_off r) (t_id T) (t_size T) (t_align T) 1 None (mutable k)) [Some v]) s1 = OPanic s') in H. revert H.
        apply un_bind; [apply un_result|]. intros [] q q'. discriminate.
      + pose proof (still_on_alloc (al_allocate (e_A E) (mkLayout (t_size T) (t_align T))) s) as U. rewrite Ea in U. exact (Hlost s1 U H).
      + exfalso. refine (alloc_unpanicking fr w os s _ s1 Ha _ Ea).
        apply (req_ok_mono ISIZE_MAX); [exact Hsm|]. apply req_ok_intro; cbn; [exact T2|lia|unfold ISIZE_MAX; lia].
    - unfold emplace_drop in H. unfold bind at 1 in H.
      destruct (on_alloc _ s) as [[b|] s1|s1| |] eqn:Ea; try discriminate H.
      + exfalso. cbv zeta in H. change (bind (write_result (e_A E) T r (b_ptr b + item_off (r_align r)) (Some v)) (fun _ =>
          bind (write_drops (e_A E) (b_ptr b) 1 (mkGlue (t_id T) (t_size T) (r_size r) (r_align r) (r_off r)) None) (fun _ =>
          bind (drop_list_add (e_A E) (b_ptr b)) (fun _ => hand_out
          (mkH [mkU (b_ptr b) (b_len b) (item_layout (r_size e) (r_align e))] (b_ptr b + item_off (r_align r) + r_off r) (t_id T) (t_size T) (t_align T) 1
            (Some (mkGlue (t_id T) (t_size T) (r_size r) (r_align r) (r_off r))) (mutable k)) [Some v]))) s1 = OPanic s') in H. revert H.
        apply un_bind; [apply un_result|]. intros []. apply un_bind; [apply un_drops|]. intros []. apply un_bind; [apply un_add|].
        intros [] q q'. discriminate.
      + pose proof (still_on_alloc (al_allocate (e_A E) (item_layout (r_size e) (r_align e))) s) as U. rewrite Ea in U. exact (Hlost s1 U H).
      + exfalso. refine (alloc_unpanicking fr w os s _ s1 Ha _ Ea). apply item_layout_req; auto; lia.
  Qed.
End Unwind.
