(** Which events programs can log, and the arithmetic of the specification. *)
From Coq Require Import Permutation.
From Verif Require Import Base BaseFacts Alloc AllocFacts History HistoryFacts Blink BlinkInv BlinkReset BlinkOps BlinkIter BlinkMain.

(** [f] on every operation of a program, nested ones included. *)
Fixpoint all_op (f : bop -> bool) (o : bop) : bool :=
  f o && match o with
         | BEmplace _ _ _ _ _ body _ => all_ops f body
         | BFromIter _ _ _ it => all_script f it
         | _ => true
         end
with all_ops (f : bop -> bool) (os : bops) : bool :=
  match os with BNil => true | BCons o os' => all_op f o && all_ops f os' end
with all_script (f : bop -> bool) (it : script) : bool :=
  match it with SEnd _ _ => true | SNext _ _ body _ rest => all_ops f body && all_script f rest end.

Definition resets (o : bop) : bool := match o with BReset | BDropAll => true | _ => false end.

(** Some [size_hint] panics. *)
Fixpoint hints_panic (it : script) : bool :=
  match it with
  | SEnd lo _ => lo =? PANICS
  | SNext lo _ _ _ rest => (lo =? PANICS) || hints_panic rest
  end.

(** Types that an operation registers for dropping; types that it may drop while
    collecting: zero-sized ones (C40), or one element when the size overflows,
    memory is exhausted or [size_hint] panics; and types of values that are lost
    when [handle_alloc_error] unwinds. *)
Definition registers (o : bop) : list Z :=
  match o with
  | BEmplace k _ T _ _ _ _ | BFromIter k _ T _ => if dropping k T then [t_id T] else []
  | _ => []
  end.
Definition may_drop_early (o : bop) : list Z :=
  match o with
  | BEmplace _ tr T _ _ _ _ => match tr with Unwinds => if t_drop T then [t_id T] else [] | _ => [] end
  | BFromIter _ tr T it => if t_drop T && ((t_size T =? 0) || negb (tries tr) || hints_panic it) then [t_id T] else []
  | _ => []
  end.

Section Events.
  Variable i : Z.
  Variable reg early : bool.    (* may values of type [i] be registered; dropped early? *)
  Variable rst : bool.          (* may there be resets? *)

  Definition fine (e : bev) : Prop :=
    match e with
    | ENew true j vs => (j = i -> reg = true) /\ Forall (fun v => v <> None) vs
    | EEarly j _ => j = i -> early = true
    | EReset => rst = true
    | _ => True
    end.
  (** Without resets, references stay. *)
  Definition grows {W} (s s' : bl W) : Prop := rst = true \/ exists t, bl_tab s' = bl_tab s ++ t.
  Definition op_fine (o : bop) : bool :=
    (reg || negb (existsb (Z.eqb i) (registers o))) && (early || negb (existsb (Z.eqb i) (may_drop_early o))).

  Context {W : Type} (A : Allocator W) (alloc_reset : M W unit) (dbg : bool) (bomb : Z -> Z -> bool).

  Definition adds {B} (m : M (bl W) B) : Prop :=
    forall s, match m s with
              | ORet _ s' | OPanic s' => grows s s' /\ exists d, bl_log s' = bl_log s ++ d /\ Forall fine d
              | _ => True
              end.

  Lemma grows_same (s s' : bl W) : bl_tab s' = bl_tab s -> grows s s'.
  Proof. intros E. right. exists []. rewrite app_nil_r. exact E. Qed.
  Lemma grows_trans (s s1 s' : bl W) : grows s s1 -> grows s1 s' -> grows s s'.
  Proof.
    intros [H|[t1 H1]]; [left; exact H|]. intros [H|[t2 H2]]; [left; exact H|]. right. exists (t1 ++ t2).
    rewrite H2, H1, app_assoc. reflexivity.
  Qed.
  Lemma quiet_adds (s s' : bl W) : bl_tab s' = bl_tab s -> bl_log s' = bl_log s ->
    grows s s' /\ exists d, bl_log s' = bl_log s ++ d /\ Forall fine d.
  Proof. intros E1 E2. split; [apply grows_same; exact E1|]. exists []. rewrite app_nil_r. auto. Qed.
  Lemma both (s s1 s' : bl W) :
    grows s s1 /\ (exists d, bl_log s1 = bl_log s ++ d /\ Forall fine d) ->
    grows s1 s' /\ (exists d, bl_log s' = bl_log s1 ++ d /\ Forall fine d) ->
    grows s s' /\ (exists d, bl_log s' = bl_log s ++ d /\ Forall fine d).
  Proof.
    intros (G1 & d1 & E1 & F1) (G2 & d2 & E2 & F2). split; [eapply grows_trans; eassumption|]. exists (d1 ++ d2).
    rewrite E2, E1, app_assoc. split; [reflexivity|apply Forall_app; auto].
  Qed.

  Lemma adds_ret {B} (b : B) : adds (ret b).
  Proof. intros s. apply quiet_adds; reflexivity. Qed.
  Lemma adds_panic {B} : adds (panic : M (bl W) B).
  Proof. intros s. apply quiet_adds; reflexivity. Qed.
  Lemma adds_abort {B} : adds (abort : M (bl W) B).
  Proof. intros s. exact I. Qed.
  Lemma adds_ub {B} : adds (ub : M (bl W) B).
  Proof. intros s. exact I. Qed.
  Lemma adds_bind {B C} (m : M (bl W) B) (f : B -> M (bl W) C) : adds m -> (forall b, adds (f b)) -> adds (bind m f).
  Proof.
    intros H1 H2 s. unfold bind. specialize (H1 s). destruct (m s) as [b s1|s1| |]; auto.
    specialize (H2 b s1). destruct (f b s1) as [c s2|s2| |]; auto; eapply both; eassumption.
  Qed.
  Lemma adds_on_alloc {B} (m : M W B) : adds (on_alloc m).
  Proof. intros s. unfold on_alloc. destruct (m (bl_w s)); auto; apply quiet_adds; reflexivity. Qed.
  Lemma adds_log e : fine e -> adds (log e).
  Proof. intros H s. cbn. split; [apply grows_same; reflexivity|]. exists [e]. auto. Qed.
  Lemma adds_debug b : adds (debug_assert dbg b).
  Proof. unfold debug_assert. destruct (_ && _); [apply adds_panic|apply adds_ret]. Qed.
  Lemma adds_unwind {B} (m : M (bl W) B) h : adds m -> adds h -> adds (on_unwind m h).
  Proof.
    intros H1 H2 s. unfold on_unwind. specialize (H1 s). destruct (m s) as [b s1|s1| |]; auto.
    specialize (H2 s1). destruct (h s1) as [c s2|s2| |]; auto; eapply both; eassumption.
  Qed.
  Lemma adds_hand_out h vs :
    (registered h = true -> (h_id h = i -> reg = true) /\ Forall (fun v => v <> None) vs) -> adds (hand_out h vs).
  Proof.
    intros H s. cbn. split; [right; eexists; reflexivity|]. eexists. split; [reflexivity|]. constructor; [|constructor]. unfold registered in H.
    destruct (h_item h); cbn [fine]; auto.
  Qed.
  Lemma adds_root : adds get_root.
  Proof. intros s. apply quiet_adds; reflexivity. Qed.
  Lemma adds_set_root r : adds (set_root r).
  Proof. intros s. apply quiet_adds; reflexivity. Qed.
  Lemma adds_store a n al v : adds (store_at A a n al v).
  Proof. unfold store_at. destruct (_ =? _); [apply adds_on_alloc|apply adds_ub]. Qed.
  Lemma adds_load a n al : adds (load_at A a n al).
  Proof. unfold load_at. destruct (_ =? _); [apply adds_on_alloc|apply adds_ub]. Qed.
  Lemma adds_write_result T r a o : adds (write_result A T r a o).
  Proof.
    unfold write_result. destruct (_ =? _); [|apply adds_ub]. apply adds_bind; [apply adds_on_alloc|intros _].
    destruct o; [apply adds_store|apply adds_ret].
  Qed.
  Lemma adds_write_drops p c g n : adds (write_drops A p c g n).
  Proof. unfold write_drops. apply adds_bind; [apply adds_store|intros _]. apply adds_bind; [apply adds_store|intros _]. apply adds_store. Qed.
  Lemma adds_add p : adds (drop_list_add A p).
  Proof.
    unfold drop_list_add. apply adds_bind; [apply adds_root|intros r]. apply adds_bind; [apply adds_set_root|intros _].
    apply adds_bind; [apply adds_store|intros _]. apply adds_set_root.
  Qed.
  Lemma adds_drop_elems g : forall n a p, adds (drop_elems A bomb g a n p).
  Proof.
    induction n as [|n IH]; intros a p; cbn [drop_elems]; [apply adds_ret|].
    apply adds_bind; [unfold read_value; destruct (_ =? _); [apply adds_ret|apply adds_on_alloc]|intros v].
    apply adds_bind; [apply adds_log; exact I|intros _]. destruct (bomb _ _); [destruct p; [apply adds_abort|]|]; apply IH.
  Qed.
  Lemma adds_drop_loop : forall n p, adds (drop_loop A bomb n p).
  Proof.
    induction n as [|n IH]; intros [a|]; cbn [drop_loop]; try apply adds_ret; [apply adds_ub|].
    apply adds_bind; [|intros b; apply IH]. unfold drops_drop. apply adds_bind; [apply adds_load|intros c].
    apply adds_bind; [apply adds_load|intros f]. apply adds_bind; [apply adds_load|intros nx].
    apply adds_bind; [apply adds_drop_elems|intros [|]]; [apply adds_panic|apply adds_ret].
  Qed.
  Lemma adds_reset : rst = true -> adds (drop_list_reset A bomb).
  Proof.
    intros Hr. unfold drop_list_reset.
    apply adds_bind; [intros s; cbn; split; [left; exact Hr|]; exists [EReset]; split; [reflexivity|constructor; [exact Hr|constructor]]|intros n].
    apply adds_bind; [apply adds_root|intros r]. apply adds_bind; [apply adds_set_root|intros _]. apply adds_drop_loop.
  Qed.
  Lemma adds_closure body out : adds body -> adds (closure body out).
  Proof. intros H. unfold closure. apply adds_bind; [exact H|intros _]. destruct out; [apply adds_ret|apply adds_ret|apply adds_panic]. Qed.
  Lemma adds_failed tr back lost : adds back -> (tr = Unwinds -> adds lost) -> adds (alloc_failed tr back lost).
  Proof.
    intros H H'. unfold alloc_failed. destruct tr; [|apply adds_abort|].
    - apply adds_bind; [apply adds_log; exact I|auto].
    - apply adds_bind; [auto|intros _; apply adds_panic].
  Qed.

  Lemma adds_emplace k tr T r e body out : op_fine (BEmplace k tr T r e BNil out) = true -> adds body ->
    adds (emplace A bomb k tr T r e body out).
  Proof.
    intros Hf Hb. unfold emplace.
    assert (Hback : adds (match out with COk v => log (EBack (t_id T) v) | _ => ret tt end))
      by (destruct out; [apply adds_log; exact I|apply adds_ret|apply adds_ret]).
    assert (Hlost : tr = Unwinds -> adds (match out with COk v => drop_unwinding bomb T v | _ => ret tt end)).
    { intros ->. destruct out as [v| |]; [|apply adds_ret|apply adds_ret]. unfold drop_unwinding. destruct (t_drop T) eqn:Ed; [|apply adds_ret].
      apply adds_bind; [|intros _; destruct (bomb _ _); [apply adds_abort|apply adds_ret]].
      apply adds_log. cbn. intros Hi. unfold op_fine in Hf. cbn [may_drop_early] in Hf. rewrite Ed, Hi in Hf.
      cbn [existsb] in Hf. rewrite Z.eqb_refl in Hf. destruct early; [reflexivity|]. rewrite andb_false_r in Hf. discriminate. }
    unfold op_fine in Hf. apply andb_true_iff in Hf. destruct Hf as [Hf _]. cbn [registers] in Hf. unfold dropping in Hf.
    destruct (negb (t_drop T) || no_drop k); cbn [negb] in Hf.
    - unfold emplace_no_drop. apply adds_bind; [apply adds_on_alloc|]. intros [b|]; [|apply adds_failed; assumption].
      apply adds_bind; [apply adds_closure; exact Hb|]. intros [[v|]|err].
      + apply adds_bind; [apply adds_write_result|intros _]. apply adds_hand_out. discriminate.
      + apply adds_bind; [apply adds_write_result|intros _]. apply adds_ub.
      + apply adds_bind; [apply adds_write_result|intros _]. apply adds_bind; [apply adds_on_alloc|intros _]. apply adds_log. exact I.
    - unfold emplace_drop. apply adds_bind; [apply adds_on_alloc|]. intros [b|]; [|apply adds_failed; assumption].
      apply adds_bind; [apply adds_closure; exact Hb|]. intros [[v|]|err].
      + apply adds_bind; [apply adds_write_result|intros _]. apply adds_bind; [apply adds_write_drops|intros _].
        apply adds_bind; [apply adds_add|intros _]. apply adds_hand_out. intros _. cbn [h_id]. split.
        * intros Hi. rewrite Hi in Hf. cbn [existsb] in Hf. rewrite Z.eqb_refl in Hf. destruct reg; [reflexivity|discriminate].
        * constructor; [discriminate|constructor].
      + apply adds_bind; [apply adds_write_result|intros _]. apply adds_bind; [apply adds_write_drops|intros _]. apply adds_ub.
      + apply adds_bind; [apply adds_write_result|intros _]. apply adds_bind; [apply adds_write_drops|intros _].
        apply adds_bind; [apply adds_on_alloc|intros _]. apply adds_log. exact I.
  Qed.

  Lemma adds_copy tr T vs : adds (copy_slice A tr T vs).
  Proof.
    unfold copy_slice. apply adds_bind; [apply adds_on_alloc|]. intros [b|]; [|apply adds_failed; intros; apply adds_ret].
    apply adds_bind; [|intros _; apply adds_hand_out; discriminate].
    generalize (b_ptr b). induction vs as [|v vs IH]; intros a; cbn [write_all]; [apply adds_ret|].
    apply adds_bind; [apply adds_store|intros _]. apply IH.
  Qed.
  Lemma adds_uninit tr T : adds (uninit A tr T).
  Proof.
    unfold uninit. apply adds_bind; [apply adds_on_alloc|]. intros [b|]; [|apply adds_failed; intros; apply adds_ret].
    apply adds_hand_out. discriminate.
  Qed.
  Lemma adds_set h n v : adds (set_elem A h n v).
  Proof.
    intros s. unfold set_elem. destruct (get h (bl_tab s)) as [x|]; [|apply (adds_ret tt s)].
    destruct (_ && _); [|apply (adds_ret tt s)].
    apply (adds_bind (if h_size x =? 0 then ret tt else store_at A (h_ptr x + Z.of_nat n * h_size x) (h_size x) (h_align x) v)
             (fun _ => log (ESet h n v))).
    - destruct (_ =? _); [apply adds_ret|apply adds_store].
    - intros _. apply adds_log. exact I.
  Qed.

  (** *** Iterators *)
  Section From.
    Variable k : entry.
    Variable tr : oom.
    Variable T : ty.
    Variable it0 : script.
    Hypothesis Hf : op_fine (BFromIter k tr T it0) = true.
    Definition acts (it : iter (W := W)) : Prop :=
      Forall (fun x => adds (snd x) /\ (fst (fst x) = PANICS -> hints_panic it0 = true)) (fst it) /\
      (fst (snd it) = PANICS -> hints_panic it0 = true).
    Lemma acts_tail x its last : acts (x :: its, last) -> acts (its, last).
    Proof. intros [H1 H2]. split; [|exact H2]. inversion H1; assumption. Qed.
    Lemma acts_hint it : acts it -> fst (hint it) = PANICS -> hints_panic it0 = true.
    Proof.
      intros [H1 H2]. unfold hint. destruct (fst it) as [|[h m] its]; [exact H2|]. inversion H1 as [|y l [_ H] _]; subst. exact H.
    Qed.

    Lemma fine_reg : dropping k T = true -> t_id T = i -> reg = true.
    Proof.
      intros Hd Hi. unfold op_fine in Hf. cbn [registers] in Hf. rewrite Hd, Hi in Hf.
      cbn [existsb] in Hf. rewrite Z.eqb_refl in Hf. destruct reg; [reflexivity|discriminate].
    Qed.
    Lemma fine_early : t_drop T = true -> (t_size T =? 0) || negb (tries tr) || hints_panic it0 = true -> t_id T = i -> early = true.
    Proof.
      intros Hd Hz Hi. unfold op_fine in Hf. cbn [may_drop_early] in Hf. rewrite Hd, Hz, Hi in Hf.
      cbn [andb existsb] in Hf. rewrite Z.eqb_refl in Hf. destruct early; [reflexivity|]. rewrite andb_false_r in Hf. discriminate.
    Qed.

    Lemma adds_next (it : iter (W := W)) : acts it -> adds (next T it).
    Proof.
      intros [H _]. unfold next. destruct it as [its last]. cbn [fst snd] in *. destruct H as [|[h m] its [H1 _] H2]; [apply adds_ret|].
      apply adds_bind; [exact H1|]. intros [v|]; [|apply adds_ret]. apply adds_bind; [apply adds_log; exact I|intros _; apply adds_ret].
    Qed.
    (** The iterator that is left. *)
    Lemma next_rest (it : iter (W := W)) s r s' : next T it s = ORet r s' -> snd r = it \/ exists x, it = (x :: fst (snd r), snd (snd r)).
    Proof.
      unfold next. destruct it as [[|[h m] its] last]; cbn [fst snd]; intros E; [inversion E; subst; auto|].
      right. exists (h, m). unfold bind in E. destruct (m s) as [[v|] s1| | |]; try discriminate; inversion E; subst; reflexivity.
    Qed.
    Lemma acts_next (it : iter (W := W)) s r s' : next T it s = ORet r s' -> acts it -> acts (snd r).
    Proof.
      intros E H. destruct (next_rest _ _ _ _ E) as [->|[x X]]; [exact H|]. rewrite X in H. apply acts_tail in H.
      destruct (snd r); exact H.
    Qed.
    Lemma adds_ask (it : iter (W := W)) : adds (ask_hint it).
    Proof. unfold ask_hint. destruct (_ =? _); [apply adds_panic|apply adds_ret]. Qed.
    (** With an element that would be dropped. *)
    Lemma adds_ask_one one (it : iter (W := W)) : acts it -> adds (on_unwind (ask_hint it) (drop_unwinding bomb T one)).
    Proof.
      intros H. unfold ask_hint. destruct (Z.eqb_spec (fst (hint it)) PANICS) as [E|E].
      - apply adds_unwind; [apply adds_panic|]. unfold drop_unwinding. destruct (t_drop T) eqn:Ed; [|apply adds_ret].
        apply adds_bind; [|intros _; destruct (bomb _ _); [apply adds_abort|apply adds_ret]].
        apply adds_log. cbn. apply (fine_early Ed). rewrite (acts_hint it H E). apply orb_true_r.
      - intros s. apply (adds_ret tt s).
    Qed.

    Lemma adds_init p c : adds (init_slice A dbg T p c).
    Proof. unfold init_slice. apply adds_bind; [apply adds_debug|intros _; apply adds_write_drops]. Qed.
    Lemma adds_flush g give : adds (flush_guard A dbg k T g give).
    Proof.
      unfold flush_guard. destruct (gu_ptr g) as [u|].
      2: { destruct give; [apply adds_hand_out; discriminate|apply adds_ret]. }
      destruct (_ =? _).
      { apply adds_bind; [apply adds_on_alloc|intros _]. destruct give; [apply adds_hand_out; discriminate|apply adds_ret]. }
      destruct (dropping k T) eqn:Ed; [|apply adds_hand_out; discriminate].
      apply adds_bind; [apply adds_init|intros _]. apply adds_bind; [apply adds_add|intros _].
      apply adds_hand_out. intros _. cbn [h_id]. split; [apply fine_reg; exact Ed|].
      apply Forall_forall. intros x Hx. apply in_map_iff in Hx. destruct Hx as (y & <- & _). discriminate.
    Qed.
    Lemma adds_guarded {B} g (m : M (bl W) B) : adds m -> adds (guarded A dbg k T g m).
    Proof. intros H. apply adds_unwind; [exact H|]. destruct (dropping k T); [apply adds_flush|apply adds_ret]. Qed.
    Lemma guarded_ret {B} g (m : M (bl W) B) s r s' : guarded A dbg k T g m s = ORet r s' -> m s = ORet r s'.
    Proof.
      unfold guarded, on_unwind. destruct (m s) as [b s1|s1| |]; try discriminate; [auto|].
      destruct ((if dropping k T then flush_guard A dbg k T g false else ret tt) s1); discriminate.
    Qed.

    (** Logs, and the iterator that is returned. *)
    Definition adds_it {B} (m : M (bl W) B) (it : B -> iter (W := W)) : Prop :=
      adds m /\ forall s r s', m s = ORet r s' -> acts (it r).
    Lemma bind_it {B C} (m : M (bl W) B) it (f : B -> M (bl W) C) :
      adds_it m it -> (forall b, acts (it b) -> adds (f b)) -> adds (bind m f).
    Proof.
      intros [H1 H2] H s. unfold bind. specialize (H1 s). destruct (m s) as [b s1|s1| |] eqn:E; auto.
      specialize (H b (H2 _ _ _ E) s1). destruct (f b s1) as [c s2|s2| |]; auto; eapply both; eassumption.
    Qed.
    Lemma it_bind {B C} (m : M (bl W) B) it (f : B -> M (bl W) C) it' :
      adds_it m it -> (forall b, acts (it b) -> adds_it (f b) it') -> adds_it (bind m f) it'.
    Proof.
      intros H1 H. split; [apply (bind_it m it); [exact H1|intros b Hb; apply H; exact Hb]|].
      intros s r s' E. unfold bind in E. destruct (m s) as [b s1| | |] eqn:Em; try discriminate.
      apply (proj2 (H b (proj2 H1 _ _ _ Em)) _ _ _ E).
    Qed.
    Lemma it_step {B C} (m : M (bl W) B) (f : B -> M (bl W) C) it' :
      adds m -> (forall b, adds_it (f b) it') -> adds_it (bind m f) it'.
    Proof.
      intros H1 H. split; [apply adds_bind; [exact H1|intros b; apply H]|].
      intros s r s' E. unfold bind in E. destruct (m s) as [b s1| | |] eqn:Em; try discriminate.
      apply (proj2 (H b) _ _ _ E).
    Qed.
    Lemma it_ret {B} (b : B) it : acts (it b) -> adds_it (ret b) it.
    Proof. intros H. split; [apply adds_ret|]. intros s r s' E. inversion E; subst. exact H. Qed.
    Lemma it_next g (it : iter (W := W)) : acts it -> adds_it (guarded A dbg k T g (next T it)) snd.
    Proof.
      intros H. split; [apply adds_guarded, adds_next, H|]. intros s r s' E. apply guarded_ret in E.
      eapply acts_next; eassumption.
    Qed.
    Lemma it_next_plain (it : iter (W := W)) : acts it -> adds_it (next T it) snd.
    Proof.
      intros H. split; [apply adds_next, H|]. intros s r s' E.
      eapply acts_next; eassumption.
    Qed.

    Lemma it_fill_loop last : forall its a lim g, acts (its, last) -> adds_it (fill_loop A dbg k T a lim its last g) snd.
    Proof.
      induction its as [|x its IH]; intros a lim g H; cbn [fill_loop]; destruct (_ <? _); try (apply it_ret; exact H).
      - apply it_step; [destruct (t_niche T); [apply adds_on_alloc|apply adds_ret]|]. intros _. apply it_ret. exact H.
      - assert (H' : acts (its, last)) by (eapply acts_tail; exact H).
        apply it_step; [apply adds_guarded, adds_next; exact H|]. intros [[v|] it']; cbn [fst].
        + apply it_step; [apply adds_store|intros _]. apply IH. exact H'.
        + apply it_step; [destruct (t_niche T); [apply adds_on_alloc|apply adds_ret]|]. intros _. apply it_ret. exact H'.
    Qed.

    Lemma it_fill size one (it : iter (W := W)) g : acts it ->
      adds_it (fill_guard A dbg k T size one it g) (fun r => snd (fst (fst r))).
    Proof.
      intros H. unfold fill_guard. destruct (if dropping k T then full_layout T size else array_layout T size) as [lay|]; [|apply it_ret; exact H].
      apply it_step; [apply adds_on_alloc|]. intros [b|]; [|apply it_ret; exact H].
      apply it_step; [destruct (_ <? _); [apply adds_ret|apply adds_debug]|intros _].
      apply it_step.
      { destruct one as [v|]; [|apply adds_ret]. apply adds_bind; [apply adds_debug|intros _].
        apply adds_bind; [apply adds_store|intros _]. apply adds_ret. }
      intros g'. apply (it_bind _ snd); [apply it_fill_loop; destruct it; exact H|]. intros r Hr. apply it_ret. exact Hr.
    Qed.

    Lemma adds_from_failed g one why : adds (from_iter_failed A dbg bomb k tr T g one why).
    Proof.
      unfold from_iter_failed. destruct (tries tr) eqn:Etr.
      - apply adds_bind; [apply adds_flush|intros _]. apply adds_bind; [apply adds_log; exact I|intros _].
        destruct one; [apply adds_log; exact I|apply adds_ret].
      - apply adds_bind; [apply adds_flush|intros _]. 
        assert (Go : adds (match one with Some v => drop_unwinding bomb T v | None => ret tt end ;;; panic : M (bl W) unit)).
        { apply adds_bind; [|intros _; apply adds_panic]. destruct one as [v|]; [|apply adds_ret].
          unfold drop_unwinding. destruct (t_drop T) eqn:Ed; [|apply adds_ret].
          apply adds_bind; [|intros _; destruct (bomb _ _); [apply adds_abort|apply adds_ret]].
          apply adds_log; cbn; apply (fine_early Ed); rewrite Etr; rewrite orb_true_r; reflexivity. }
        destruct why; [destruct tr; [exact Go|apply adds_abort|exact Go]|exact Go].
    Qed.

    Lemma adds_loop : forall fuel one (it : iter (W := W)) g, acts it -> adds (from_iter_loop A dbg bomb fuel k tr T one it g).
    Proof.
      induction fuel as [|fuel IH]; intros one it g H; cbn [from_iter_loop]; [apply adds_ub|].
      apply adds_bind; [apply adds_guarded, adds_ask_one; exact H|intros _].
      destruct (size_hint_and_one _ _ _); [|apply adds_from_failed].
      apply (bind_it _ _ _ (it_fill z (Some one) it g H)). intros [[[g' it'] one'] e] H'. cbn [fst snd] in H'.
      destruct e; [apply adds_from_failed|]. apply (bind_it _ _ _ (it_next g' it' H')). intros [[v|] it''] H''; cbn [fst snd] in *.
      - apply IH. exact H''.
      - apply adds_flush.
    Qed.

    Lemma adds_sized (it : iter (W := W)) : acts it -> adds (from_iter_sized A dbg bomb k tr T it).
    Proof.
      intros H. unfold from_iter_sized.
      assert (Hl : forall fuel (r : guard * iter (W := W) * option Z * option (option Layout)), acts (snd (fst (fst r))) ->
        adds (let '(g, it, one, e) := r in
              match e with
              | Some why => from_iter_failed A dbg bomb k tr T g None why
              | None => o <- guarded A dbg k T g (next T it) ;;
                  match fst o with None => flush_guard A dbg k T g true | Some v => from_iter_loop A dbg bomb fuel k tr T v (snd o) g end
              end)).
      { intros fuel [[[g' it'] one'] e] H'. cbn [fst snd] in H'. destruct e; [apply adds_from_failed|].
        apply (bind_it _ _ _ (it_next g' it' H')). intros [[v|] it''] H''; cbn [fst snd] in *; [apply adds_loop; exact H''|apply adds_flush]. }
      apply adds_bind; [apply adds_guarded, adds_ask|intros _].
      destruct (fst (hint it) =? 0).
      - apply (bind_it _ (fun r => snd (fst (fst r)))); [apply it_ret; exact H|]. intros r Hr. apply (Hl _ r Hr).
      - apply (bind_it _ _ _ (it_fill _ None it _ H)). intros r Hr. apply (Hl _ r Hr).
    Qed.

    Hypothesis Hz : (t_size T =? 0) = true.
    Lemma adds_early v : adds (drop_early bomb T v).
    Proof.
      unfold drop_early. destruct (t_drop T) eqn:Ed; [|apply adds_ret]. apply adds_bind; [apply adds_log; cbn; apply (fine_early Ed); rewrite Hz; reflexivity|intros _].
      destruct (bomb _ _); [apply adds_panic|apply adds_ret].
    Qed.
    Lemma it_nth last : forall its n, acts (its, last) -> adds_it (drain_nth bomb T n its last) snd.
    Proof.
      induction its as [|x its IH]; intros n H; cbn [drain_nth]; [apply it_ret; exact H|].
      assert (H' : acts (its, last)) by (eapply acts_tail; exact H).
      apply it_step; [apply adds_next; exact H|]. intros [[v|] it']; cbn [fst]; [|apply it_ret; exact H'].
      apply it_step; [apply adds_early|intros _]. destruct (_ <=? _); [apply it_ret; exact H'|apply IH; exact H'].
    Qed.
    Lemma adds_add_usize a b : adds (add_usize dbg a b).
    Proof. unfold add_usize. destruct (_ <=? _); [apply adds_ret|]. destruct dbg; [apply adds_panic|apply adds_ret]. Qed.
    Lemma adds_sub_usize a b : adds (sub_usize dbg a b).
    Proof. unfold sub_usize. destruct (_ <=? _); [apply adds_ret|]. destruct dbg; [apply adds_panic|apply adds_ret]. Qed.
    Lemma adds_drain : forall fuel d (it : iter (W := W)), acts it -> adds (drain dbg bomb fuel T d it).
    Proof.
      induction fuel as [|fuel IH]; intros d it H; cbn [drain]; [apply adds_ub|].
      apply adds_bind; [apply adds_ask|intros _]. destruct (fst (hint it) =? 0).
      - apply (bind_it _ _ _ (it_next_plain it H)). intros [[v|] it'] H'; cbn [fst snd] in *; [|apply adds_ret].
        apply adds_bind; [apply adds_early|intros _]. apply adds_bind; [apply adds_add_usize|intros d']. apply IH. exact H'.
      - apply adds_bind; [apply adds_sub_usize|intros n]. apply (bind_it _ _ _ (it_nth (snd it) (fst it) n ltac:(destruct it; exact H))).
        intros [[|] it'] H'; cbn [fst snd] in *; [|apply adds_ret]. apply adds_bind; [apply adds_add_usize|intros d'].
        destruct (d' =? _); [apply adds_ret|apply IH; exact H'].
    Qed.
    Lemma adds_zst (it : iter (W := W)) : acts it -> adds (from_iter_zst A dbg bomb k tr T it).
    Proof.
      intros H. unfold from_iter_zst. destruct (dropping k T) eqn:Ed.
      - apply adds_bind; [apply adds_on_alloc|]. intros [b|].
        + apply adds_bind; [apply adds_drain; exact H|intros n]. apply adds_bind; [apply adds_init|intros _].
          apply adds_bind; [apply adds_add|intros _]. apply adds_hand_out. intros _. cbn [h_id]. split; [apply fine_reg; exact Ed|].
          apply Forall_forall. intros x Hx. apply repeat_spec in Hx. congruence.
        + destruct tr; [|apply adds_abort|apply adds_panic]. apply adds_bind; [apply adds_hand_out; discriminate|intros _]. apply adds_log. exact I.
      - apply adds_bind; [apply adds_drain; exact H|intros n]. apply adds_hand_out. discriminate.
    Qed.
  End From.

  Notation bstep := (bstep A alloc_reset dbg bomb).
  Notation brun := (brun A alloc_reset dbg bomb).
  Notation biter := (biter A alloc_reset dbg bomb).

  Lemma client_adds :
    (forall o, all_op op_fine o = true -> forall nested, nested || rst || negb (resets o) = true -> adds (bstep nested o)) /\
    (forall os, all_ops op_fine os = true -> adds (brun os)) /\
    (forall it, all_script op_fine it = true -> forall it0, (hints_panic it = true -> hints_panic it0 = true) -> acts it0 (biter it)).
  Proof.
    apply client_ind.
    - intros k tr T r e body IH out H nested _. cbn [all_op] in H. apply andb_true_iff in H. destruct H as [H1 H2].
      cbn [Blink.bstep]. destruct (_ && _); [|apply adds_ret]. apply adds_emplace; [exact H1|auto].
    - intros tr T vs _ nested _. cbn [Blink.bstep]. destruct (_ && _); [apply adds_copy|apply adds_ret].
    - intros tr T _ nested _. cbn [Blink.bstep]. destruct (ty_okb T); [apply adds_uninit|apply adds_ret].
    - intros k tr T it IH H nested _. cbn [all_op] in H. apply andb_true_iff in H. destruct H as [H1 H2].
      cbn [Blink.bstep]. destruct (_ && _); [|apply adds_ret]. unfold from_iter.
      destruct (_ =? _) eqn:Ez; [apply (adds_zst k tr T it)|apply (adds_sized k tr T it)]; try exact H1; try exact Ez; apply IH; auto.
    - intros h n v _ nested _. apply (adds_set h n v).
    - intros _ nested Hn. cbn [Blink.bstep]. destruct nested; [apply adds_ret|]. unfold blink_reset_all.
      cbn [orb resets negb] in Hn. rewrite orb_false_r in Hn.
      apply adds_bind; [apply adds_reset; exact Hn|intros _; apply adds_on_alloc].
    - intros _ nested Hn. cbn [Blink.bstep]. cbn [orb resets negb] in Hn.
      destruct nested; [apply adds_ret|]. rewrite orb_false_r in Hn. apply adds_reset. exact Hn.
    - intros _. apply adds_ret.
    - intros o IHo os IHos H. cbn [all_ops] in H. apply andb_true_iff in H. destruct H as [H1 H2]. cbn [Blink.brun].
      apply adds_bind; [apply (IHo H1 true eq_refl)|auto].
    - intros lo up _ it0 Hq. split; [constructor|]. cbn [Blink.biter fst snd]. intros ->. apply Hq. reflexivity.
    - intros lo up body IHb out rest IHr H it0 Hq. cbn [all_script] in H. apply andb_true_iff in H. destruct H as [H1 H2].
      cbn [hints_panic] in Hq. destruct (IHr H2 it0) as [R1 R2]; [intros E; apply Hq; rewrite E; apply orb_true_r|].
      cbn [Blink.biter fst snd]. split; [|exact R2]. constructor; [|exact R1]. cbn [fst snd].
      split; [|intros ->; apply Hq; reflexivity]. apply adds_bind; [auto|intros _].
      destruct out; [apply adds_ret|apply adds_ret|apply adds_panic].
  Qed.

  Lemma adds_main os : rst = true -> forallb (all_op op_fine) os = true -> adds (bmain A alloc_reset dbg bomb os).
  Proof.
    intros Hr. induction os as [|o os IH]; intros H; cbn [bmain]; [apply adds_ret|]. cbn [forallb] in H. apply andb_true_iff in H.
    destruct H as [H1 H2]. apply adds_bind; [|auto]. intros s. unfold caught.
    pose proof (proj1 client_adds o H1 false ltac:(rewrite Hr; reflexivity) s) as G. destruct (bstep false o s); auto.
  Qed.
End Events.
