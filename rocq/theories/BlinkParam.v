(** Blink sees its allocator only through its answers: replacing the allocator by one that
    answers alike changes nothing. *)
From Verif Require Import Base BaseFacts Alloc AllocFacts History Blink BlinkEnv Param.

(** Two [Blink]s on them. *)
Definition twins {W1 W2} (R : W1 -> W2 -> Prop) (s1 : bl W1) (s2 : bl W2) : Prop :=
  R (bl_w s1) (bl_w s2) /\ bl_root s2 = bl_root s1 /\ bl_tab s2 = bl_tab s1 /\ bl_log s2 = bl_log s1.

Scheme bop_mind := Induction for bop Sort Prop
  with bops_mind := Induction for bops Sort Prop
  with script_mind := Induction for script Sort Prop.

Section Twins.
  Context {W1 W2 : Type} (R : W1 -> W2 -> Prop) (A1 : Allocator W1) (A2 : Allocator W2) (HA : alike R A1 A2)
    (reset1 : M W1 unit) (reset2 : M W2 unit) (Hreset : like R reset1 reset2) (dbg : bool) (bomb : Z -> Z -> bool).
  Notation lk := (like (twins R)).

  Lemma lk_alloc {B} (m1 : M W1 B) m2 : like R m1 m2 -> lk (on_alloc m1) (on_alloc m2).
  Proof.
    intros H s1 s2 (HR & H1 & H2 & H3). unfold on_alloc. specialize (H _ _ HR).
    destruct (m1 (bl_w s1)) as [b w|w| |]; [destruct H as (w' & -> & H')|destruct H as (w' & -> & H')|rewrite H; reflexivity|exact I];
      (eexists; split; [reflexivity|]; repeat split; assumption).
  Qed.
  Ltac now_twins := intros s1 s2 (HR & H1 & H2 & H3); eexists; split; [reflexivity|]; unfold twins; cbn; rewrite ?H1, ?H2, ?H3; auto.
  Lemma lk_log e : lk (log e) (log e). Proof. now_twins. Qed.
  Lemma lk_get_root : lk get_root get_root.
  Proof. intros s1 s2 (HR & H1 & H2 & H3). unfold get_root. exists s2. rewrite H1. split; [reflexivity|]. split; auto. Qed.
  Lemma lk_set_root r : lk (set_root r) (set_root r). Proof. now_twins. Qed.
  Lemma lk_hand h vs : lk (hand_out h vs) (hand_out h vs). Proof. now_twins. Qed.
  Lemma lk_unwind {B} (m1 : M (bl W1) B) m2 h1 h2 : lk m1 m2 -> lk h1 h2 -> lk (on_unwind m1 h1) (on_unwind m2 h2).
  Proof.
    intros Hm Hh s1 s2 H. unfold on_unwind. specialize (Hm s1 s2 H). destruct (m1 s1) as [b s|s| |].
    - destruct Hm as (s' & -> & H'). eauto.
    - destruct Hm as (s' & -> & H'). specialize (Hh s s' H'). destruct (h1 s) as [u t|t| |]; auto.
      + destruct Hh as (t' & -> & Ht). eauto.
      + destruct Hh as (t' & -> & Ht). reflexivity.
      + rewrite Hh. reflexivity.
    - rewrite Hm. reflexivity.
    - exact I.
  Qed.
  Lemma lk_invalidate : lk invalidate invalidate.
  Proof.
    intros s1 s2 (HR & H1 & H2 & H3). unfold invalidate. rewrite H2. eexists. split; [reflexivity|]. unfold twins. cbn. rewrite H1, H3. auto.
  Qed.

  Ltac lk := repeat first
    [ match goal with |- like _ (bind _ _) _ => apply like_bind end | match goal with |- forall _, _ => intros ? end | apply like_ret | apply like_panic | apply like_abort | apply like_ub | apply like_assert
    | apply like_add | apply like_sub | apply lk_log | apply lk_get_root | apply lk_set_root | apply lk_hand | apply lk_invalidate
    | apply lk_unwind
    | apply lk_alloc; first [apply (ak_load _ _ _ HA) | apply (ak_store _ _ _ HA) | apply (ak_fill _ _ _ HA)
        | apply (ak_allocate _ _ _ HA) | apply (ak_deallocate _ _ _ HA) | apply (ak_grow _ _ _ HA) | exact Hreset] ].

  Lemma lk_load a n al : lk (load_at A1 a n al) (load_at A2 a n al). Proof. unfold load_at. destruct (_ =? _); lk. Qed.
  Lemma lk_store a n al v : lk (store_at A1 a n al v) (store_at A2 a n al v). Proof. unfold store_at. destruct (_ =? _); lk. Qed.
  Lemma lk_value T a v : lk (write_value A1 T a v) (write_value A2 T a v). Proof. apply lk_store. Qed.
  Lemma lk_result T r a o : lk (write_result A1 T r a o) (write_result A2 T r a o).
  Proof. unfold write_result. destruct (_ =? _); lk. destruct o; [apply lk_value|lk]. Qed.
  Lemma lk_drops p c g n : lk (write_drops A1 p c g n) (write_drops A2 p c g n).
  Proof. unfold write_drops. apply like_bind; [apply lk_store|intros _]. apply like_bind; [apply lk_store|intros _; apply lk_store]. Qed.
  Lemma lk_addd p : lk (drop_list_add A1 p) (drop_list_add A2 p).
  Proof. unfold drop_list_add. lk. apply lk_store. Qed.
  Lemma lk_read n a : lk (read_value A1 n a) (read_value A2 n a). Proof. unfold read_value. destruct (_ =? _); lk. Qed.
  Lemma lk_elems g n : forall a p, lk (drop_elems A1 bomb g a n p) (drop_elems A2 bomb g a n p).
  Proof.
    induction n as [|n IH]; intros a p; cbn [drop_elems]; [lk|]. apply like_bind; [apply lk_read|]. intros v. apply like_bind; [lk|]. intros _.
    destruct (bomb _ _); [destruct p; [lk|apply IH]|apply IH].
  Qed.
  Lemma lk_drops_drop p : lk (drops_drop A1 bomb p) (drops_drop A2 bomb p).
  Proof.
    unfold drops_drop. apply like_bind; [apply lk_load|]. intros c. apply like_bind; [apply lk_load|]. intros f. apply like_bind; [apply lk_load|]. intros n.
    cbv zeta. apply like_bind; [apply lk_elems|]. intros [|]; lk.
  Qed.
  Lemma lk_loop fuel : forall p, lk (drop_loop A1 bomb fuel p) (drop_loop A2 bomb fuel p).
  Proof.
    induction fuel as [|fuel IH]; intros [a|]; cbn [drop_loop]; try (solve [lk]). apply like_bind; [apply lk_drops_drop|]. intros n. apply IH.
  Qed.
  Lemma lk_reset : lk (drop_list_reset A1 bomb) (drop_list_reset A2 bomb).
  Proof. unfold drop_list_reset. lk. apply lk_loop. Qed.

  Lemma lk_closure b1 b2 out : lk b1 b2 -> lk (closure b1 out) (closure b2 out).
  Proof. intros H. unfold closure. apply like_bind; [exact H|]. intros _. destruct out; lk. Qed.
  Lemma lk_unwinding T v : lk (drop_unwinding bomb T v) (drop_unwinding bomb T v).
  Proof. unfold drop_unwinding. destruct (t_drop T); lk. destruct (bomb _ _); lk. Qed.
  Lemma lk_failed tr k1 k2 l1 l2 : lk k1 k2 -> lk l1 l2 -> lk (alloc_failed tr k1 l1) (alloc_failed tr k2 l2).
  Proof. intros H H'. unfold alloc_failed. destruct tr; [lk; exact H|lk|]. apply like_bind; [exact H'|]. intros _. lk. Qed.
  Lemma lk_emplace k tr T r e b1 b2 out : lk b1 b2 -> lk (emplace A1 bomb k tr T r e b1 out) (emplace A2 bomb k tr T r e b2 out).
  Proof.
    intros H. unfold emplace. cbv zeta. pose proof (lk_closure b1 b2 out H) as Hc.
    assert (Hb : lk (match out with COk v => log (EBack (t_id T) v) | _ => ret tt end) (match out with COk v => log (EBack (t_id T) v) | _ => ret tt end)) by (destruct out; lk).
    assert (Hl : lk (match out with COk v => drop_unwinding bomb T v | _ => ret tt end) (match out with COk v => drop_unwinding bomb T v | _ => ret tt end))
      by (destruct out; [apply lk_unwinding|lk|lk]).
    destruct (_ || _).
    - unfold emplace_no_drop. cbv zeta. apply like_bind; [lk|]. intros [b|]; [|apply lk_failed; [exact Hb|exact Hl]]. apply like_bind; [exact Hc|]. intros o.
      apply like_bind; [apply lk_result|]. intros _. destruct o as [[v|]|err]; lk.
    - unfold emplace_drop. cbv zeta. apply like_bind; [lk|]. intros [b|]; [|apply lk_failed; [exact Hb|exact Hl]]. apply like_bind; [exact Hc|]. intros o.
      apply like_bind; [apply lk_result|]. intros _. apply like_bind; [apply lk_drops|]. intros _. destruct o as [[v|]|err]; lk. apply lk_addd.
  Qed.
  Lemma lk_write_all T vs : forall a, lk (write_all A1 T a vs) (write_all A2 T a vs).
  Proof. induction vs as [|v vs IH]; intros a; cbn [write_all]; [lk|]. apply like_bind; [apply lk_value|]. intros _. apply IH. Qed.
  Lemma lk_copy tr T vs : lk (copy_slice A1 tr T vs) (copy_slice A2 tr T vs).
  Proof.
    unfold copy_slice. cbv zeta. apply like_bind; [lk|]. intros [b|]; [|apply lk_failed; lk]. apply like_bind; [apply lk_write_all|]. intros _. lk.
  Qed.
  Lemma lk_uninit tr T : lk (uninit A1 tr T) (uninit A2 tr T).
  Proof. unfold uninit. cbv zeta. apply like_bind; [lk|]. intros [b|]; [lk|apply lk_failed; lk]. Qed.
  Lemma lk_set h i v : lk (set_elem A1 h i v) (set_elem A2 h i v).
  Proof.
    intros s1 s2 H. pose proof H as (HR & H1 & H2 & H3). unfold set_elem. rewrite H2. destruct (get h (bl_tab s1)) as [x|]; [|exists s2; auto].
    destruct (_ && _); [|exists s2; auto]. revert s1 s2 H HR H1 H2 H3. intros s1 s2 H _ _ _ _. revert s1 s2 H. change (lk ((if h_size x =? 0 then ret tt else store_at A1 (h_ptr x + Z.of_nat i * h_size x) (h_size x) (h_align x) v) ;;; log (ESet h i v))
      ((if h_size x =? 0 then ret tt else store_at A2 (h_ptr x + Z.of_nat i * h_size x) (h_size x) (h_align x) v) ;;; log (ESet h i v))).
    apply like_bind; [destruct (_ =? _); [lk|apply lk_store]|]. intros _. lk.
  Qed.

  (** ** Iterators *)
  Notation pos W := (Z * option Z * M (bl W) (option Z))%type.
  Definition step_like (x1 : pos W1) (x2 : pos W2) : Prop := fst x2 = fst x1 /\ lk (snd x1) (snd x2).
  Definition iter_like (i1 : @iter W1) (i2 : @iter W2) : Prop := Forall2 step_like (fst i1) (fst i2) /\ snd i2 = snd i1.
  (** Results with iterators in them. *)
  Definition likes {B1 B2} (E : B1 -> B2 -> Prop) (m1 : M (bl W1) B1) (m2 : M (bl W2) B2) : Prop :=
    forall s1 s2, twins R s1 s2 ->
      match m1 s1 with
      | ORet b1 s1' => exists b2 s2', m2 s2 = ORet b2 s2' /\ twins R s1' s2' /\ E b1 b2
      | OPanic s1' => exists s2', m2 s2 = OPanic s2' /\ twins R s1' s2'
      | OAbort => m2 s2 = OAbort
      | OUB => True
      end.
  Lemma likes_bind {B1 B2 C1 C2} (E : B1 -> B2 -> Prop) (F : C1 -> C2 -> Prop) (m1 : M (bl W1) B1) m2 (f1 : B1 -> M (bl W1) C1) f2 :
    likes E m1 m2 -> (forall b1 b2, E b1 b2 -> likes F (f1 b1) (f2 b2)) -> likes F (bind m1 f1) (bind m2 f2).
  Proof.
    intros Hm Hf s1 s2 H. unfold bind. specialize (Hm s1 s2 H). destruct (m1 s1) as [b s|s| |]; [|destruct Hm as (s' & -> & H'); eauto|rewrite Hm; reflexivity|exact I].
    destruct Hm as (b2 & s' & -> & H' & HE). exact (Hf b b2 HE s s' H').
  Qed.
  Lemma likes_eq {B} (m1 : M (bl W1) B) m2 : lk m1 m2 -> likes eq m1 m2.
  Proof. intros H s1 s2 Ht. specialize (H s1 s2 Ht). destruct (m1 s1) as [b s|s| |]; auto. destruct H as (s' & -> & H'). eauto 6. Qed.
  Lemma eq_likes {B} (m1 : M (bl W1) B) m2 : likes eq m1 m2 -> lk m1 m2.
  Proof. intros H s1 s2 Ht. specialize (H s1 s2 Ht). destruct (m1 s1) as [b s|s| |]; auto. destruct H as (b2 & s' & -> & H' & <-). eauto. Qed.
  Lemma likes_ret {B1 B2} (E : B1 -> B2 -> Prop) b1 b2 : E b1 b2 -> likes E (ret b1) (ret b2).
  Proof. intros H s1 s2 Ht. exists b2, s2. auto. Qed.
  Lemma likes_unwind {B1 B2} (E : B1 -> B2 -> Prop) (m1 : M (bl W1) B1) m2 h1 h2 : likes E m1 m2 -> lk h1 h2 -> likes E (on_unwind m1 h1) (on_unwind m2 h2).
  Proof.
    intros Hm Hh s1 s2 H. unfold on_unwind. specialize (Hm s1 s2 H). destruct (m1 s1) as [b s|s| |].
    - destruct Hm as (b2 & s' & -> & H'). eauto.
    - destruct Hm as (s' & -> & H'). specialize (Hh s s' H'). destruct (h1 s) as [u t|t| |]; auto.
      + destruct Hh as (t' & -> & Ht). eauto.
      + destruct Hh as (t' & -> & Ht). reflexivity.
      + rewrite Hh. reflexivity.
    - rewrite Hm. reflexivity.
    - exact I.
  Qed.

  Lemma hint_like i1 i2 : iter_like i1 i2 -> hint i2 = hint i1.
  Proof. intros [H E]. unfold hint. destruct H as [|[h1 m1] [h2 m2] l1 l2 [Hx _] _]; [exact E|cbn in Hx; exact Hx]. Qed.
  Definition got (o1 : option Z * @iter W1) (o2 : option Z * @iter W2) : Prop := fst o2 = fst o1 /\ iter_like (snd o1) (snd o2).
  Lemma next_like T i1 i2 : iter_like i1 i2 -> likes got (next T i1) (next T i2).
  Proof.
    intros [H E]. destruct i1 as [l1 last1], i2 as [l2 last2]. cbn [fst snd] in *. subst last2. unfold next. cbn [fst snd].
    destruct H as [|[h1 m1] [h2 m2] l1 l2 [_ Hx] Hl].
    - apply likes_ret. split; [reflexivity|]. split; [constructor|reflexivity].
    - cbn [snd] in Hx. eapply likes_bind; [apply likes_eq; exact Hx|]. intros o ? <-. destruct o as [v|].
      + eapply likes_bind; [apply likes_eq, lk_log|]. intros ? ? _. apply likes_ret. split; [reflexivity|]. split; [exact Hl|reflexivity].
      + apply likes_ret. split; [reflexivity|]. split; [exact Hl|reflexivity].
  Qed.
  Lemma lk_hint i1 i2 : iter_like i1 i2 -> lk (ask_hint i1) (ask_hint i2).
  Proof. intros H. unfold ask_hint. rewrite (hint_like _ _ H). destruct (_ =? _); lk. Qed.

  Lemma lk_flush k T g give : lk (flush_guard A1 dbg k T g give) (flush_guard A2 dbg k T g give).
  Proof.
    unfold flush_guard. cbv zeta. destruct (gu_ptr g) as [u|]; [|destruct give; lk]. destruct (_ =? _); [lk; destruct give; lk|].
    destruct (dropping k T); [|lk]. unfold init_slice. lk; [apply lk_drops|apply lk_addd].
  Qed.
  Lemma guarded_like {B1 B2} (E : B1 -> B2 -> Prop) k T g (m1 : M (bl W1) B1) m2 : likes E m1 m2 -> likes E (guarded A1 dbg k T g m1) (guarded A2 dbg k T g m2).
  Proof. intros H. unfold guarded. apply likes_unwind; [exact H|]. destruct (dropping k T); [apply lk_flush|lk]. Qed.

  Definition filled (r1 : guard * @iter W1) (r2 : guard * @iter W2) : Prop := fst r2 = fst r1 /\ iter_like (snd r1) (snd r2).
  Lemma fill_loop_like k T a lim last l1 l2 : Forall2 step_like l1 l2 -> forall g,
    likes filled (fill_loop A1 dbg k T a lim l1 last g) (fill_loop A2 dbg k T a lim l2 last g).
  Proof.
    assert (Hs : forall g, lk (if t_niche T then on_alloc (mfill A1 (a + gu_count g * t_size T) (t_size T) Undef) else ret tt)
       (if t_niche T then on_alloc (mfill A2 (a + gu_count g * t_size T) (t_size T) Undef) else ret tt)) by (intros g; destruct (t_niche T); lk).
    induction 1 as [|x1 x2 l1 l2 Hx Hl IH]; intros g; cbn [fill_loop]; (destruct (_ <? _); [|apply likes_ret; split; [reflexivity|split; [solve [constructor | constructor; assumption]|reflexivity]]]).
    - eapply likes_bind; [apply likes_eq, Hs|]. intros ? ? _. apply likes_ret. split; [reflexivity|]. split; [constructor|reflexivity].
    - eapply likes_bind; [apply guarded_like, next_like; split; [constructor; eassumption|reflexivity]|]. intros o1 o2 [-> Ho].
      destruct (fst o1) as [v|].
      + eapply likes_bind; [apply likes_eq, lk_value|]. intros ? ? _. apply IH.
      + eapply likes_bind; [apply likes_eq, Hs|]. intros ? ? _. apply likes_ret. split; [reflexivity|]. split; [exact Hl|reflexivity].
  Qed.
  Definition fills (r1 : guard * @iter W1 * option Z * option (option Layout)) (r2 : guard * @iter W2 * option Z * option (option Layout)) : Prop :=
    let '(g1, i1, o1, e1) := r1 in let '(g2, i2, o2, e2) := r2 in g2 = g1 /\ iter_like i1 i2 /\ o2 = o1 /\ e2 = e1.
  Lemma fill_like k T size one i1 i2 g : iter_like i1 i2 -> likes fills (fill_guard A1 dbg k T size one i1 g) (fill_guard A2 dbg k T size one i2 g).
  Proof.
    intros Hi. unfold fill_guard. destruct (if dropping k T then _ else _) as [lay|]; [|apply likes_ret; cbn; auto].
    eapply likes_bind; [apply likes_eq; destruct (gu_ptr g); lk|]. intros b ? <-. destruct b as [b|]; [|apply likes_ret; cbn; auto]. cbv zeta.
    eapply likes_bind; [apply likes_eq; destruct (_ <? _); lk|]. intros ? ? _.
    eapply likes_bind; [apply likes_eq; destruct one; lk; apply lk_value|]. intros g' ? <-.
    destruct i1 as [l1 last1], i2 as [l2 last2]. destruct Hi as [Hl He]. cbn [fst snd] in *. subst last2.
    eapply likes_bind; [apply fill_loop_like; exact Hl|]. intros r1 r2 [-> Hr]. apply likes_ret. cbn. auto.
  Qed.
  Lemma lk_from_failed k tr T g one why : lk (from_iter_failed A1 dbg bomb k tr T g one why) (from_iter_failed A2 dbg bomb k tr T g one why).
  Proof.
    unfold from_iter_failed. destruct (tries tr); (apply like_bind; [apply lk_flush|intros _]).
    - lk. destruct one; lk.
    - assert (Go : lk (match one with Some v => drop_unwinding bomb T v | None => ret tt end ;;; panic : M (bl W1) unit)
                      (match one with Some v => drop_unwinding bomb T v | None => ret tt end ;;; panic : M (bl W2) unit)).
      { apply like_bind; [destruct one; [apply lk_unwinding|lk]|]. intros _. lk. }
      destruct why; [destruct tr; [exact Go|lk|exact Go]|exact Go].
  Qed.
  Lemma from_loop_like k tr T fuel : forall one i1 i2 g, iter_like i1 i2 ->
    lk (from_iter_loop A1 dbg bomb fuel k tr T one i1 g) (from_iter_loop A2 dbg bomb fuel k tr T one i2 g).
  Proof.
    induction fuel as [|fuel IH]; intros one i1 i2 g Hi; cbn [from_iter_loop]; [lk|]. apply eq_likes.
    eapply likes_bind; [apply guarded_like, likes_eq, lk_unwind; [apply lk_hint; exact Hi|]|].
    { apply lk_unwinding. }
    intros ? ? _. rewrite (hint_like _ _ Hi). destruct (size_hint_and_one _ _ _) as [size|]; [|apply likes_eq, lk_from_failed].
    eapply likes_bind; [apply fill_like; exact Hi|]. intros [[[g1 j1] o1] e1] [[[g2 j2] o2] e2] (-> & Hj & -> & ->).
    destruct e1; [apply likes_eq, lk_from_failed|].
    eapply likes_bind; [apply guarded_like, next_like; exact Hj|]. intros p1 p2 [-> Hp]. destruct (fst p1); [apply likes_eq, IH; exact Hp|apply likes_eq, lk_flush].
  Qed.
  Lemma Forall2_len {X Y} (P : X -> Y -> Prop) l1 l2 : Forall2 P l1 l2 -> length l2 = length l1.
  Proof. induction 1; cbn; congruence. Qed.
  Lemma sized_like k tr T i1 i2 : iter_like i1 i2 -> lk (from_iter_sized A1 dbg bomb k tr T i1) (from_iter_sized A2 dbg bomb k tr T i2).
  Proof.
    intros Hi. unfold from_iter_sized. cbv zeta. rewrite (Forall2_len _ _ _ (proj1 Hi)). apply eq_likes.
    eapply likes_bind; [apply guarded_like, likes_eq, lk_hint; exact Hi|]. intros ? ? _. rewrite (hint_like _ _ Hi).
    eapply likes_bind with (E := fills).
    { destruct (_ =? _); [apply likes_ret; cbn; auto|apply fill_like; exact Hi]. }
    intros [[[g1 j1] o1] e1] [[[g2 j2] o2] e2] (-> & Hj & -> & ->). destruct e1; [apply likes_eq, lk_from_failed|].
    eapply likes_bind; [apply guarded_like, next_like; exact Hj|]. intros p1 p2 [-> Hp]. destruct (fst p1); [apply likes_eq, from_loop_like; exact Hp|apply likes_eq, lk_flush].
  Qed.

  Lemma lk_early T v : lk (drop_early bomb T v) (drop_early bomb T v).
  Proof. unfold drop_early. destruct (t_drop T); lk. destruct (bomb _ _); lk. Qed.
  Lemma drain_nth_like T last l1 l2 : Forall2 step_like l1 l2 -> forall n,
    likes (fun r1 r2 => fst r2 = fst r1 /\ iter_like (snd r1) (snd r2)) (drain_nth bomb T n l1 last) (drain_nth bomb T n l2 last).
  Proof.
    induction 1 as [|x1 x2 l1 l2 Hx Hl IH]; intros n; cbn [drain_nth]; [apply likes_ret; split; [reflexivity|split; [constructor|reflexivity]]|].
    eapply likes_bind; [apply next_like; split; [constructor; eassumption|reflexivity]|]. intros o1 o2 [-> Ho].
    destruct (fst o1) as [v|]; [|apply likes_ret; split; [reflexivity|split; [exact Hl|reflexivity]]].
    eapply likes_bind; [apply likes_eq, lk_early|]. intros ? ? _. destruct (_ <=? _); [apply likes_ret; split; [reflexivity|split; [exact Hl|reflexivity]]|apply IH].
  Qed.
  Lemma drain_like T fuel : forall d i1 i2, iter_like i1 i2 -> lk (drain dbg bomb fuel T d i1) (drain dbg bomb fuel T d i2).
  Proof.
    induction fuel as [|fuel IH]; intros d i1 i2 Hi; cbn [drain]; [lk|]. apply like_bind; [apply lk_hint; exact Hi|]. intros _. rewrite (hint_like _ _ Hi).
    apply eq_likes. destruct (_ =? 0).
    - eapply likes_bind; [apply next_like; exact Hi|]. intros o1 o2 [-> Ho]. destruct (fst o1) as [v|]; [|apply likes_ret; reflexivity].
      apply likes_eq. apply like_bind; [apply lk_early|]. intros _. apply like_bind; [lk|]. intros d'. apply IH. exact Ho.
    - cbv zeta. eapply likes_bind; [apply likes_eq, like_sub|]. intros j ? <-. destruct i1 as [l1 last1], i2 as [l2 last2]. destruct Hi as [Hl He]. cbn [fst snd] in *. subst last2.
      eapply likes_bind; [apply drain_nth_like; exact Hl|]. intros o1 o2 [-> Ho]. apply likes_eq. destruct (fst o1); [|lk].
      apply like_bind; [lk|]. intros d'. destruct (_ =? _); [lk|apply IH; exact Ho].
  Qed.
  Lemma zst_like k tr T i1 i2 : iter_like i1 i2 -> lk (from_iter_zst A1 dbg bomb k tr T i1) (from_iter_zst A2 dbg bomb k tr T i2).
  Proof.
    intros Hi. unfold from_iter_zst. cbv zeta. rewrite (Forall2_len _ _ _ (proj1 Hi)). destruct (dropping k T).
    - apply like_bind; [lk|]. intros [b|]; [|destruct tr; lk]. apply like_bind; [apply drain_like; exact Hi|]. intros n. unfold init_slice. lk; [apply lk_drops|apply lk_addd].
    - apply like_bind; [apply drain_like; exact Hi|]. intros n. lk.
  Qed.
  Lemma from_iter_like k tr T i1 i2 : iter_like i1 i2 -> lk (from_iter A1 dbg bomb k tr T i1) (from_iter A2 dbg bomb k tr T i2).
  Proof. intros Hi. unfold from_iter. destruct (_ =? _); [apply zst_like|apply sized_like]; exact Hi. Qed.

  (** ** Everything *)
  Notation step1 := (bstep A1 reset1 dbg bomb). Notation step2 := (bstep A2 reset2 dbg bomb).
  Notation run1 := (brun A1 reset1 dbg bomb). Notation run2 := (brun A2 reset2 dbg bomb).
  Notation it1 := (biter A1 reset1 dbg bomb). Notation it2 := (biter A2 reset2 dbg bomb).
  Lemma step_likes : forall o, forall nested, lk (step1 nested o) (step2 nested o).
  Proof.
    apply (bop_mind (fun o => forall nested, lk (step1 nested o) (step2 nested o)) (fun os => lk (run1 os) (run2 os)) (fun it => iter_like (it1 it) (it2 it))).
    - intros k tr T r e body IH out nested. cbn [bstep]. destruct (_ && _); [apply lk_emplace; exact IH|lk].
    - intros tr T vs nested. cbn [bstep]. destruct (_ && _); [apply lk_copy|lk].
    - intros tr T nested. cbn [bstep]. destruct (ty_okb T); [apply lk_uninit|lk].
    - intros k tr T it IH nested. cbn [bstep]. destruct (_ && _); [apply from_iter_like; exact IH|lk].
    - intros h i v nested. cbn [bstep]. apply lk_set.
    - intros nested. cbn [bstep]. destruct nested; [lk|]. unfold blink_reset_all. apply like_bind; [apply lk_reset|]. intros _. lk.
    - intros nested. cbn [bstep]. destruct nested; [lk|]. apply lk_reset.
    - cbn [brun]. lk.
    - intros o IHo os IHos. cbn [brun]. apply like_bind; [apply IHo|]. intros _. exact IHos.
    - intros lo up. cbn [biter]. split; [constructor|reflexivity].
    - intros lo up body IHb out rest [IHr Er]. cbn [biter]. split; [|exact Er]. cbn [fst]. constructor; [|exact IHr]. split; [reflexivity|]. cbn [snd].
      apply like_bind; [exact IHb|]. intros _. destruct out; lk.
  Qed.
  Lemma caught_like m1 m2 : lk m1 m2 -> lk (caught m1) (caught m2).
  Proof.
    intros H s1 s2 Ht. unfold caught. specialize (H s1 s2 Ht). destruct (m1 s1) as [b s|s| |]; [destruct H as (s' & -> & H'); eauto|destruct H as (s' & -> & H'); eauto|rewrite H; reflexivity|exact I].
  Qed.
  Lemma main_likes os : lk (bmain A1 reset1 dbg bomb os) (bmain A2 reset2 dbg bomb os).
  Proof. induction os as [|o os IH]; cbn [bmain]; [lk|]. apply like_bind; [apply caught_like, step_likes|]. intros _. exact IH. Qed.
End Twins.
