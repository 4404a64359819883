(** Which calls collecting an iterator makes. *)
From Verif Require Import Base BaseFacts Alloc AllocFacts History HistoryFacts Blink BlinkInv BlinkReset BlinkIter BlinkMain BlinkEnv BlinkYield BlinkProps
  Asks AsksFacts.

Section Collect.
  Context {W : Type} (A : Allocator W) (alloc_reset : M W unit) (dbg : bool) (bomb : Z -> Z -> bool).
  Notation WN := (W * list uevent)%type.
  Notation A' := (noted A).
  Notation its := (biter A' (unnoted alloc_reset) dbg bomb).
  Variables (k : entry) (tr : oom) (T : ty).

  Definition fine (it : script) : Prop := plain it = true /\ truthful it = true /\ script_okb T it = true.

  Lemma fine_next lo up body out rest : fine (SNext lo up body out rest) ->
    body = BNil /\ fine rest /\ match out with NSome _ => True | _ => lead rest = O end.
  Proof.
    intros (H1 & H2 & H3). cbn [plain truthful script_okb] in *. destruct body; [|discriminate H1].
    apply andb_true_iff in H2. destruct H2 as [H2 H4]. apply andb_true_iff in H2. destruct H2 as [H2 H5].
    apply andb_true_iff in H3. destruct H3 as [H3 H6]. split; [reflexivity|]. split; [split; auto|].
    destruct out; [exact I| |]; clear - H5; (destruct rest as [|? ? ? [] ?]; cbn in *; [reflexivity|discriminate H5|reflexivity..]).
  Qed.
  Lemma fine_hint it : fine it -> fst (hint (its it)) = lower it /\ (lower it = PANICS \/ 0 <= lower it) /\ lower it <= Z.of_nat (lead it) /\
    match snd (hint (its it)) with Some u => Z.of_nat (lead it) <= u | None => True end.
  Proof.
    intros (H1 & H2 & H3). assert (X : forall lo n up, between lo n up = true -> lo <= Z.of_nat n /\ match up with Some u => Z.of_nat n <= u | None => True end).
    { unfold between. intros lo n up H. apply andb_true_iff in H. destruct H as [H H']. split; [lia|]. destruct up; [lia|exact I]. }
    destruct it as [lo up|lo up body out rest]; cbn [truthful script_okb biter hint fst snd lower] in *.
    - apply X in H2. unfold hint_okb in H3. cbn [lead] in *. split; [reflexivity|]. split; [unfold PANICS in *; lia|]. exact H2.
    - apply andb_true_iff in H2. destruct H2 as [H2 _]. apply andb_true_iff in H2. destruct H2 as [H2 _]. apply X in H2.
      apply andb_true_iff in H3. destruct H3 as [H3 _]. apply andb_true_iff in H3. destruct H3 as [H3 _]. unfold hint_okb in H3.
      split; [reflexivity|]. split; [unfold PANICS in *; lia|]. exact H2.
  Qed.

  Lemma m_next_cons lo up body out rest : let it := SNext lo up body out rest in fine it -> makes (next T (its it))
    (fun o new => new = [] /\ snd o = its rest /\ fine rest /\
       ((fst o = None /\ lead it = O /\ lead rest = O) \/ (exists v, fst o = Some v /\ lead it = S (lead rest))))
    (fun new => new = [] /\ lead it = O).
  Proof.
    intros it H. destruct (fine_next _ _ _ _ _ H) as (-> & H' & Hl). unfold it. cbn [biter brun]. intros s. unfold next, bind. cbn [fst snd hd].
    destruct out as [v| |]; cbn.
    + exists []. split; [reflexivity|]. split; [reflexivity|]. split; [destruct (its rest); reflexivity|]. split; [exact H'|]. right. exists v. auto.
    + exists []. split; [reflexivity|]. split; [reflexivity|]. split; [destruct (its rest); reflexivity|]. split; [exact H'|]. left. auto.
    + exists []. split; [reflexivity|]. auto.
  Qed.
  Lemma m_next it : fine it -> makes (next T (its it))
    (fun o new => new = [] /\ exists it', snd o = its it' /\ fine it' /\
       ((fst o = None /\ lead it = O /\ lead it' = O) \/ (exists v, fst o = Some v /\ lead it = S (lead it'))))
    (fun new => new = [] /\ lead it = O).
  Proof.
    intros H. destruct it as [lo up|lo up body out rest].
    - intros s. exists []. split; [reflexivity|]. split; [reflexivity|]. exists (SEnd lo up). split; [reflexivity|]. split; [exact H|]. left. auto.
    - eapply makes_mono; [exact (m_next_cons _ _ _ _ _ H)| |auto]. intros o new (-> & E & H' & Hc). split; [reflexivity|]. exists rest. auto.
  Qed.

  Definition kept (g : guard) : Prop := gu_ptr g = None \/ 1 <= gu_count g.

  Lemma s_flush g give : kept g -> silent (flush_guard A' dbg k T g give).
  Proof.
    intros H. unfold flush_guard. destruct (gu_ptr g) as [u|] eqn:Eu; [|destruct give; sil].
    destruct H as [H|H]; [congruence|]. destruct (Z.eqb_spec (gu_count g) 0); [lia|].
    destruct (dropping k T); [|apply s_hand]. unfold init_slice. apply s_bind; [apply s_bind; [apply s_assert|intros ?; apply s_drops]|intros ?; apply s_bind; [apply s_add|intros ?; apply s_hand]].
  Qed.
  Lemma s_guarded {B} (m : M (bl WN) B) g P Pp : makes m P (fun new => new = [] /\ Pp) -> (Pp -> kept g) ->
    makes (guarded A' dbg k T g m) P none.
  Proof.
    intros Hm Hg. unfold guarded. intros s. unfold on_unwind. specialize (Hm s). destruct (m s) as [b s'|s'| |]; auto.
    destruct Hm as (new & E & -> & HP). destruct (dropping k T).
    - pose proof (s_flush g false (Hg HP) s') as X. destruct (flush_guard A' dbg k T g false s') as [u s2|s2| |]; auto.
      destruct X as (more & E2 & ->). exists []. rewrite E2, E. split; reflexivity.
    - exists []. rewrite E. split; reflexivity.
  Qed.

  Lemma m_fill_loop a lim it : forall g, fine it -> gu_ptr g = None \/ 1 <= gu_count g + Z.of_nat (lead it) -> 0 <= gu_count g ->
    makes (fill_loop A' dbg k T a lim (fst (its it)) (snd (its it)) g)
      (fun r new => new = [] /\ exists it', snd r = its it' /\ fine it' /\ gu_ptr (fst r) = gu_ptr g /\ gu_lay (fst r) = gu_lay g /\
         gu_count (fst r) + Z.of_nat (lead it') = gu_count g + Z.of_nat (lead it) /\ gu_count g <= gu_count (fst r) /\
         (lead it' = O \/ lim <= gu_count (fst r))) none.
  Proof.
    assert (Hs : forall g, silent (if t_niche T then on_alloc (mfill A' (a + gu_count g * t_size T) (t_size T) Undef) else ret tt)).
    { intros g. destruct (t_niche T); [apply s_fill|apply s_ret]. }
    induction it as [lo up|lo up body out rest IH]; intros g Hf HJ Hc.
    - cbn [biter fst snd fill_loop]. destruct (Z.ltb_spec (gu_count g) lim).
      + apply (silent_bind _ _ _ _ (Hs g)); [reflexivity|]. intros _. apply makes_ret. split; [reflexivity|]. exists (SEnd lo up).
        cbn [fst snd lead]. split; [reflexivity|]. split; [exact Hf|]. split; [reflexivity|]. split; [reflexivity|]. split; [lia|]. split; [lia|]. left. reflexivity.
      + apply makes_ret. split; [reflexivity|]. exists (SEnd lo up). cbn [fst snd lead].
        split; [reflexivity|]. split; [exact Hf|]. split; [reflexivity|]. split; [reflexivity|]. split; [lia|]. split; [lia|]. left. reflexivity.
    - pose proof (m_next_cons _ _ _ _ _ Hf) as Hn. cbv zeta in Hn. set (it := SNext lo up body out rest) in *.
      assert (Ei : exists x, its it = (x :: fst (its rest), snd (its rest))) by (eexists; reflexivity).
      destruct Ei as [x Ei]. rewrite Ei in *. cbn [fst snd fill_loop]. destruct (Z.ltb_spec (gu_count g) lim).
      + eapply makes_bind; [apply (s_guarded _ g _ _ Hn); intros Hz; destruct HJ as [HJ|HJ]; [left; exact HJ|right; lia]|intros ? ->; reflexivity|].
        intros o new (-> & Eo & Hf' & [(-> & L1 & L2)|(v & -> & L)]); cbv iota.
        * eapply makes_mono; [|intros c h Hh; rewrite app_nil_r; exact Hh|intros h Hh; rewrite app_nil_r; exact Hh].
          apply (silent_bind _ _ _ _ (Hs g)); [reflexivity|]. intros _. apply makes_ret. split; [reflexivity|]. exists rest. cbn [fst snd].
          split; [destruct (its rest); reflexivity|]. split; [exact Hf'|]. split; [reflexivity|]. split; [reflexivity|]. split; [lia|]. split; [lia|]. left. exact L2.
        * eapply makes_mono; [|intros c h Hh; rewrite app_nil_r; exact Hh|intros h Hh; rewrite app_nil_r; exact Hh].
          apply (silent_bind _ _ _ _ (s_value _ _ _ _)); [reflexivity|]. intros _.
          eapply makes_mono; [apply IH; [exact Hf'|cbn [gu_ptr gu_count]; right; lia|cbn; lia]| |auto].
          cbn [gu_ptr gu_count gu_lay]. intros r new (-> & it' & E1 & E2 & E3 & E4 & E5 & E6 & E7). split; [reflexivity|]. exists it'.
          split; [exact E1|]. split; [exact E2|]. split; [exact E3|]. split; [exact E4|]. split; [lia|]. split; [lia|exact E7].
      + apply makes_ret. split; [reflexivity|]. exists it. cbn [fst snd]. split; [symmetry; exact Ei|]. split; [exact Hf|]. split; [reflexivity|].
        split; [reflexivity|]. split; [lia|]. split; [lia|]. right. lia.
  Qed.

  Lemma makes_after {B C} (m : M (bl WN) B) (f : B -> M (bl WN) C) (P : B -> Prop) Q (Qp : list uevent -> Prop) :
    makes m (fun b new => new = [] /\ P b) none -> Qp [] -> (forall b, P b -> makes (f b) Q Qp) -> makes (bind m f) Q Qp.
  Proof.
    intros Hm H0 Hf. eapply makes_bind; [exact Hm|intros ? ->; exact H0|]. intros b new (-> & Hb).
    eapply makes_mono; [apply Hf; exact Hb| |]; intros; rewrite app_nil_r; assumption.
  Qed.

  (** What a guard asks for. *)
  Definition ask (g : guard) (lay : Layout) (r : option block) : uevent :=
    match gu_ptr g with
    | None => EvAlloc lay r
    | Some u => EvResize (u_ptr u) (gu_lay g) lay r
    end.
  Definition sized (size : Z) (lay : Layout) : Prop := l_size lay = array_off (dropping k T) T + size * t_size T /\ l_align lay = array_align (dropping k T) T.
  Definition extra (one : option Z) : Z := match one with Some _ => 1 | None => 0 end.

  Lemma m_fill size one it g : fine it -> 0 < t_size T -> 0 <= gu_count g -> 1 <= gu_count g + extra one + Z.of_nat (lead it) ->
    makes (fill_guard A' dbg k T size one (its it) g)
      (fun r new => let '(g', i', one', e) := r in
         (exists why, e = Some why /\ g' = g /\ i' = its it /\ one' = one /\ (new = [] \/ exists lay, sized size lay /\ new = [ask g lay None])) \/
         (e = None /\ exists it' lay b, i' = its it' /\ fine it' /\ sized size lay /\ new = [ask g lay (Some b)] /\
            gu_ptr g' = Some (mkU (b_ptr b) (b_len b) lay) /\ gu_lay g' = lay /\
            gu_count g' + Z.of_nat (lead it') = gu_count g + extra one + Z.of_nat (lead it) /\ gu_count g <= gu_count g' /\
            (lead it' = O \/ size <= gu_count g')))
      (fun new => new = [] \/ exists lay r, sized size lay /\ new = [ask g lay r]).
  Proof.
    intros Hf Ht Hc Hone. unfold fill_guard.
    assert (Hl : forall lay, (if dropping k T then full_layout T size else array_layout T size) = Some lay -> sized size lay).
    { intros lay. unfold sized, array_off, full_layout. destruct (dropping k T); cbv iota.
      - unfold array_layout. destruct (_ <=? _); [|discriminate]. cbv zeta. destruct (layout_okb _); [|discriminate]. intros H. injection H as <-. cbn [l_size l_align]. split; [reflexivity|].
        unfold head_layout, item_layout, item_align, array_align. cbn [l_align]. lia.
      - unfold array_layout. destruct (_ <=? _); [|discriminate]. intros H. injection H as <-. unfold array_align. cbn [l_size l_align]. lia. }
    destruct (if dropping k T then _ else _) as [lay|]; [|apply makes_ret; left; exists None; auto 8].
    specialize (Hl lay eq_refl).
    eapply makes_bind with (P := fun r new => new = [ask g lay r]) (Pp := none).
    { unfold ask. destruct (gu_ptr g); [apply m_grow|apply m_alloc]. }
    { intros ? ->. left. reflexivity. }
    intros b new ->. destruct b as [b|].
    2: { apply makes_ret. left. exists (Some lay). split; [reflexivity|]. split; [reflexivity|]. split; [reflexivity|]. split; [reflexivity|].
         right. exists lay. auto. }
    cbv zeta. set (cap := if l_size lay <? b_len b then (b_len b - array_off (dropping k T) T) / t_size T else size). set (a := b_ptr b + array_off (dropping k T) T).
    assert (Hcap : size <= cap).
    { unfold cap. destruct (Z.ltb_spec (l_size lay) (b_len b)); [|lia]. apply Z.div_le_lower_bound; [lia|]. unfold sized in Hl. lia. }
    apply silent_bind.
    { destruct (_ <? _); [apply s_ret|apply s_assert]. }
    { right. exists lay, (Some b). auto. }
    intros _.
    eapply makes_after with (P := fun g2 => gu_ptr g2 = Some (mkU (b_ptr b) (b_len b) lay) /\ gu_lay g2 = lay /\ gu_count g2 = gu_count g + extra one).
    { destruct one as [v|]; cbn [extra].
      - apply (silent_bind _ _ _ _ (s_assert _ _)); [reflexivity|]. intros _. apply (silent_bind _ _ _ _ (s_value _ _ _ _)); [reflexivity|]. intros _.
        apply makes_ret. cbn. auto.
      - apply makes_ret. cbn. split; [reflexivity|]. split; [reflexivity|]. split; [reflexivity|]. lia. }
    { right. exists lay, (Some b). auto. }
    intros g2 (G1 & G2 & G3).
    eapply makes_after.
    { apply m_fill_loop; [exact Hf|right; lia|destruct one; cbn [extra] in *; lia]. }
    { right. exists lay, (Some b). auto. }
    intros r (it' & E1 & E2 & E3 & E4 & E5 & E6 & E7). apply makes_ret. right. split; [reflexivity|]. exists it', lay, b.
    split; [exact E1|]. split; [exact E2|]. split; [exact Hl|]. split; [reflexivity|]. split; [congruence|]. split; [congruence|].
    split; [lia|]. split; [destruct one; cbn [extra] in *; lia|]. destruct E7 as [E7|E7]; [left; exact E7|right]. destruct (dropping k T); lia.
  Qed.

  Lemma s_from_failed g one why : kept g -> silent (from_iter_failed A' dbg bomb k tr T g one why).
  Proof.
    intros H. unfold from_iter_failed. destruct (tries tr); (apply s_bind; [apply s_flush; exact H|intros _]).
    - apply s_bind; [apply s_log|]. intros _. destruct one; [apply s_log|apply s_ret].
    - assert (Go : silent (match one with Some v => drop_unwinding bomb T v | None => ret tt end ;;; panic : M (bl WN) unit)).
      { apply s_bind; [destruct one; [apply s_late|apply s_ret]|]. intros _. apply s_panic. }
      destruct why; [destruct tr; [exact Go|apply s_abort|exact Go]|exact Go].
  Qed.
  Lemma s_hint it : silent (ask_hint (W := WN) it).
  Proof. unfold ask_hint. destruct (_ =? _); [apply s_panic|apply s_ret]. Qed.
  Lemma s_early v : silent (drop_early (W := WN) bomb T v).
  Proof. unfold drop_early. destruct (t_drop T); [|apply s_ret]. apply s_bind; [apply s_log|]. intros _. destruct (bomb _ _); [apply s_panic|apply s_ret]. Qed.

  (** ** The whole of it *)

  (** The calls so far are those that made the guard. *)
  Definition tip (evs : list uevent) (g : guard) : Prop :=
    (gu_ptr g = None /\ gu_count g = 0 /\ evs = []) \/
    (exists u b, gu_ptr g = Some u /\ u_ptr u = b_ptr b /\ 1 <= gu_count g /\ l_size (gu_lay g) <= array_off (dropping k T) T + gu_count g * t_size T /\ one_block evs /\
       ((exists more, evs = EvAlloc (gu_lay g) (Some b) :: more) \/ (exists p old more, evs = EvResize p old (gu_lay g) (Some b) :: more))).
  Lemma tip_kept evs g : tip evs g -> kept g.
  Proof. intros [(H & _)|(u & b & _ & _ & H & _)]; [left; exact H|right; exact H]. Qed.
  Lemma tip_one evs g : tip evs g -> one_block evs.
  Proof. intros [(_ & _ & ->)|(u & b & _ & _ & _ & _ & H & _)]; [exact I|exact H]. Qed.
  Lemma tip_ask evs g size lay r : 0 < t_size T -> tip evs g -> sized size lay -> gu_count g < size -> one_block (ask g lay r :: evs).
  Proof.
    intros Ht [(H & _ & ->)|(u & b & Hu & Hb & _ & Hl & H & Hev)] [Hs _] Hc; unfold ask.
    - rewrite H. exact I.
    - rewrite Hu. assert (l_size (gu_lay g) < l_size lay) by nia. destruct Hev as [(more & ->)|(p & old & more & ->)]; cbn [one_block]; auto.
  Qed.
  Lemma tip_next evs g g' size lay b : 0 < t_size T -> tip evs g -> sized size lay -> gu_count g < size -> gu_ptr g' = Some (mkU (b_ptr b) (b_len b) lay) -> gu_lay g' = lay ->
    1 <= gu_count g' -> size <= gu_count g' -> tip (ask g lay (Some b) :: evs) g'.
  Proof.
    intros Ht H Hs Hlt Hp <- Hc Hg. right. exists (mkU (b_ptr b) (b_len b) (gu_lay g')), b. split; [exact Hp|]. split; [reflexivity|]. split; [exact Hc|].
    split; [destruct Hs; nia|]. split; [eapply tip_ask; eauto|]. unfold ask. destruct (gu_ptr g); [right; eauto|left; eauto].
  Qed.

  Definition small (n : Z) (ev : uevent) : Prop :=
    wanted ev <= array_off (dropping k T) T + (2 * n + 16) * t_size T /\ wanted_align ev = array_align (dropping k T) T.
  Lemma small_ask n g size lay r : 0 < t_size T -> sized size lay -> size <= 2 * n + 16 -> small n (ask g lay r).
  Proof.
    unfold small. intros Ht [H Ha] Hs. assert (wanted (ask g lay r) = l_size lay /\ wanted_align (ask g lay r) = l_align lay) as [-> ->] by (unfold ask; destruct (gu_ptr g); auto).
    split; [rewrite H; nia|exact Ha].
  Qed.

  (** How many elements [j] calls stand for. *)
  Definition pace (j : nat) (c : Z) : Prop := (j = O /\ c = 0) \/ (exists i, j = S i /\ 9 * 2 ^ Z.of_nat i <= c + 1).
  Definition few (n : Z) (evs : list uevent) : Prop :=
    one_block evs /\ Forall (small n) evs /\ ((length evs <= 1)%nat \/ exists i, length evs = S (S i) /\ 9 * 2 ^ Z.of_nat i <= n).
  Lemma few_now n g evs : 0 <= n -> tip evs g -> Forall (small n) evs -> pace (length evs) (gu_count g) -> gu_count g + 1 <= n -> few n evs.
  Proof.
    intros Hn Ht Hs Hp Hc. split; [exact (tip_one _ _ Ht)|]. split; [exact Hs|]. destruct Hp as [[-> _]|(i & -> & Hi)]; [left; lia|].
    destruct i as [|i]; [left; lia|]. right. exists i. split; [reflexivity|]. assert (2 ^ Z.of_nat i <= 2 ^ Z.of_nat (S i)) by (apply Z.pow_le_mono_r; lia). lia.
  Qed.
  Lemma few_more n g evs size lay r : 0 < t_size T -> sized size lay -> gu_count g < size -> 0 <= n -> tip evs g -> Forall (small n) evs -> pace (length evs) (gu_count g) -> gu_count g + 1 <= n ->
    small n (ask g lay r) -> few n (ask g lay r :: evs).
  Proof.
    intros H1 H2 H3 Hn Ht Hs Hp Hc Hk. split; [eapply tip_ask; eauto|]. split; [constructor; assumption|]. cbn [length].
    destruct Hp as [[-> _]|(i & -> & Hi)]; [left; lia|]. right. exists i. split; [reflexivity|]. lia.
  Qed.

  Lemma m_loop n fuel : 0 < t_size T -> forall one it g evs, fine it -> 0 <= gu_count g -> n = gu_count g + 1 + Z.of_nat (lead it) ->
    tip evs g -> Forall (small n) evs -> pace (length evs) (gu_count g) ->
    makes (from_iter_loop A' dbg bomb fuel k tr T one (its it) g) (fun _ new => few n (new ++ evs)) (fun new => few n (new ++ evs)).
  Proof.
    intros Ht. induction fuel as [|fuel IH]; intros one it g evs Hf Hc Hn Htip Hsm Hpace; [apply makes_ub|].
    cbn [from_iter_loop]. pose proof (tip_kept _ _ Htip) as Hk. assert (Hnow : few n ([] ++ evs)) by (apply (few_now n g evs); auto; lia).
    destruct (fine_hint it Hf) as (Elo & Hlo & Hlow & Hup).
    eapply makes_bind with (P := fun _ new => new = [] /\ 0 <= lower it) (Pp := none).
    { apply (s_guarded _ g _ True); [|auto]. apply makes_unwind.
      - unfold ask_hint. rewrite Elo. destruct (Z.eqb_spec (lower it) PANICS); [apply makes_panic; auto|apply makes_ret]. split; [reflexivity|].
        destruct Hlo; [contradiction|assumption].
      - intros new (-> & _). eapply makes_mono; [exact (s_late bomb T one)| |]; [intros ? ? ->|]; auto. }
    { intros ? ->. exact Hnow. }
    intros _ new (-> & Hlo0).
    eapply makes_mono; [|intros c h Hh; rewrite app_nil_r; exact Hh|intros h Hh; rewrite app_nil_r; exact Hh].
    rewrite Elo. set (c' := Z.max (gu_count g) FASTER_START).
    destruct (size_hint_and_one _ _ _) as [size|] eqn:Es.
    2: { eapply makes_mono; [apply s_from_failed; exact Hk| |]; [intros ? ? ->|intros ? ->]; exact Hnow. }
    assert (Hsize : size = c' + Z.max (lower it) (match snd (hint (its it)) with Some u => Z.min u c' | None => c' end) + 1).
    { unfold size_hint_and_one in Es. unfold checked_add in Es. destruct (_ <=? _) in Es; [|discriminate Es].
      destruct (_ <=? _) in Es; [|discriminate Es]. injection Es as <-. lia. }
    assert (Hsz : size <= 2 * n + 16).
    { unfold c', FASTER_START in *. destruct (snd (hint (its it))); lia. }
    assert (Hgt : gu_count g < size).
    { unfold c', FASTER_START in *. destruct (snd (hint (its it))); lia. }
    eapply makes_bind; [apply (m_fill size (Some one) it g Hf Ht Hc); cbn [extra]; lia| |].
    { intros new [->|(lay & r & Hl & ->)]; [exact Hnow|]. apply (few_more n g evs size); auto; try lia. apply (small_ask n g size); auto. }
    intros [[[g' i'] one'] e] new [(why & -> & -> & -> & -> & Hnew)|(-> & it' & lay & b & -> & Hf' & Hl & -> & G1 & G2 & G3 & G4 & G5)].
    - assert (few n (new ++ evs)).
      { destruct Hnew as [->|(lay & Hl & ->)]; [exact Hnow|]. apply (few_more n g evs size); auto; try lia. apply (small_ask n g size); auto. }
      eapply makes_mono; [apply s_from_failed; exact Hk| |]; [intros ? ? ->|intros ? ->]; assumption.
    - cbn [extra] in G3. assert (Hc1 : 1 <= gu_count g') by (unfold c', FASTER_START in *; destruct (snd (hint (its it))); lia).
      assert (Hk' : kept g') by (right; exact Hc1).
      assert (Hsk : small n (ask g lay (Some b))) by (apply (small_ask n g size); auto).
      assert (Hmore : few n ([ask g lay (Some b)] ++ evs)) by (apply (few_more n g evs size); auto; lia).
      eapply makes_bind; [apply (s_guarded _ g' _ _ (m_next it' Hf')); intros _; exact Hk'|intros ? ->; exact Hmore|].
      intros o new (-> & it2 & -> & Hf2 & [(-> & L1 & L2)|(v & -> & L)]).
      + eapply makes_mono; [apply s_flush; exact Hk'| |]; [intros ? ? ->|intros ? ->]; exact Hmore.
      + eapply makes_mono; [apply (IH v it2 g' (ask g lay (Some b) :: evs) Hf2)| |].
        * lia.
        * lia.
        * apply (tip_next evs g g' size); auto. lia.
        * constructor; auto.
        * right. exists (length evs). split; [reflexivity|].
          destruct G5 as [G5|G5]; [lia|].
          assert (Hd : 2 * c' + 1 <= size).
          { unfold c', FASTER_START in *. destruct (snd (hint (its it))); lia. }
          destruct Hpace as [[-> _]|(i & -> & Hi)].
          -- unfold c', FASTER_START in Hd. cbn. lia.
          -- rewrite Nat2Z.inj_succ, Z.pow_succ_r by lia. unfold c' in Hd. lia.
        * intros ? new H. rewrite app_nil_r, <- app_assoc. exact H.
        * intros new H. rewrite app_nil_r, <- app_assoc. exact H.
  Qed.


  Lemma makes_bret {B C} (b : B) (f : B -> M (bl WN) C) Q Qp : makes (f b) Q Qp -> makes (bind (ret b) f) Q Qp.
  Proof. intros H. exact H. Qed.

  Lemma s_ask_hint g it : kept g -> fine it -> makes (guarded A' dbg k T g (ask_hint (its it))) (fun _ new => new = [] /\ 0 <= lower it) none.
  Proof.
    intros Hk Hf. destruct (fine_hint it Hf) as (Elo & Hlo & _). apply (s_guarded _ g _ True); [|auto]. unfold ask_hint. rewrite Elo.
    destruct (Z.eqb_spec (lower it) PANICS); [apply makes_panic; auto|apply makes_ret]. split; [reflexivity|]. destruct Hlo; [contradiction|assumption].
  Qed.

  Lemma m_sized it : 0 < t_size T -> fine it ->
    makes (from_iter_sized A' dbg bomb k tr T (its it)) (fun _ new => few (Z.of_nat (lead it)) new) (fun new => few (Z.of_nat (lead it)) new).
  Proof.
    intros Ht Hf. unfold from_iter_sized. cbv zeta. set (g0 := mkGu None 0 0 _ []). set (n := Z.of_nat (lead it)).
    assert (H0 : few n []) by (split; [exact I|]; split; [constructor|]; left; cbn; lia).
    assert (Hk0 : kept g0) by (left; reflexivity).
    assert (Ht0 : tip [] g0) by (left; auto).
    destruct (fine_hint it Hf) as (Elo & _ & Hlow & _).
    apply (makes_after _ _ _ _ _ (s_ask_hint g0 it Hk0 Hf) H0).
    intros _ Hlo0. rewrite Elo. destruct (Z.eqb_spec (lower it) 0) as [Ez|Ez].
    - apply makes_bret.
      eapply makes_after; [apply (s_guarded _ g0 _ _ (m_next it Hf)); intros _; exact Hk0|exact H0|].
      intros o (it2 & -> & Hf2 & [(-> & L1 & L2)|(v & -> & L)]).
      + eapply makes_mono; [apply s_flush; exact Hk0| |]; [intros ? ? ->|intros ? ->]; exact H0.
      + eapply makes_mono; [apply (m_loop n _ Ht v it2 g0 [] Hf2)| |].
        * cbn; lia.
        * cbn [g0 gu_count]; lia.
        * exact Ht0.
        * constructor.
        * left. auto.
        * intros ? new H. cbv beta in H. rewrite app_nil_r in H. exact H.
        * intros new H. cbv beta in H. rewrite app_nil_r in H. exact H.
    - assert (Hsz : Z.max (lower it) FASTER_START <= 2 * n + 16) by (unfold FASTER_START; lia).
      assert (Hone : forall lay r, sized (Z.max (lower it) FASTER_START) lay -> few n [ask g0 lay r]).
      { intros lay r Hl. split; [exact I|]. split; [constructor; [|constructor]|left; cbn; lia]. eapply small_ask; eauto. }
      eapply makes_bind; [apply (m_fill (Z.max (lower it) FASTER_START) None it g0 Hf Ht); cbn [g0 gu_count extra]; lia| |].
      { intros new [->|(lay & r & Hl & ->)]; auto. }
      intros [[[g' i'] one'] e] new [(why & -> & -> & -> & -> & Hnew)|(-> & it' & lay & b & -> & Hf' & Hl & -> & G1 & G2 & G3 & G4 & G5)].
      + assert (few n new) by (destruct Hnew as [->|(lay & Hl & ->)]; auto).
        eapply makes_mono; [apply s_from_failed; exact Hk0| |]; [intros ? ? ->|intros ? ->]; assumption.
      + cbn [extra] in G3. change (gu_count g0) with 0 in *. assert (Hc1 : 1 <= gu_count g') by (unfold FASTER_START in *; lia).
        assert (Hk' : kept g') by (right; exact Hc1). specialize (Hone lay (Some b) Hl).
        eapply makes_bind; [apply (s_guarded _ g' _ _ (m_next it' Hf')); intros _; exact Hk'|intros ? ->; exact Hone|].
        intros o new (-> & it2 & -> & Hf2 & [(-> & L1 & L2)|(v & -> & L)]).
        * eapply makes_mono; [apply s_flush; exact Hk'| |]; [intros ? ? ->|intros ? ->]; exact Hone.
        * eapply makes_mono; [apply (m_loop n _ Ht v it2 g' [ask g0 lay (Some b)] Hf2)| |].
          -- lia.
          -- lia.
          -- apply (tip_next [] g0 g' (Z.max (lower it) FASTER_START)); auto; cbn [g0 gu_count]; unfold FASTER_START in *; lia.
          -- exact (proj1 (proj2 Hone)).
          -- right. exists O. split; [reflexivity|]. unfold FASTER_START in *. cbn. lia.
          -- intros ? new H. rewrite app_nil_r. exact H.
          -- intros new H. rewrite app_nil_r. exact H.
  Qed.

  (** The first lower bound is the number of elements. *)
  Definition once (n : Z) (evs : list uevent) : Prop :=
    evs = [] \/ (1 <= n /\ exists lay r, sized (Z.max n FASTER_START) lay /\ evs = [EvAlloc lay r]).
  Lemma m_once it : 0 < t_size T -> fine it -> lower it = Z.of_nat (lead it) ->
    makes (from_iter_sized A' dbg bomb k tr T (its it)) (fun _ new => once (lower it) new) (fun new => once (lower it) new).
  Proof.
    intros Ht Hf Hn. unfold from_iter_sized. cbv zeta. set (g0 := mkGu None 0 0 _ []). set (n := lower it) in *.
    assert (H0 : once n []) by (left; reflexivity).
    assert (Hk0 : kept g0) by (left; reflexivity).
    destruct (fine_hint it Hf) as (Elo & _ & Hlow & _). fold n in Elo, Hlow.
    apply (makes_after _ _ _ _ _ (s_ask_hint g0 it Hk0 Hf) H0).
    intros _ Hlo0. fold n in Hlo0. rewrite Elo. destruct (Z.eqb_spec n 0) as [Ez|Ez].
    - apply makes_bret.
      eapply makes_after; [apply (s_guarded _ g0 _ _ (m_next it Hf)); intros _; exact Hk0|exact H0|].
      intros o (it2 & -> & Hf2 & [(-> & L1 & L2)|(v & -> & L)]); [|exfalso; lia].
      eapply makes_mono; [apply s_flush; exact Hk0| |]; [intros ? ? ->|intros ? ->]; exact H0.
    - assert (Hone : forall lay r, sized (Z.max n FASTER_START) lay -> once n [ask g0 lay r]).
      { intros lay r Hl. right. split; [lia|]. exists lay, r. auto. }
      eapply makes_bind; [apply (m_fill (Z.max n FASTER_START) None it g0 Hf Ht); cbn [g0 gu_count extra]; lia| |].
      { intros new [->|(lay & r & Hl & ->)]; auto. }
      intros [[[g' i'] one'] e] new [(why & -> & -> & -> & -> & Hnew)|(-> & it' & lay & b & -> & Hf' & Hl & -> & G1 & G2 & G3 & G4 & G5)].
      + assert (once n new) by (destruct Hnew as [->|(lay & Hl & ->)]; auto).
        eapply makes_mono; [apply s_from_failed; exact Hk0| |]; [intros ? ? ->|intros ? ->]; assumption.
      + cbn [extra] in G3. change (gu_count g0) with 0 in *. assert (Hc1 : 1 <= gu_count g') by (unfold FASTER_START in *; lia).
        assert (Hk' : kept g') by (right; exact Hc1). specialize (Hone lay (Some b) Hl).
        eapply makes_bind; [apply (s_guarded _ g' _ _ (m_next it' Hf')); intros _; exact Hk'|intros ? ->; exact Hone|].
        intros o new (-> & it2 & -> & Hf2 & [(-> & L1 & L2)|(v & -> & L)]).
        * eapply makes_mono; [apply s_flush; exact Hk'| |]; [intros ? ? ->|intros ? ->]; exact Hone.
        * exfalso. unfold FASTER_START in *. lia.
  Qed.

  Lemma m_nothing it : 0 < t_size T -> fine it -> lead it = O -> silent (from_iter_sized A' dbg bomb k tr T (its it)).
  Proof.
    intros Ht Hf Hz. destruct (fine_hint it Hf) as (_ & [Hp|Hlo] & Hlow & _).
    - intros s. unfold from_iter_sized. cbv zeta. set (g0 := mkGu None 0 0 _ []).
      assert (X : makes (guarded A' dbg k T g0 (ask_hint (its it))) (fun _ new => new = [] /\ 0 <= lower it) none) by (apply s_ask_hint; [left; reflexivity|exact Hf]).
      specialize (X s). unfold bind. destruct (guarded _ _ _ _ _ _ s) as [u s'|s'| |]; auto. destruct X as (? & _ & _ & X). rewrite Hp in X. unfold PANICS in X. lia.
    - eapply makes_mono; [apply m_once; auto; lia| |]; [intros ? new H|intros new H]; destruct H as [->|(H & _)]; try reflexivity; exfalso; lia.
  Qed.

  (** ** Zero-sized elements *)

  Notation calm := (Forall (fun x : Z * option Z * M (bl WN) (option Z) => silent (snd x))).
  Lemma plain_calm it : plain it = true -> calm (fst (its it)).
  Proof.
    induction it as [lo up|lo up body out rest IH]; intros H; cbn [biter fst]; [constructor|]. cbn [plain] in H. destruct body; [|discriminate H].
    constructor; [|exact (IH H)]. cbn [snd brun]. apply s_bind; [apply s_ret|]. intros _. destruct out; [apply s_ret|apply s_ret|apply s_panic].
  Qed.
  Lemma s_next i : calm (fst i) -> makes (next T i) (fun o new => new = [] /\ snd o = (tl (fst i), snd i)) none.
  Proof.
    intros H. destruct i as [[|[h m] l] last]; unfold next; cbn [fst snd tl] in *.
    - apply makes_ret. auto.
    - apply Forall_inv in H. cbn [snd] in H. apply (silent_bind _ _ _ _ H); [reflexivity|]. intros [v|]; [|apply makes_ret; auto].
      apply (silent_bind _ _ _ _ (s_log _)); [reflexivity|]. intros _. apply makes_ret. auto.
  Qed.
  Lemma calm_tl l : calm l -> calm (tl l).
  Proof. intros H. destruct l; [constructor|exact (Forall_inv_tail H)]. Qed.
  Lemma s_drain_nth last l : forall n, calm l -> makes (drain_nth bomb T n l last) (fun r new => new = [] /\ calm (fst (snd r))) none.
  Proof.
    induction l as [|x l IH]; intros n H; cbn [drain_nth]; [apply makes_ret; split; [reflexivity|constructor]|].
    eapply makes_after; [apply (s_next (x :: l, last) H)|reflexivity|]. intros o _. apply Forall_inv_tail in H. destruct (fst o).
    - apply (silent_bind _ _ _ _ (s_early _)); [reflexivity|]. intros _. destruct (_ <=? _); [apply makes_ret; auto|apply IH; exact H].
    - apply makes_ret. auto.
  Qed.
  Lemma s_add_usize a b : silent (add_usize (W := bl WN) dbg a b).
  Proof. unfold add_usize. destruct (_ <=? _); [apply s_ret|destruct dbg; [apply s_panic|apply s_ret]]. Qed.
  Lemma s_sub_usize a b : silent (sub_usize (W := bl WN) dbg a b).
  Proof. unfold sub_usize. destruct (_ <=? _); [apply s_ret|destruct dbg; [apply s_panic|apply s_ret]]. Qed.
  Lemma s_drain fuel : forall d i, calm (fst i) -> silent (drain dbg bomb fuel T d i).
  Proof.
    induction fuel as [|fuel IH]; intros d i H; cbn [drain]; [apply s_ub|]. apply s_bind; [apply s_hint|]. intros _.
    destruct (_ =? 0).
    - eapply makes_after; [apply (s_next i H)|reflexivity|]. intros o E. destruct (fst o); [|apply s_ret]. apply s_bind; [apply s_early|]. intros _.
      apply s_bind; [apply s_add_usize|]. intros d'. apply IH. rewrite E. apply calm_tl. exact H.
    - cbv zeta. apply s_bind; [apply s_sub_usize|]. intros j. eapply makes_after; [apply s_drain_nth; exact H|reflexivity|].
      intros o Ho. destruct (fst o); [|apply s_ret]. apply s_bind; [apply s_add_usize|]. intros d'. destruct (_ =? _); [apply s_ret|apply IH; exact Ho].
  Qed.
  Definition zero_sized (evs : list uevent) : Prop :=
    evs = [] \/ (dropping k T = true /\ exists r, evs = [EvAlloc (head_layout T) r]).
  Lemma m_zst it : plain it = true ->
    makes (from_iter_zst A' dbg bomb k tr T (its it)) (fun _ new => zero_sized new) (fun new => zero_sized new).
  Proof.
    intros H. apply plain_calm in H. unfold from_iter_zst. cbv zeta. destruct (dropping k T) eqn:Ed.
    - eapply makes_bind; [apply m_alloc|intros ? ->; left; reflexivity|]. intros r new ->.
      assert (Hz : zero_sized [EvAlloc (head_layout T) r]) by (right; eauto).
      match goal with |- makes ?m _ _ => assert (silent m) as Hm end.
      { destruct r as [b|].
        - apply s_bind; [apply s_drain; exact H|]. intros n. unfold init_slice. apply s_bind; [apply s_bind; [apply s_assert|intros ?; apply s_drops]|]. intros _.
          apply s_bind; [apply s_add|]. intros _. apply s_hand.
        - destruct tr; [|apply s_abort|apply s_panic]. apply s_bind; [apply s_hand|]. intros _. apply s_log. }
      eapply makes_mono; [exact Hm| |]; [intros ? ? ->|intros ? ->]; exact Hz.
    - match goal with |- makes ?m _ _ => assert (silent m) as Hm end.
      { apply s_bind; [apply s_drain; exact H|]. intros n. apply s_hand. }
      eapply makes_mono; [exact Hm| |]; [intros ? ? ->|intros ? ->]; left; reflexivity.
  Qed.
End Collect.
