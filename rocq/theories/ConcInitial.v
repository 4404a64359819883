(** Threads that ask for no more than the configured size in all (C94): at most one chunk for each.
    On paper (C89). *)
From Verif Require Import Base BaseFacts Alloc AllocFacts Arena ArenaFacts ArenaInv BlinkAlloc History HistoryFacts Setup SetupFacts Concrete
  Conc ConcFacts ConcSteps ConcProps Paper PaperFacts ProxyPaper ProxyPaperFacts ConcPaper ConcPaperFacts ConcPaperDemo InitialFacts.

(** Requests that were granted. *)
Definition given (e : uevent) : bool := match e with EvAlloc _ (Some _) => true | _ => false end.

Section Early.
  Variables (min smax amax : Z) (S : strategy).
  Hypothesis Hs : honest amax S.
  Hypothesis Hm : 0 <= min <= USIZE_MAX.
  Hypothesis Ha : amax <= USIZE_MAX.
  Notation stp := (cp_step min smax S).
  Notation rn := (cp_run min smax S).
  Notation d_sane := (d_sane smax).

  (** What threads in a call have asked for and not got yet. *)
  Definition due (d : doing) : Z := match d with DAsked o | DFull o => most o | _ => 0 end.
  Definition dues (ds : list doing) : Z := fold_right (fun d n => due d + n) 0 ds.
  Definition fulls (ds : list doing) : nat := length (filter d_full ds).

  Lemma dues_set t d d0 ds : nth_error ds t = Some d0 -> dues (set_nth t d ds) = dues ds - due d0 + due d.
  Proof.
    unfold dues. revert t. induction ds as [|x ds IH]; intros [|t] H; cbn in *; try discriminate.
    - injection H as ->. lia.
    - rewrite (IH t H). lia.
  Qed.
  Lemma fulls_set t d d0 ds : nth_error ds t = Some d0 ->
    (fulls (set_nth t d ds) + (if d_full d0 then 1 else 0) = fulls ds + (if d_full d then 1 else 0))%nat.
  Proof.
    unfold fulls. revert t. induction ds as [|x ds IH]; intros [|t] H; cbn in *; try discriminate.
    - injection H as ->. destruct (d_full d0), (d_full d); cbn; lia.
    - specialize (IH t H). destruct (d_full x); cbn; lia.
  Qed.
  Lemma fulls_len ds : (fulls ds <= length ds)%nat.
  Proof. unfold fulls. induction ds as [|d ds IH]; cbn; [lia|]. destruct (d_full d); cbn; lia. Qed.
  Lemma set_len {T} t (d : T) ds : length (set_nth t d ds) = length ds.
  Proof. revert t. induction ds as [|x ds IH]; intros [|t]; cbn; auto. Qed.
  Lemma op_pos o : op_sane smax o -> 0 <= most o.
  Proof.
    destruct o as [l z|h off cs|h l|h old new|h old new|keep]; cbn; try lia;
      [intros H|intros [H _]]; destruct (req_ok_facts _ _ H) as (k & _ & _ & Hp & Hz & _); lia.
  Qed.
  Lemma due_pos d : d_sane d -> 0 <= due d.
  Proof. destruct d as [|o|o| |]; cbn [due]; try lia; exact (op_pos o). Qed.
  Lemma owes_due ds : Forall d_sane ds -> owed ds <= dues ds.
  Proof.
    unfold owed, dues. induction 1 as [|d ds H _ IH]; cbn; [lia|]. pose proof (due_pos d H). destruct d; cbn in *; lia.
  Qed.
  Lemma owes_due_full ds t o : Forall d_sane ds -> nth_error ds t = Some (DFull o) -> owed ds + most o <= dues ds.
  Proof.
    intros H. revert t. induction H as [|d ds Hd H IH]; intros [|t] E; cbn in *; try discriminate.
    - injection E as ->. pose proof (owes_due ds H). unfold owed, dues in *. cbn. lia.
    - specialize (IH t E). pose proof (due_pos d Hd). unfold owed, dues in *. destruct d; cbn in *; lia.
  Qed.

  (** [N] threads; everything they have asked for and not got, and [n] bytes more, are within the
      configured size; the newest chunk, if there is one, has room for all but those who will ask for
      a chunk of their own; and of these there are not too many. *)
  Record early (N : nat) (n : Z) (q : cpaper) : Prop := mkEarly {
    e_tab : tab_sane (cp_tab q);
    e_sane : Forall d_sane (cp_thr q);
    e_len : length (cp_thr q) = N;
    e_due : dues (cp_thr q) + n <= min;
    e_room : match cp_chunks q with k :: _ => p_free k + owed (cp_thr q) + n <= p_end k /\ p_end k <= USIZE_MAX | [] => True end;
    e_few : cp_chunks q <> [] -> (length (cp_chunks q) + fulls (cp_thr q) <= N)%nat;
    e_given : length (filter given (cp_calls q)) = length (cp_chunks q)
  }.

  Lemma early_set N n ks ks' tab tab' tr ds t d0 d n' :
    early N n' (mkCP ks tab tr ds) -> nth_error ds t = Some d0 -> tab_sane tab' -> d_sane d ->
    d_full d = false -> length ks' = length ks ->
    due d + n <= due d0 + n' ->
    match ks' with k :: _ => p_free k + (owed ds - owes d0 + owes d) + n <= p_end k /\ p_end k <= USIZE_MAX | [] => True end ->
    early N n (mkCP ks' tab' tr (set_nth t d ds)).
  Proof.
    intros [E1 E2 E3 E4 E5 E6 E7] Et Ht Hd Hf Hk Hn Hr. cbn [cp_tab cp_thr cp_chunks cp_calls] in *.
    split; cbn [cp_tab cp_thr cp_chunks cp_calls].
    - exact Ht.
    - apply sane_set; assumption.
    - rewrite set_len. exact E3.
    - rewrite (dues_set _ _ _ _ Et). lia.
    - rewrite (owed_set _ _ _ _ Et). exact Hr.
    - intros X. pose proof (fulls_set t d d0 ds Et) as F. rewrite Hf in F.
      destruct ks as [|k ks]; [destruct ks'; [contradiction X; reflexivity|discriminate Hk]|].
      specialize (E6 ltac:(discriminate)). rewrite Hk. destruct (d_full d0); lia.
    - rewrite Hk. exact E7.
  Qed.

  Lemma step_early N m q es q1 n : 0 <= n -> stp m q = Some (es, q1) -> forallb no_reset es = true ->
    early N (most_called es + n) q -> early N n q1.
  Proof.
    destruct q as [ks tab tr ds]. intros Hn0 E Hr Hq.
    pose proof (step_called _ _ _ _ _ _ _ E) as Hc0.
    pose proof Hq as [Ht Hsn Hlen Hdue Hroom Hfew Hgiven]. cbn [cp_chunks cp_thr cp_tab cp_calls] in *.
    assert (Hsame : forall t d0 d tab', nth_error ds t = Some d0 -> tab_sane tab' -> d_sane d -> d_full d = false ->
              due d <= due d0 + most_called es -> owes d <= owes d0 + most_called es ->
              early N n (mkCP ks tab' tr (set_nth t d ds))).
    { intros t d0 d tab' Et Ht' Hd Hf H1 H2. apply (early_set N n ks ks tab tab' tr ds t d0 d _ Hq Et); auto; [lia|].
      destruct ks as [|k ks]; [exact I|]. lia. }
    assert (Hsane : forall t d, nth_error ds t = Some d -> d_sane d).
    { intros t d Et. rewrite Forall_forall in Hsn. apply (Hsn _ (nth_error_In _ _ Et)). }
    assert (Htab : forall t o a r ks tr ds, op_sane smax o ->
       exists hh tt, snd (done_with t o a r (mkCP ks tab tr ds)) = mkCP ks tt tr (set_nth t (DDone hh a) ds) /\ tab_sane tt).
    { intros t o a r ks' tr' ds' Hso.
      assert (Hn : forall x, 0 <= l_size x -> tab_sane (tab ++ [Some (mkU (match r with Some b => b_ptr b | None => 0 end) (match r with Some b => b_len b | None => 0 end) x)])).
      { intros x Hx. apply Forall_app. split; [exact Ht|]. constructor; [exact Hx|constructor]. }
      unfold done_with. destruct o as [l z|h off cl|h l|h old new|h old new|keep], r as [b|]; cbn [cp_chunks cp_tab cp_calls cp_thr set_thr fst snd];
        eexists; eexists; (split; [reflexivity|]); auto; try (apply tab_set; [exact Ht|]; exact I).
      - apply Hn. destruct (req_ok_facts _ _ Hso) as (kk & _ & _ & Hp & Hsz & _). lia.
      - apply tab_set; [exact Ht|]. cbn. destruct (req_ok_facts _ _ (proj1 Hso)) as (kk & _ & _ & Hp & Hsz & _). lia. }
    assert (Hdone : forall t o d0 a r, nth_error ds t = Some d0 -> op_sane smax o -> es = [Lin t o r] ->
              early N n (snd (done_with t o a r (mkCP ks tab tr ds)))).
    { intros t o d0 a r Et Hso ->. pose proof (due_pos d0 (Hsane _ _ Et)) as Hp1. pose proof (most_pos smax d0 (Hsane _ _ Et)) as Hp2.
      destruct (Htab t o a r ks tr ds Hso) as (hh & tt & -> & Htt).
      apply (Hsame t d0); auto; try exact I; cbn [due owes most_called]; lia. }
    destruct m as [t o|t|t|t|t|t|t|t|keep]; cbn [cp_step cp_thr cp_chunks cp_tab cp_calls] in E.
    - destruct (nth_error ds t) as [[|o1|o1|o1 b1 a1|h1 a1]|] eqn:Et; try discriminate E.
      destruct o as [l z|h off cl|h l|h old new|h old new|keep]; try discriminate E.
      + destruct z; [discriminate E|]. destruct (req_okb smax l) eqn:El; [|discriminate E]. injection E as <- <-.
        apply (Hsame t DNone); auto; cbn; lia.
      + destruct (get h tab) as [u|]; [|discriminate E]. destruct (_ && _); [|discriminate E]. injection E as <- <-.
        cbn [most_called most] in *. exact Hq.
      + destruct (get h tab) as [u|]; [|discriminate E]. destruct (_ && _); [|discriminate E]. injection E as <- <-.
        apply (Hsame t DNone); auto; try exact I; cbn; lia.
      + destruct (get h tab) as [u|] eqn:Eu; [|discriminate E].
        destruct (negb _ && fitsb old u && req_okb smax new) eqn:El; [|discriminate E]. injection E as <- <-.
        apply andb_true_iff in El. destruct El as [El0 El]. apply andb_true_iff in El0. destruct El0 as [_ El0]. unfold fitsb in El0.
        pose proof (tab_at _ _ _ Ht Eu) as Hu0.
        apply (Hsame t DNone); auto; try (cbn; lia). split; [exact El|lia].
      + destruct keep; [|discriminate E]. destruct (forallb d_away ds); [|discriminate E]. injection E as <- <-. discriminate Hr.
    - destruct (nth_error ds t) as [[|o|o1|o1 b1 a1|h1 a1]|] eqn:Et; try discriminate E.
      destruct (_ || _); [discriminate E|]. destruct (wants o) as [l|] eqn:Ew; [|discriminate E].
      destruct (room_in ks l) as [[a ks1]|] eqn:Er; [|discriminate E]. unfold bumped in E. injection E as <- <-.
      destruct ks as [|k older]; [discriminate Er|].
      unfold room_in in Er. destruct (_ && _) eqn:Eb in Er; [|discriminate Er]. injection Er as <- <-.
      assert (Hl : req_ok smax l /\ most o = l_size l + (l_align l - 1)).
      { pose proof (Hsane _ _ Et) as X. destruct o; try discriminate Ew; injection Ew as ->; cbn in X; tauto. }
      destruct Hl as [Hl Hmo]. destruct (req_ok_facts _ _ Hl) as (kk & _ & _ & Hp & Hsz & _).
      pose proof (round_up_spec (p_free k) (l_align l) Hp) as [B _]. rewrite <- least_multiple_eq in B.
      set (a := least_multiple (p_free k) (l_align l)) in *.
      assert (Hgo : forall d tab', tab_sane tab' -> d_sane d -> d_full d = false -> owes d = 0 -> due d = 0 ->
                early N n (mkCP (mkP (p_at k) (p_len k) (a + l_size l) :: older) tab' tr (set_nth t d ds))).
      { intros d tab' H0 H1 H2 H3 H4.
        assert (H5 : 0 <= most_called (fst (granted t o false (mkBlock a (l_size l)) (set_chunks (mkP (p_at k) (p_len k) (a + l_size l) :: older) (mkCP (k :: older) tab tr ds))))) by exact Hc0.
        cbn [most_called] in Hq, Hroom. eapply (early_set N n (k :: older) _ tab tab' tr ds t (DAsked o) d _ Hq Et); auto.
        - rewrite H4. change (due (DAsked o)) with (most o). lia.
        - change (owes (DAsked o)) with (most o). cbn [p_free]. unfold p_end in *. cbn [p_at p_len] in *. lia. }
      pose proof (Hsane _ _ Et) as Hso.
      destruct o; try discriminate Ew; cbn [granted done_with fst snd set_thr set_chunks cp_chunks cp_tab cp_calls cp_thr]; apply Hgo; auto; try exact I.
      injection Ew as ->. apply Forall_app. split; [exact Ht|]. constructor; [cbn; lia|constructor].
    - destruct (nth_error ds t) as [[|o|o1|o1 b1 a1|h1 a1]|] eqn:Et; try discriminate E.
      destruct o as [l z|h off cl|h l|h old new|h old new|keep]; try discriminate E.
      destruct (existsb alone ds); [discriminate E|]. destruct (get h tab) as [u|]; [|discriminate E].
      destruct ((l_align new <=? l_align old) && (l_size old <? l_size new)) eqn:Ea; [|discriminate E].
      destruct (room_at ks (u_ptr u) old new) as [ks1|] eqn:Er; [|discriminate E]. unfold bumped in E. injection E as <- <-.
      destruct ks as [|k older]; [discriminate Er|].
      unfold room_at in Er. destruct (_ && _) eqn:Eb in Er; [|discriminate Er]. injection Er as <-.
      destruct (Hsane _ _ Et) as [Hso Ho]. destruct (req_ok_facts _ _ Hso) as (kk & _ & _ & Hp & Hsz & _).
      cbn [done_with fst snd most_called set_chunks cp_chunks cp_tab cp_calls cp_thr] in *.
      eapply (early_set N n (k :: older) _ tab _ tr ds t (DAsked (OpResize h old new)) _ _ Hq Et); auto;
        [apply tab_set; [exact Ht|cbn; lia]|exact I|cbn; lia|]. cbn [owes most p_free]. unfold p_end in *. cbn [p_at p_len] in *. lia.
    - destruct (nth_error ds t) as [[|o|o1|o1 b1 a1|h1 a1]|] eqn:Et; try discriminate E.
      destruct (existsb alone ds); [discriminate E|].
      destruct o as [l z|h off cl|h l|h old new|h old new|keep]; try discriminate E.
      + injection E as <- <-. apply (Hdone t (OpDealloc h l) _ false None Et); [exact I|reflexivity].
      + destruct (get h tab) as [u|]; [|discriminate E]. destruct (shrinks _); [|discriminate E]. injection E as <- <-.
        apply (Hdone t (OpResize h old new) _ false (Some (mkBlock (u_ptr u) (l_size old))) Et); [exact (Hsane _ _ Et)|reflexivity].
    - destruct (nth_error ds t) as [[|o|o1|o1 b1 a1|h1 a1]|] eqn:Et; try discriminate E.
      destruct (_ || _); [discriminate E|]. destruct (wants o) as [l|] eqn:Ew; [|discriminate E].
      destruct (room_in ks l) as [[a ks1]|] eqn:Er; [discriminate E|]. injection E as <- <-.
      destruct ks as [|k older].
      + (* no chunk yet *)
        cbn [most_called] in Hdue. split; cbn [set_thr cp_tab cp_thr cp_chunks cp_calls].
        * exact Ht.
        * apply sane_set; [exact (Hsane _ _ Et)|exact Hsn].
        * rewrite set_len. exact Hlen.
        * rewrite (dues_set _ _ _ _ Et). cbn [due]. lia.
        * exact I.
        * intros X. contradiction X; reflexivity.
        * exact Hgiven.
      + exfalso.
        assert (Hl : req_ok smax l /\ most o = l_size l + (l_align l - 1)).
        { pose proof (Hsane _ _ Et) as X. destruct o; try discriminate Ew; injection Ew as ->; cbn in X; tauto. }
        destruct Hl as [Hl Hmo]. destruct (req_ok_facts _ _ Hl) as (kk & _ & _ & Hp & Hsz & _).
        pose proof (round_up_spec (p_free k) (l_align l) Hp) as [B _]. rewrite <- least_multiple_eq in B.
        pose proof (owed_at smax ds t _ Hsn Et) as Ho. cbn [owes most_called] in Ho, Hroom.
        unfold room_in in Er. destruct (_ && _) eqn:Eb in Er; [discriminate Er|].
        pose proof (owed_pos smax ds Hsn). apply andb_false_iff in Eb. destruct Eb as [Eb|Eb]; unfold p_end in *; lia.
    - destruct (nth_error ds t) as [[|o|o|o1 b1 a1|h1 a1]|] eqn:Et; try discriminate E.
      destruct (existsb has_got ds); [discriminate E|]. destruct (wants o) as [l|] eqn:Ew; [|discriminate E].
      destruct (fresh min S ks l tr) as [[a ks1] tr1] eqn:Ef.
      assert (Hl : req_ok smax l /\ most o = l_size l + (l_align l - 1)).
      { pose proof (Hsane _ _ Et) as X. destruct o; try discriminate Ew; injection Ew as ->; cbn in X; tauto. }
      destruct Hl as [Hl Hmo]. destruct (req_ok_facts _ _ Hl) as (kk & _ & _ & Hp & Hsz & _).
      pose proof (fresh_room min smax amax S Hs Hm Ha ks l tr a ks1 tr1 Hl Ef) as F.
      pose proof (Hsane _ _ Et) as Hso. pose proof (owes_due_full ds t o Hsn Et) as Hof. pose proof (fulls_len ds) as Hfl.
      destruct a as [a|].
      + destruct F as (k & m & b & -> & -> & F1 & F2).
        assert (Hgo : forall d tab', tab_sane tab' -> d_sane d -> d_full d = false -> owes d = 0 -> due d = 0 ->
                  early N n (mkCP (k :: ks) tab' (EvAlloc (mkLayout m 8) (Some b) :: tr) (set_nth t d ds))).
        { intros d tab' H0 H1 H2 H3 H4. pose proof (fulls_set t d (DFull o) ds Et) as Hfs. rewrite H2 in Hfs. cbn [d_full] in Hfs.
          split; cbn [cp_tab cp_thr cp_chunks cp_calls].
          - exact H0.
          - apply sane_set; assumption.
          - rewrite set_len. exact Hlen.
          - rewrite (dues_set _ _ _ _ Et). cbn [due]. rewrite H4. lia.
          - rewrite (owed_set _ _ _ _ Et). cbn [owes]. rewrite H3. split; [|exact F2]. lia.
          - intros _. cbn [length]. destruct ks as [|k2 ks]; [cbn [length]; lia|]. specialize (Hfew ltac:(discriminate)). lia.
          - cbn [filter given length]. f_equal. exact Hgiven. }
        destruct o; try discriminate Ew; cbn [granted done_with fst snd set_thr set_chunks cp_chunks cp_tab cp_calls cp_thr] in E; injection E as _ <-; apply Hgo; auto; try exact I.
        injection Ew as ->. apply Forall_app. split; [exact Ht|]. constructor; [cbn; lia|constructor].
      + destruct F as (-> & F). 
        destruct (Htab t o true None ks tr1 ds Hso) as (hh & tt & Eh & Htt).
        assert (Ee : es = fst (done_with t o true None (mkCP ks tab tr1 ds))) by (injection E as E1 E2; symmetry; exact E1).
        assert (Eq : q1 = snd (done_with t o true None (mkCP ks tab tr1 ds))) by (injection E as E1 E2; symmetry; exact E2).
        rewrite Eh in Eq. subst q1.
        assert (X : early N n (mkCP ks tt tr (set_nth t (DDone hh true) ds))).
        { apply (Hsame t (DFull o)); auto; try exact I; cbn [due owes most_called done_with fst]; lia. }
        destruct X as [X1 X2 X3 X4 X5 X6 X7]. split; try assumption. cbn [cp_calls cp_chunks] in *.
        destruct F as [-> | [m ->]]; exact X7.
    - destruct (nth_error ds t) as [[|o|o1|o1 b1 a1|h1 a1]|] eqn:Et; try discriminate E. injection E as <- <-.
      apply (Hdone t o1 _ a1 (Some b1) Et); [exact (Hsane _ _ Et)|reflexivity].
    - destruct (nth_error ds t) as [[|o|o1|o1 b1 a1|h1 a1]|] eqn:Et; try discriminate E. injection E as <- <-.
      apply (Hsame t (DDone h1 a1)); auto; try exact I; cbn; lia.
    - destruct (forallb d_idle ds); [|discriminate E]. injection E as <- <-. discriminate Hr.
  Qed.

  Lemma run_early N ms : forall q es q1 n, 0 <= n -> rn ms q = Some (es, q1) -> forallb no_reset es = true ->
    early N (most_called es + n) q -> early N n q1.
  Proof.
    induction ms as [|m ms IH]; intros q es q1 n Hn E Hr H; cbn [cp_run] in E.
    - injection E as <- <-. exact H.
    - destruct (stp m q) as [[es1 q2]|] eqn:E1; [|discriminate E]. destruct (rn ms q2) as [[es2 q3]|] eqn:E2; [|discriminate E].
      injection E as <- <-. rewrite forallb_app in Hr. apply andb_true_iff in Hr. destruct Hr as [Hr1 Hr2].
      rewrite most_called_app, <- Z.add_assoc in H.
      pose proof (run_called _ _ _ _ _ _ _ E2) as Hn2.
      apply (IH q2 es2 q3 n Hn E2 Hr2). apply (step_early N m q es1 q2 (most_called es2 + n) ltac:(lia) E1 Hr1 H).
  Qed.

  Lemma start_early N n : n <= min -> early N n (cp0 N).
  Proof.
    intros Hn. split; cbn [cp0 cp_tab cp_thr cp_chunks cp_calls].
    - constructor.
    - apply Forall_forall. intros d Hd. apply repeat_spec in Hd. subst. exact I.
    - apply repeat_length.
    - assert (X : dues (repeat DNone N) = 0); [|lia]. clear. induction N as [|N IH]; cbn; [reflexivity|]. exact IH.
    - exact I.
    - intros X. contradiction X; reflexivity.
    - reflexivity.
  Qed.
End Early.

(** On the model of the code. *)
Lemma chunk_each su n sched es g : setup_ok su -> crun su sched (cstart su n) = ORet es g ->
  forallb no_reset es = true -> most_called es <= su_min su ->
  (length (filter given (bw_trace (snd (g_aw g)))) <= n)%nat.
Proof.
  intros Hok E Hr Hm. destruct (threads_exact su Hok n sched es g E) as (ms & q & Em & _ & Hq).
  destruct (bounds su Hok) as (B1 & B2 & B3 & B4).
  assert (He : early (su_min su) (su_smax su) n 0 q).
  { apply (run_early _ _ (su_amax su) (su_strat su) B1 B3 B2 n ms (cp0 n) es q 0 ltac:(lia) Em Hr). apply start_early. lia. }
  destruct Hq as (_ & _ & Hc & _). rewrite Hc, (e_given _ _ _ _ _ He).
  destruct (cp_chunks q) as [|k ks] eqn:Ek; [cbn; lia|].
  pose proof (e_few _ _ _ _ _ He) as X. rewrite Ek in X. specialize (X ltac:(discriminate)). lia.
Qed.
