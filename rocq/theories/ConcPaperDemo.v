(** Consequences of C89 and a worked case. *)
From Verif Require Import Base BaseFacts Alloc AllocFacts Arena ArenaFacts ArenaInv BlinkAlloc History HistoryFacts Setup SetupFacts Concrete
  Conc ConcFacts ConcSteps ConcProps Paper PaperFacts ProxyPaper ProxyPaperFacts ConcPaper ConcPaperFacts.

(** ** With room for everything *)

(** The most a call can use of a chunk. *)
Definition most (o : op) : Z :=
  match o with OpAlloc l _ | OpResize _ _ l => l_size l + (l_align l - 1) | _ => 0 end.
Fixpoint most_called (es : list event) : Z :=
  match es with [] => 0 | Call _ o :: es' => most o + most_called es' | _ :: es' => most_called es' end.
Definition no_reset (e : event) : bool := match e with ResetAll _ | Lin _ (OpReset _) _ => false | _ => true end.
Definition refused (e : event) : bool :=
  match e with Lin _ (OpAlloc _ _) None | Lin _ (OpResize _ _ _) None => true | _ => false end.

Lemma most_called_app es1 es2 : most_called (es1 ++ es2) = most_called es1 + most_called es2.
Proof. induction es1 as [|[t o|t o r|t|t|k] es1 IH]; cbn; lia. Qed.

Section Paper.
  Variable min : Z.
  Variable smax : Z.
  Variable S : strategy.
  Notation stp := (cp_step min smax S).
  Notation rn := (cp_run min smax S).

  Definition owes (d : doing) : Z := match d with DAsked o => most o | _ => 0 end.
  Definition owed (ds : list doing) : Z := fold_right (fun d n => owes d + n) 0 ds.
  Definition d_full (d : doing) : bool := match d with DFull _ => true | _ => false end.
  Definition op_sane (o : op) : Prop :=
    match o with OpAlloc l _ => req_ok smax l | OpResize _ old l => req_ok smax l /\ 0 <= l_size old | _ => True end.
  Definition d_sane (d : doing) : Prop := match d with DAsked o | DFull o | DHas o _ _ => op_sane o | _ => True end.
  Definition tab_sane (tab : list (option ublock)) : Prop := Forall (fun x => match x with Some u => 0 <= l_size (u_layout u) | None => True end) tab.
  Lemma tab_at tab h u : tab_sane tab -> get h tab = Some u -> 0 <= l_size (u_layout u).
  Proof.
    intros H E. unfold tab_sane in H. rewrite Forall_forall in H. unfold get in E. destruct (nth_error tab h) as [x|] eqn:Ex; [|discriminate E].
    destruct x as [v|]; [|discriminate E]. injection E as ->. exact (H _ (nth_error_In _ _ Ex)).
  Qed.
  Lemma tab_set tab h x : tab_sane tab -> match x with Some u => 0 <= l_size (u_layout u) | None => True end -> tab_sane (set_nth h x tab).
  Proof. intros H Hx. revert h. induction H as [|y tab Hy H IH]; intros [|h]; cbn; constructor; auto. apply IH. Qed.

  Lemma owed_set t d d0 ds : nth_error ds t = Some d0 -> owed (set_nth t d ds) = owed ds - owes d0 + owes d.
  Proof.
    unfold owed. revert t. induction ds as [|x ds IH]; intros [|t] H; cbn in *; try discriminate.
    - injection H as ->. lia.
    - rewrite (IH t H). lia.
  Qed.
  Lemma full_set t d ds : d_full d = false -> existsb d_full ds = false -> existsb d_full (set_nth t d ds) = false.
  Proof.
    intros Hd. revert t. induction ds as [|x ds IH]; intros [|t] H; cbn in *; auto; apply orb_false_iff in H; destruct H as [H1 H2].
    - rewrite Hd, H2. reflexivity.
    - rewrite H1, (IH t H2). reflexivity.
  Qed.
  Lemma sane_set t d ds : d_sane d -> Forall d_sane ds -> Forall d_sane (set_nth t d ds).
  Proof. intros Hd. revert t. induction ds as [|x ds IH]; intros [|t] H; cbn; auto; inversion H; subst; constructor; auto. Qed.
  Lemma most_pos d : d_sane d -> 0 <= owes d.
  Proof.
    destruct d as [|o| | |]; cbn; try lia. destruct o as [l z|h off cs|h l|h old new|h old new|keep]; cbn; try lia;
      [intros H|intros [H _]]; destruct (req_ok_facts _ _ H) as (k & _ & _ & Hp & Hs & _); lia.
  Qed.
  Lemma owed_pos ds : Forall d_sane ds -> 0 <= owed ds.
  Proof. unfold owed. induction 1 as [|d ds H _ IH]; cbn; [lia|]. pose proof (most_pos d H). lia. Qed.
  Lemma owed_at ds t d : Forall d_sane ds -> nth_error ds t = Some d -> owes d <= owed ds.
  Proof.
    intros H. revert t. induction H as [|x ds Hx H IH]; intros [|t] E; cbn in *; try discriminate.
    - injection E as ->. pose proof (owed_pos ds H). unfold owed in *. lia.
    - specialize (IH t E). pose proof (most_pos x Hx). unfold owed in *. lia.
  Qed.

  (** Everything asked for fits, and [n] bytes more. *)
  Definition ample (n : Z) (q : cpaper) : Prop :=
    tab_sane (cp_tab q) /\ Forall d_sane (cp_thr q) /\ existsb d_full (cp_thr q) = false /\
    match cp_chunks q with k :: _ => p_free k + owed (cp_thr q) + n <= p_end k /\ p_end k <= USIZE_MAX | [] => False end.

  Lemma ample_set n ks tab tr ds t d0 d : tab_sane tab -> nth_error ds t = Some d0 -> Forall d_sane ds -> existsb d_full ds = false ->
    d_sane d -> d_full d = false ->
    match ks with k :: _ => p_free k + (owed ds - owes d0 + owes d) + n <= p_end k /\ p_end k <= USIZE_MAX | [] => False end ->
    ample n (mkCP ks tab tr (set_nth t d ds)).
  Proof.
    intros H0 E H1 H2 H3 H4 H5. split; [exact H0|]. split; [apply sane_set; assumption|]. split; [apply full_set; assumption|]. cbn [cp_thr cp_chunks].
    rewrite (owed_set _ _ _ _ E). exact H5.
  Qed.

  Lemma step_called m q es q1 : stp m q = Some (es, q1) -> 0 <= most_called es.
  Proof.
    assert (H0 : forall t o a r q, most_called (fst (done_with t o a r q)) = 0) by (intros; reflexivity).
    assert (H1 : forall t o a b q, most_called (fst (granted t o a b q)) = 0) by (intros t o a b q'; destruct o; reflexivity).
    intros E. destruct m as [t o|t|t|t|t|t|t|t|keep]; cbn [cp_step] in E; unfold bumped in E;
      repeat match type of E with context [match ?x with _ => _ end] => destruct x eqn:?; try discriminate E end;
      pose proof (f_equal (fun x => match x with Some y => most_called (fst y) | None => 0 end) E) as F; cbn [fst] in F; rewrite <- F;
      cbn [most_called]; rewrite ?H0, ?H1; cbn [most]; try lia.
    all: repeat match goal with H : _ && _ = true |- _ => apply andb_true_iff in H; destruct H end;
      match goal with H : req_okb smax _ = true |- _ => destruct (req_ok_facts _ _ H) as (kk & _ & _ & Hp & Hsz & _); lia end.
  Qed.
  Lemma run_called ms : forall q es q1, rn ms q = Some (es, q1) -> 0 <= most_called es.
  Proof.
    induction ms as [|m ms IH]; intros q es q1 E; cbn [cp_run] in E.
    - injection E as <- <-. cbn. lia.
    - destruct (stp m q) as [[es1 q2]|] eqn:E1; [|discriminate E]. destruct (rn ms q2) as [[es2 q3]|] eqn:E2; [|discriminate E].
      injection E as <- <-. rewrite most_called_app. pose proof (step_called _ _ _ _ E1). pose proof (IH _ _ _ E2). lia.
  Qed.

  Lemma step_ample m q es q1 n : 0 <= n -> stp m q = Some (es, q1) -> forallb no_reset es = true -> ample (most_called es + n) q ->
    ample n q1 /\ cp_calls q1 = cp_calls q /\ existsb refused es = false.
  Proof.
    destruct q as [ks tab tr ds]. intros Hn0 E Hr (Ht & Hs & Hf & Hc). cbn [cp_chunks cp_thr cp_tab] in *.
    destruct ks as [|k older]; [contradiction|].
    assert (Hsame : forall t d0 d, nth_error ds t = Some d0 -> d_sane d -> d_full d = false -> owes d <= owes d0 + most_called es ->
              forall tab, tab_sane tab -> ample n (mkCP (k :: older) tab tr (set_nth t d ds))).
    { intros t d0 d Et Hd Hfd Ho tab' Ht'. apply (ample_set n _ _ _ ds t d0); auto. lia. }
    assert (Hsane : forall t d, nth_error ds t = Some d -> d_sane d).
    { intros t d Et. rewrite Forall_forall in Hs. apply (Hs _ (nth_error_In _ _ Et)). }
    assert (Hdone : forall t o d0 a r, nth_error ds t = Some d0 -> match r with None => wants o = None | Some _ => True end -> op_sane o ->
              es = [Lin t o r] ->
              ample n (snd (done_with t o a r (mkCP (k :: older) tab tr ds))) /\
              cp_calls (snd (done_with t o a r (mkCP (k :: older) tab tr ds))) = tr /\ existsb refused es = false).
    { intros t o d0 a r Et Hr' Hso ->. pose proof (most_pos d0 (Hsane _ _ Et)) as Hpos.
      assert (X : exists hh tt, snd (done_with t o a r (mkCP (k :: older) tab tr ds)) = mkCP (k :: older) tt tr (set_nth t (DDone hh a) ds) /\ tab_sane tt).
      { assert (Hn : forall x, 0 <= l_size x -> tab_sane (tab ++ [Some (mkU (match r with Some b => b_ptr b | None => 0 end) (match r with Some b => b_len b | None => 0 end) x)])).
        { intros x Hx. apply Forall_app. split; [exact Ht|]. constructor; [exact Hx|constructor]. }
        unfold done_with. destruct o as [l z|h off cl|h l|h old new|h old new|keep], r as [b|]; cbn [cp_chunks cp_tab cp_calls cp_thr set_thr fst snd];
          eexists; eexists; (split; [reflexivity|]); auto; try (apply tab_set; [exact Ht|]; exact I).
        - apply Hn. destruct (req_ok_facts _ _ Hso) as (kk & _ & _ & Hp & Hsz & _). lia.
        - apply tab_set; [exact Ht|]. cbn. destruct (req_ok_facts _ _ (proj1 Hso)) as (kk & _ & _ & Hp & Hsz & _). lia. }
      destruct X as (hh & tt & -> & Htt). split; [|split; [reflexivity|]].
      - apply (Hsame t d0); auto; [exact I|]. cbn [owes most_called]. lia.
      - destruct r; [destruct o; reflexivity|]. destruct o; try discriminate Hr'; reflexivity. }
    destruct m as [t o|t|t|t|t|t|t|t|keep]; cbn [cp_step cp_thr cp_chunks cp_tab cp_calls] in E.
    - destruct (nth_error ds t) as [[|o1|o1|o1 b1 a1|h1 a1]|] eqn:Et; try discriminate E.
      destruct o as [l z|h off cl|h l|h old new|h old new|keep]; try discriminate E.
      + destruct z; [discriminate E|]. destruct (req_okb smax l) eqn:El; [|discriminate E]. injection E as <- <-.
        split; [|split; reflexivity]. apply (Hsame t DNone); auto. cbn. lia.
      + destruct (get h tab) as [u|]; [|discriminate E]. destruct (_ && _); [|discriminate E]. injection E as <- <-.
        split; [|split; reflexivity]. split; [exact Ht|]. split; [exact Hs|]. split; [exact Hf|]. cbn [cp_chunks cp_thr]. cbn [most_called most] in Hc. lia.
      + destruct (get h tab) as [u|]; [|discriminate E]. destruct (_ && _); [|discriminate E]. injection E as <- <-.
        split; [|split; reflexivity]. apply (Hsame t DNone); auto; [exact I|]. cbn. lia.
      + destruct (get h tab) as [u|] eqn:Eu; [|discriminate E].
        destruct (negb _ && fitsb old u && req_okb smax new) eqn:El; [|discriminate E]. injection E as <- <-.
        apply andb_true_iff in El. destruct El as [El0 El]. apply andb_true_iff in El0. destruct El0 as [_ El0]. unfold fitsb in El0.
        pose proof (tab_at _ _ _ Ht Eu) as Hu0.
        split; [|split; reflexivity]. apply (Hsame t DNone); auto; [|cbn; lia]. split; [exact El|lia].
      + destruct keep; [|discriminate E]. destruct (forallb d_away ds); [|discriminate E]. injection E as <- <-. discriminate Hr.
    - destruct (nth_error ds t) as [[|o|o1|o1 b1 a1|h1 a1]|] eqn:Et; try discriminate E.
      destruct (_ || _); [discriminate E|]. destruct (wants o) as [l|] eqn:Ew; [|discriminate E].
      destruct (room_in (k :: older) l) as [[a ks]|] eqn:Er; [|discriminate E]. unfold bumped in E. injection E as <- <-.
      unfold room_in in Er. destruct (_ && _) eqn:Eb in Er; [|discriminate Er]. injection Er as <- <-.
      assert (Hl : req_ok smax l /\ most o = l_size l + (l_align l - 1)).
      { pose proof (Hsane _ _ Et) as X. destruct o; try discriminate Ew; injection Ew as ->; cbn in X; tauto. }
      destruct Hl as [Hl Hm]. destruct (req_ok_facts _ _ Hl) as (kk & _ & _ & Hp & Hsz & _).
      pose proof (round_up_spec (p_free k) (l_align l) Hp) as [B _]. rewrite <- least_multiple_eq in B.
      set (a := least_multiple (p_free k) (l_align l)) in *.
      assert (Hgo : forall d tab, tab_sane tab -> d_sane d -> d_full d = false -> owes d = 0 ->
                ample n (mkCP (mkP (p_at k) (p_len k) (a + l_size l) :: older) tab tr (set_nth t d ds))).
      { intros d tab' H0 H1 H2 H3. apply (ample_set n _ _ _ ds t (DAsked o)); auto. change (owes (DAsked o)) with (most o). cbn [p_free]. unfold p_end in *. cbn [p_at p_len] in *.
        rewrite H3, Hm. destruct o; try discriminate Ew; cbn [granted done_with fst most_called] in Hc; lia. }
      pose proof (Hsane _ _ Et) as Hso.
      destruct o; try discriminate Ew; cbn [granted done_with fst snd set_thr set_chunks cp_chunks cp_tab cp_calls cp_thr]; (split; [|split; [reflexivity|reflexivity]]); apply Hgo; auto; try exact I.
      injection Ew as ->. apply Forall_app. split; [exact Ht|]. constructor; [cbn; lia|constructor].
    - destruct (nth_error ds t) as [[|o|o1|o1 b1 a1|h1 a1]|] eqn:Et; try discriminate E.
      destruct o as [l z|h off cl|h l|h old new|h old new|keep]; try discriminate E.
      destruct (existsb alone ds); [discriminate E|]. destruct (get h tab) as [u|]; [|discriminate E].
      destruct ((l_align new <=? l_align old) && (l_size old <? l_size new)) eqn:Ea; [|discriminate E].
      destruct (room_at (k :: older) (u_ptr u) old new) as [ks|] eqn:Er; [|discriminate E]. unfold bumped in E. injection E as <- <-.
      unfold room_at in Er. destruct (_ && _) eqn:Eb in Er; [|discriminate Er]. injection Er as <-.
      destruct (Hsane _ _ Et) as [Hso Ho]. destruct (req_ok_facts _ _ Hso) as (kk & _ & _ & Hp & Hsz & _).
      cbn [done_with fst snd most_called set_chunks cp_chunks cp_tab cp_calls cp_thr] in *. split; [|split; reflexivity].
      apply (ample_set n _ _ _ ds t (DAsked (OpResize h old new))); auto; [apply tab_set; [exact Ht|cbn; lia]|exact I|]. cbn [owes most p_free]. unfold p_end in *. cbn [p_at p_len] in *. lia.
    - destruct (nth_error ds t) as [[|o|o1|o1 b1 a1|h1 a1]|] eqn:Et; try discriminate E.
      destruct (existsb alone ds); [discriminate E|].
      destruct o as [l z|h off cl|h l|h old new|h old new|keep]; try discriminate E.
      + injection E as <- <-. apply (Hdone t (OpDealloc h l) _ false None Et); [reflexivity|exact I|reflexivity].
      + destruct (get h tab) as [u|]; [|discriminate E]. destruct (shrinks _); [|discriminate E]. injection E as <- <-.
        apply (Hdone t (OpResize h old new) _ false (Some (mkBlock (u_ptr u) (l_size old))) Et); [exact I|exact (Hsane _ _ Et)|reflexivity].
    - destruct (nth_error ds t) as [[|o|o1|o1 b1 a1|h1 a1]|] eqn:Et; try discriminate E.
      destruct (_ || _); [discriminate E|]. destruct (wants o) as [l|] eqn:Ew; [|discriminate E].
      destruct (room_in (k :: older) l) as [[a ks]|] eqn:Er; [discriminate E|]. injection E as <- <-. exfalso.
      assert (Hl : req_ok smax l /\ most o = l_size l + (l_align l - 1)).
      { pose proof (Hsane _ _ Et) as X. destruct o; try discriminate Ew; injection Ew as ->; cbn in X; tauto. }
      destruct Hl as [Hl Hm]. destruct (req_ok_facts _ _ Hl) as (kk & _ & _ & Hp & Hsz & _).
      pose proof (round_up_spec (p_free k) (l_align l) Hp) as [B _]. rewrite <- least_multiple_eq in B.
      pose proof (owed_at ds t _ Hs Et) as Ho. cbn [owes most_called] in Ho, Hc.
      unfold room_in in Er. destruct (_ && _) eqn:Eb in Er; [discriminate Er|].
      pose proof (owed_pos ds Hs). apply andb_false_iff in Eb. destruct Eb as [Eb|Eb]; unfold p_end in *; lia.
    - destruct (nth_error ds t) as [[|o|o1|o1 b1 a1|h1 a1]|] eqn:Et; try discriminate E. exfalso.
      assert (X : existsb d_full ds = true) by (apply existsb_exists; exists (DFull o1); split; [apply (nth_error_In _ _ Et)|reflexivity]).
      congruence.
    - destruct (nth_error ds t) as [[|o|o1|o1 b1 a1|h1 a1]|] eqn:Et; try discriminate E. injection E as <- <-.
      apply (Hdone t o1 _ a1 (Some b1) Et); [exact I|exact (Hsane _ _ Et)|reflexivity].
    - destruct (nth_error ds t) as [[|o|o1|o1 b1 a1|h1 a1]|] eqn:Et; try discriminate E. injection E as <- <-.
      split; [|split; reflexivity]. apply (Hsame t (DDone h1 a1)); auto; [exact I|]. cbn. lia.
    - destruct (forallb d_idle ds); [|discriminate E]. injection E as <- <-. discriminate Hr.
  Qed.
  Lemma run_ample ms : forall q es q1 n, 0 <= n -> rn ms q = Some (es, q1) -> forallb no_reset es = true -> ample (most_called es + n) q ->
    ample n q1 /\ cp_calls q1 = cp_calls q /\ existsb refused es = false.
  Proof.
    induction ms as [|m ms IH]; intros q es q1 n Hn E Hr H; cbn [cp_run] in E.
    - injection E as <- <-. auto.
    - destruct (stp m q) as [[es1 q2]|] eqn:E1; [|discriminate E]. destruct (rn ms q2) as [[es2 q3]|] eqn:E2; [|discriminate E].
      injection E as <- <-. rewrite forallb_app in Hr. apply andb_true_iff in Hr. destruct Hr as [Hr1 Hr2].
      rewrite most_called_app, <- Z.add_assoc in H.
      pose proof (run_called _ _ _ _ E2) as Hn2.
      destruct (step_ample m q es1 q2 (most_called es2 + n) ltac:(lia) E1 Hr1 H) as (A1 & A2 & A3). destruct (IH q2 es2 q3 n Hn E2 Hr2 A1) as (B1 & B2 & B3).
      split; [exact B1|]. split; [congruence|]. rewrite existsb_app, A3, B3. reflexivity.
  Qed.
End Paper.

(** From a state where no call is under way and the newest chunk has room for
    everything the threads will ask for. *)
Lemma warm su n sched1 es1 g1 sched2 es2 g2 r c e : setup_ok su ->
  crun su sched1 (cstart su n) = ORet es1 g1 -> Forall (fun p => p = Idle) (g_thr g1) ->
  ar_root (fst (g_aw g1)) = Some r ->
  load (bw_mem (snd (g_aw g1))) (r + CURSOR) 8 = Some c -> load (bw_mem (snd (g_aw g1))) (r + END) 8 = Some e ->
  crun su sched2 g1 = ORet es2 g2 -> forallb no_reset es2 = true -> c + most_called es2 <= e ->
  bw_trace (snd (g_aw g2)) = bw_trace (snd (g_aw g1)) /\ existsb refused es2 = false.
Proof.
  intros Hok E1 Hid Hr Hc He E2 Hn Hroom.
  pose proof (creached_inv su Hok n sched1 es1 g1 E1) as Hi.
  destruct (threads_exact su Hok n sched1 es1 g1 E1) as (ms1 & q1 & _ & _ & Hs1).
  assert (Hp : paced (cp_chunks q1) (g_thr g1)).
  { unfold paced. rewrite Forall_forall in Hid |- *. intros p Hin. rewrite (Hid p Hin). exact I. }
  destruct (run_exact su Hok sched2 g1 _ q1 es2 g2 Hi Hs1 Hp E2) as (ms2 & q2 & Em & _ & Hs2).
  destruct Hs1 as (S1 & S2 & S3 & S4). destruct Hs2 as (_ & _ & T3 & _).
  assert (Ha : ample (su_smax su) (most_called es2 + 0) q1).
  { destruct Hi as (cs & R & _). split; [|split; [|split]].
    - pose proof (ar_ok _ _ _ _ _ _ _ _ R) as Hu. rewrite S2 in Hu. apply Forall_app in Hu. destruct Hu as [Hu _].
      unfold tab_sane. rewrite Forall_forall in Hu |- *. intros [u|] Hin; [|exact I].
      assert (X : In u (live (cp_tab q1))) by (apply live_in; apply In_nth_error in Hin; destruct Hin as [h Hin]; exists h; unfold get; rewrite Hin; reflexivity).
      destruct (Hu u X) as (_ & _ & Y). exact Y.
    - rewrite <- S4. rewrite Forall_forall in Hid |- *. intros d Hin. apply in_map_iff in Hin. destruct Hin as (p & <- & Hin).
      rewrite (Hid p Hin). exact I.
    - rewrite <- S4. destruct (existsb d_full _) eqn:X; [|reflexivity]. apply existsb_exists in X. destruct X as (d & Hin & X).
      apply in_map_iff in Hin. destruct Hin as (p & <- & Hin). rewrite Forall_forall in Hid. rewrite (Hid p Hin) in X. discriminate X.
    - assert (Ho : owed (cp_thr q1) = 0).
      { rewrite <- S4. clear - Hid. unfold owed. induction Hid as [|p thr -> _ IH]; cbn; [reflexivity|exact IH]. }
      rewrite Ho, Hr in *. destruct (cp_chunks q1) as [|k ks]; [contradiction|]. cbn [headed] in S1. destruct S1 as (K1 & (K2 & K3) & _).
      pose proof (ar_head _ _ _ _ _ _ _ _ R) as Hh. rewrite Hr in Hh.
      assert (X : exists e0, root_is cs r e0).
      { destruct cs as [|c0 cs0]; [discriminate Hh|]. cbn in Hh. injection Hh as Hh. exists (c_end c0). split; [exact (eq_sym Hh)|reflexivity]. }
      destruct (header_of su Hok cs _ _ _ r R X) as (c0 & cs0 & _ & _ & L1 & L2 & _ & _ & L3).
      unfold CURSOR in Hc. rewrite Z.add_0_r in Hc. assert (p_free k = c) by congruence.
      assert (p_end k = e) by (unfold END in *; congruence).
      destruct Hok as (_ & [_ Ham] & _).
      assert (e = c_end c0) by congruence. lia. }
  destruct (run_ample (su_min su) (su_smax su) (su_strat su) ms2 q1 es2 q2 0 ltac:(lia) Em Hn Ha) as (_ & B2 & B3).
  split; [congruence|exact B3].
Qed.

(** ** Two threads *)

(** Both threads find no chunk, and each gets one; a resize moves the last block
    of the newest chunk because the thread loads an old value of the cursor; the
    other thread grows the same block in place; a reset. *)
Definition case_sched : list choice :=
  [Start 0%nat (OpAlloc (mkLayout 40 8) false); Start 1%nat (OpAlloc (mkLayout 24 16) false);
   Go 0%nat false; Go 1%nat false; Go 0%nat false; Go 1%nat false;
   Go 0%nat false; Go 0%nat false; Go 0%nat false;
   Go 1%nat false; Go 1%nat false; Go 1%nat false;
   Start 0%nat (OpResize 1%nat (mkLayout 24 16) (mkLayout 30 8));
   Go 0%nat false; Stale 0%nat 2097184; Go 0%nat false; Go 0%nat true; Go 0%nat false] ++ repeat (Go 0%nat false) 26 ++
  [Start 0%nat (OpAlloc (mkLayout 1 1) false); Start 1%nat (OpResize 1%nat (mkLayout 30 8) (mkLayout 100 8));
   Go 1%nat false; Go 1%nat false; Go 0%nat false; Go 0%nat false;
   Go 1%nat false; Go 1%nat false; Go 0%nat false; Go 0%nat false; Go 0%nat false; Go 0%nat false;
   Start 0%nat (OpDealloc 0%nat (mkLayout 40 8)); Go 0%nat false; Go 0%nat false; Go 0%nat false; Go 0%nat false; Exclusive true].

Definition case_moves : list cmove :=
  [MCall 0 (OpAlloc (mkLayout 40 8) false); MCall 1 (OpAlloc (mkLayout 24 16) false);
   MFull 0; MFull 1; MFresh 0; MReturn 0; MFresh 1; MReturn 1;
   MCall 0 (OpResize 1 (mkLayout 24 16) (mkLayout 30 8)); MTake 0; MCopied 0; MReturn 0;
   MCall 0 (OpAlloc (mkLayout 1 1) false); MCall 1 (OpResize 1 (mkLayout 30 8) (mkLayout 100 8));
   MGrow 1; MReturn 1; MTake 0; MReturn 0;
   MCall 0 (OpDealloc 0 (mkLayout 40 8)); MStay 0; MReturn 0; MReset true]%nat.

(** After it, with 480 bytes left in the chunk kept: both threads allocate, and one resizes. *)
Definition more_sched : list choice :=
  [Start 0%nat (OpAlloc (mkLayout 200 8) false); Start 1%nat (OpAlloc (mkLayout 90 16) false)] ++
  flat_map (fun _ => [Go 0%nat true; Go 1%nat false]) (repeat tt 3) ++
  flat_map (fun _ => [Go 1%nat false; Go 0%nat false]) (repeat tt 8) ++
  [Start 1%nat (OpResize 4%nat (mkLayout 200 8) (mkLayout 100 32))] ++ repeat (Go 1%nat false) 110.

Definition more_moves : list cmove :=
  [MCall 0 (OpAlloc (mkLayout 200 8) false); MCall 1 (OpAlloc (mkLayout 90 16) false);
   MTake 1; MReturn 1; MTake 0; MReturn 0;
   MCall 1 (OpResize 4 (mkLayout 200 8) (mkLayout 100 32)); MTake 1; MCopied 1; MReturn 1]%nat.

Lemma case_computed :
  match crun (demo megabytes) (case_sched ++ more_sched) (cstart (demo megabytes) 2),
        cp_run (su_min (demo megabytes)) (su_smax (demo megabytes)) (su_strat (demo megabytes)) (case_moves ++ more_moves) (cp0 2) with
  | ORet es g, Some (es', q) =>
      (es', cp_tab q, cp_calls q, cp_chunks q, length es) =
      (es, g_tab g, bw_trace (snd (g_aw g)), [mkP 2097152 512 2097604], 34%nat)
  | _, _ => False
  end.
Proof. vm_compute. reflexivity. Qed.
Lemma case_runs : exists es g q,
  crun (demo megabytes) (case_sched ++ more_sched) (cstart (demo megabytes) 2) = ORet es g /\
  cp_run (su_min (demo megabytes)) (su_smax (demo megabytes)) (su_strat (demo megabytes)) (case_moves ++ more_moves) (cp0 2) = Some (es, q) /\
  cp_tab q = g_tab g /\ cp_calls q = bw_trace (snd (g_aw g)) /\
  cp_chunks q = [mkP 2097152 512 2097604] /\ length es = 34%nat.
Proof.
  pose proof case_computed as H.
  destruct (crun (demo megabytes) (case_sched ++ more_sched) (cstart (demo megabytes) 2)) as [es g| | |]; [|destruct H|destruct H|destruct H].
  destruct (cp_run (su_min (demo megabytes)) (su_smax (demo megabytes)) (su_strat (demo megabytes)) (case_moves ++ more_moves) (cp0 2)) as [[es' q]|];
    [|destruct H].
  apply pair_equal_spec in H. destruct H as [H H5].
  apply pair_equal_spec in H. destruct H as [H H4]. apply pair_equal_spec in H. destruct H as [H H3]. apply pair_equal_spec in H. destruct H as [H1 H2].
  exists es, g, q. split; [reflexivity|]. split; [rewrite H1; reflexivity|]. split; [exact H2|]. split; [exact H3|]. split; [exact H4|exact H5].
Qed.

Lemma warm_computed :
  match crun (demo megabytes) case_sched (cstart (demo megabytes) 2) with
  | ORet es1 g1 =>
      match crun (demo megabytes) more_sched g1 with
      | ORet es2 g2 =>
          (g_thr g1, ar_root (fst (g_aw g1)), load (bw_mem (snd (g_aw g1))) (2097152 + CURSOR) 8,
           load (bw_mem (snd (g_aw g1))) (2097152 + END) 8, forallb no_reset es2, most_called es2) =
          ([Idle; Idle], Some 2097152, Some 2097184, Some 2097664, true, 443)
      | _ => False
      end
  | _ => False
  end.
Proof. vm_compute. reflexivity. Qed.
Lemma case_warm : exists es1 g1 es2 g2,
  crun (demo megabytes) case_sched (cstart (demo megabytes) 2) = ORet es1 g1 /\ Forall (fun p => p = Idle) (g_thr g1) /\
  ar_root (fst (g_aw g1)) = Some 2097152 /\
  load (bw_mem (snd (g_aw g1))) (2097152 + CURSOR) 8 = Some 2097184 /\ load (bw_mem (snd (g_aw g1))) (2097152 + END) 8 = Some 2097664 /\
  crun (demo megabytes) more_sched g1 = ORet es2 g2 /\ forallb no_reset es2 = true /\ most_called es2 = 443.
Proof.
  pose proof warm_computed as H.
  destruct (crun (demo megabytes) case_sched (cstart (demo megabytes) 2)) as [es1 g1| | |]; [|destruct H|destruct H|destruct H].
  destruct (crun (demo megabytes) more_sched g1) as [es2 g2| | |] eqn:E; [|destruct H|destruct H|destruct H].
  exists es1, g1, es2, g2. apply pair_equal_spec in H. destruct H as [H H6]. apply pair_equal_spec in H. destruct H as [H H5].
  apply pair_equal_spec in H. destruct H as [H H4]. apply pair_equal_spec in H. destruct H as [H H3]. apply pair_equal_spec in H. destruct H as [H1 H2].
  split; [reflexivity|]. split; [rewrite H1; constructor; [|constructor; [|constructor]]; reflexivity|].
  split; [exact H2|]. split; [exact H3|]. split; [exact H4|]. split; [exact E|]. split; [exact H5|exact H6].
Qed.
