(** Consequences of C87 and a worked case. *)
From Verif Require Import Base BaseFacts Alloc AllocFacts Arena ArenaFacts BlinkAlloc History HistoryFacts Tower Setup Concrete AllocProps
  Paper PaperFacts StrayUse ProxyPaper ProxyPaperUse ProxyPaperFacts ProxyPaperDemo Layered LayeredFacts.

Section Consequences.
  Variable S : strategy.

  (** The calls at the bottom. *)
  Fixpoint tcalls (ls : list level) : TP ls -> list uevent :=
    match ls with [] => fun tr => tr | _ :: ls' => fun x => tcalls ls' (snd x) end.

  Definition one_more (tr tr' : list uevent) : Prop := tr' = tr \/ exists l b, tr' = EvAlloc l b :: tr.

  Lemma charged_one ls : (forall lay x, one_more (tcalls ls x) (tcalls ls (snd (tsell S ls lay x)))) ->
    forall x tr, (tr = [] \/ exists lay b, tr = [EvAlloc lay b]) ->
    one_more (tcalls ls x) (tcalls ls (charged (tsell S ls) (tgive ls) x tr)).
  Proof. intros H x tr [->|(lay & b & ->)]; [left; reflexivity|]. apply H. Qed.

  Lemma tsell_one ls : forall lay x, one_more (tcalls ls x) (tcalls ls (snd (tsell S ls lay x))).
  Proof.
    induction ls as [|l ls IH]; intros lay x.
    - right. eexists. eexists. reflexivity.
    - destruct x as [ks x]. cbn [tsell fst snd].
      pose proof (take_calls (lv_min l) (supplier (tsell S ls) x) ks lay) as H.
      destruct (take _ _ _ _ _) as [[a ks'] tr]. cbn [snd tcalls]. apply charged_one; assumption.
  Qed.

  Lemma returned_same l ls ks : forall x : TP (l :: ls), returned (tgive (l :: ls)) ks x = x.
  Proof. induction ks as [|k ks IH]; intros x; [reflexivity|]. cbn [returned]. apply IH. Qed.

  (** [true]: the operation is a reset. *)
  Definition is_reset (o : op) : bool := match o with OpReset _ => true | _ => false end.

  Lemma step_calls min smax T ks tab o : is_reset o = false ->
    let tr := p_calls (snd (paper_step min smax T o (mkPaper ks tab []))) in tr = [] \/ exists lay b, tr = [EvAlloc lay b].
  Proof.
    intros Ho. destruct o as [lay z|h off bs|h lay|h old new|h old new|keep]; try discriminate; cbn [paper_step p_chunks p_tab p_calls].
    - destruct (req_okb _ _); [|left; reflexivity]. pose proof (take_calls min T ks lay) as H.
      destruct (take _ _ _ _ _) as [[[a|] ks'] tr]; exact H.
    - left; reflexivity.
    - destruct (get h _) as [u|]; [|left; reflexivity]. destruct (fitsb _ _); left; reflexivity.
    - destruct (get h _) as [u|]; [|left; reflexivity]. destruct (_ && _); [|left; reflexivity].
      pose proof (moves_calls min T ks (u_ptr u) old new) as H. destruct (moves _ _ _ _ _ _ _) as [[[a|] ks'] tr]; exact H.
    - destruct (get h _) as [u|]; [|left; reflexivity]. destruct (_ && _); [|left; reflexivity].
      pose proof (take_calls min T ks new) as H. destruct (take _ _ _ _ _) as [[[a|] ks'] tr]; exact H.
  Qed.

  Lemma tstep_calls l ls o (q : TP (l :: ls) * list (option ublock)) : is_reset o = false ->
    one_more (tcalls (l :: ls) (fst q)) (tcalls (l :: ls) (fst (snd (tstep S l ls o q)))).
  Proof.
    intros Ho. destruct q as [[ks x] tab]. unfold tstep. cbn [fst snd].
    pose proof (step_calls (lv_min l) (lv_smax l) (supplier (tsell S ls) x) ks tab o Ho) as H. cbv zeta in H.
    destruct (paper_step _ _ _ _ _) as [r p]. cbn [fst snd] in *. cbn [tcalls snd]. apply charged_one; [apply tsell_one|exact H].
  Qed.

  Lemma tstep_reset l l' ls keep (q : TP (l :: l' :: ls) * list (option ublock)) :
    snd (fst (snd (tstep S l (l' :: ls) (OpReset keep) q))) = snd (fst q).
  Proof.
    destruct q as [[ks x] tab]. unfold tstep. cbn [fst snd]. destruct keep; cbn [paper_step p_chunks].
    - destruct ks as [|k older]; cbn [fst snd p_chunks p_calls p_tab]; [reflexivity|]. rewrite charged_back. apply returned_same.
    - cbn [fst snd p_chunks p_calls p_tab]. rewrite charged_back. apply returned_same.
  Qed.

  Lemma trun_snoc l ls os o q : trun S l ls (os ++ [o]) q =
    (fst (trun S l ls os q) ++ [fst (tstep S l ls o (snd (trun S l ls os q)))], snd (tstep S l ls o (snd (trun S l ls os q)))).
  Proof.
    revert q. induction os as [|o1 os IH]; intros q; cbn [app trun].
    - cbn [fst snd app]. destruct (tstep S l ls o q) as [r q1]. reflexivity.
    - destruct (tstep S l ls o1 q) as [r q1]. rewrite IH. destruct (trun S l ls os q1) as [rs q2]. reflexivity.
  Qed.

  Lemma shows_calls ls m : forall w x, tower_shows ls m w x -> bw_trace (bottom ls w) = tcalls ls x.
  Proof. induction ls as [|l ls IH]; intros w x H; [apply H|]. destruct H as [_ H]. apply (IH _ _ H). Qed.

  Variables (dbg : bool) (bmax amax : Z).
  Hypothesis Hamax : 0 <= amax <= USIZE_MAX.
  Hypothesis Hbot : amax <= bmax.
  Hypothesis Hhon : honest amax S.
  Variables (l : level) (ls : list level).
  Hypothesis Hok : tower_ok dbg bmax amax (l :: ls).
  Notation trn os := (run (lv_smax l) (tower dbg bmax S (l :: ls)) (tower_reset dbg bmax S (l :: ls)) os (mkCst [] (tower_start (l :: ls)))).

  (** One operation means one request at the bottom at most, however many levels there are; only
      a reset of a BlinkAlloc that lies directly on the underlying allocator gives memory back. *)
  Theorem tower_one_call os o : is_reset o = false \/ ls <> [] -> exists rs st r st',
    trn os = ORet rs st /\ trn (os ++ [o]) = ORet (rs ++ [r]) st' /\
    (bw_trace (bottom (l :: ls) (c_w st')) = bw_trace (bottom (l :: ls) (c_w st)) \/
     is_reset o = false /\ exists lay b, bw_trace (bottom (l :: ls) (c_w st')) = EvAlloc lay b :: bw_trace (bottom (l :: ls) (c_w st))).
  Proof.
    intros Ho. destruct (towers_on_paper dbg bmax S amax Hamax Hbot Hhon l ls Hok os) as (rs & st & q & E1 & T1 & _ & P1).
    destruct (towers_on_paper dbg bmax S amax Hamax Hbot Hhon l ls Hok (os ++ [o])) as (rs' & st' & q' & E2 & T2 & _ & P2).
    rewrite trun_snoc, T1 in T2. cbn [fst snd] in T2. injection T2 as <- <-.
    exists rs, st, (fst (tstep S l ls o q)), st'. split; [exact E1|]. split; [exact E2|].
    apply shows_calls in P1. apply shows_calls in P2. rewrite P1, P2.
    destruct (is_reset o) eqn:Er.
    - destruct Ho as [Ho|Ho]; [discriminate|]. destruct o as [| | | | |keep]; try discriminate. left.
      clear - Ho. destruct ls as [|l' ls']; [destruct (Ho eq_refl)|]. cbn [tcalls].
      exact (f_equal (fun x => tcalls (l' :: ls') x) (tstep_reset l l' ls' keep q)).
    - destruct (tstep_calls l ls o q Er) as [H|H]; [left; exact H|right; split; [reflexivity|exact H]].
  Qed.

  (** With room in the newest chunk at the top the levels below do not notice. *)
  Theorem tower_with_room os rs k older x tab lay z : trun S l ls os (tp0 (l :: ls), []) = (rs, (k :: older, x, tab)) ->
    req_okb (lv_smax l) lay = true ->
    let a := least_multiple (p_free k) (l_align lay) in
    p_free k + (l_size lay + (l_align lay - 1)) <= USIZE_MAX -> a + l_size lay <= p_end k ->
    exists st, trn (os ++ [OpAlloc lay z]) = ORet (rs ++ [Some (mkBlock a (l_size lay))]) st /\
      c_tab st = tab ++ [Some (mkU a (l_size lay) lay)] /\
      tower_shows (l :: ls) (al_mem (tower dbg bmax S (l :: ls)) (c_w st)) (c_w st) (mkP (p_at k) (p_len k) (a + l_size lay) :: older, x).
  Proof.
    intros T1 Hl a H1 H2. destruct (towers_on_paper dbg bmax S amax Hamax Hbot Hhon l ls Hok (os ++ [OpAlloc lay z])) as (rs' & st' & q' & E2 & T2 & Ht & P2).
    rewrite trun_snoc, T1 in T2. cbn [fst snd] in T2.
    assert (Et : tstep S l ls (OpAlloc lay z) (k :: older, x, tab) =
      (Some (mkBlock a (l_size lay)), (mkP (p_at k) (p_len k) (a + l_size lay) :: older, x, tab ++ [Some (mkU a (l_size lay) lay)]))).
    { unfold tstep. cbn [paper_step p_chunks p_tab p_calls]. rewrite Hl. cbn [take]. fold a.
      apply Z.leb_le in H1. apply Z.leb_le in H2. rewrite H1, H2. reflexivity. }
    rewrite Et in T2. cbn [fst snd] in T2. injection T2 as <- <-. exists st'. auto.
  Qed.
End Consequences.

(** ** A case *)
Definition pile : list op :=
  [OpAlloc (L 100 16) false; OpAlloc (L 1000 8) true; OpResize 1 (L 1000 8) (L 1200 8); OpResize 0 (L 100 16) (L 5000 64);
   OpDealloc 1 (L 1200 8); OpAlloc (L 20 4) false; OpReset true; OpAlloc (L 20 4) false].

Theorem pile_case : exists st,
  run (2 ^ 40) (tower true ISIZE_MAX (checked (2 ^ 47) megabytes) c21_levels)
    (tower_reset true ISIZE_MAX (checked (2 ^ 47) megabytes) c21_levels) pile (mkCst [] (tower_start c21_levels)) =
    ORet [Some (mkBlock 1048672 100); Some (mkBlock 2097248 1000); Some (mkBlock 2097248 1200); Some (mkBlock 3145856 5000);
          None; Some (mkBlock 3150856 20); None; Some (mkBlock 3145824 20)] st /\
  tower_shows c21_levels (al_mem (tower true ISIZE_MAX (checked (2 ^ 47) megabytes) c21_levels) (c_w st)) (c_w st)
    ([mkP 3145792 8192 3145844],
     ([mkP 3145760 16384 3153984; mkP 2097184 4096 2099264; mkP 1048608 1024 1049152],
      ([mkP 3145728 32768 3162144; mkP 2097152 8192 2101280; mkP 1048576 2048 1049632],
       [EvAlloc (L 32768 8) (Some (mkBlock 3145728 32768)); EvAlloc (L 8192 8) (Some (mkBlock 2097152 8192));
        EvAlloc (L 2048 8) (Some (mkBlock 1048576 2048))]))).
Proof.
  assert (Hok : tower_ok true ISIZE_MAX (2 ^ 47) c21_levels).
  { cbn [tower_ok c21_levels lv_min lv_smax top_smax]. unfold cfg_ok, USIZE_MAX, ISIZE_MAX. repeat split; try lia. }
  destruct (towers_on_paper true ISIZE_MAX (checked (2 ^ 47) megabytes) (2 ^ 47) ltac:(unfold USIZE_MAX; lia) ltac:(unfold ISIZE_MAX; lia)
    (checked_honest (2 ^ 47) megabytes) (mkLevel 256 (2 ^ 40)) [mkLevel 256 (2 ^ 50); mkLevel 256 (2 ^ 60)] Hok pile)
    as (rs & st & q & E1 & T1 & _ & P1).
  vm_compute in T1. injection T1 as <- <-. exists st. split; [exact E1|exact P1].
Qed.
