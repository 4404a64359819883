(** Consequences of C88 and a worked case. *)
From Verif Require Import Base BaseFacts Alloc AllocFacts Arena ArenaFacts BlinkAlloc History HistoryFacts Setup SetupFacts Concrete BlinkDemo
  Global GlobalFacts GlobalProps Paper PaperFacts ProxyPaper GlobalPaper GlobalPaperFacts.

(** The two kinds of underlying allocators of Global.v (C46): [true] - [grow] and [shrink] accept any sizes. *)
Definition may_of (len : bool) : Z -> Z -> bool := if len then fun _ _ => true else Z.eqb.
Definition run_of (len : bool) (su : setup) (sync : bool) (os : list gop) := if len then lenient_run su sync os else strict_run su sync os.

Lemma either_exact len su sync os : setup_ok su -> exists rs c q, run_of len su sync os (gstart su) = ORet rs c /\
  gp_run (su_min su) (su_strat su) (su_dbg su) (su_smax su) (may_of len) os gp0 = (rs, q) /\ gshows c q.
Proof. intros H. destruct len; [apply (lenient_exact su H)|apply (strict_exact su H)]. Qed.

(** The two files, src/global/local.rs and src/global/sync.rs. *)
Lemma same_answers len su os : setup_ok su -> exists rs c c', run_of len su false os (gstart su) = ORet rs c /\
  run_of len su true os (gstart su) = ORet rs c' /\ gc_tab c = gc_tab c' /\ g_on (gc_st c) = g_on (gc_st c') /\
  bw_trace (snd (g_aw (gc_st c))) = bw_trace (snd (g_aw (gc_st c'))).
Proof.
  intros H. destruct (either_exact len su false os H) as (rs & c & q & E & Q & (P1 & P2 & _ & P4)).
  destruct (either_exact len su true os H) as (rs' & c' & q' & E' & Q' & (P1' & P2' & _ & P4')).
  rewrite Q in Q'. injection Q' as <- <-. exists rs, c, c'. split; [exact E|]. split; [exact E'|]. split; [congruence|]. split; congruence.
Qed.

Section Paper.
  Variable min : Z.
  Variable S : strategy.
  Variable dbg : bool.
  Variable smax : Z.
  Variable may : Z -> Z -> bool.
  Notation stp := (gp_step min S dbg smax may).
  Notation rn := (gp_run min S dbg smax may).

  Lemma gp_run_snoc os o : forall q, rn (os ++ [o]) q = (fst (rn os q) ++ [fst (stp o (snd (rn os q)))], snd (stp o (snd (rn os q)))).
  Proof.
    induction os as [|o1 os IH]; intros q; cbn [app gp_run].
    - cbn [fst snd app]. destruct (stp o q). reflexivity.
    - destruct (stp o1 q) as [r q1]. rewrite IH. destruct (rn os q1). reflexivity.
  Qed.

  (** A reset. *)
  Definition ends (o : gop) : bool := match o with GReset | GDirect => true | _ => false end.

  (** The mode stays, and there is no reset. *)
  Definition stays (o : gop) : bool := match o with GReset | GDirect | GBlink => false | _ => true end.

  Definition asks_once (tr tr' : list uevent) : Prop := tr' = tr \/ exists lay b, tr' = EvAlloc lay b :: tr.
  Lemma fresh_once ks l tr : asks_once tr (snd (fresh min S ks l tr)).
  Proof.
    unfold fresh. destruct (chunk_size min ks l); [|left; reflexivity]. right.
    destruct (Alloc.st_alloc S tr _); eexists; eexists; reflexivity.
  Qed.
  Lemma take_once ks l tr : asks_once tr (snd (take min S ks l tr)).
  Proof. unfold take. destruct ks as [|k older]; [apply fresh_once|]. destruct (_ && _); [left; reflexivity|apply fresh_once]. Qed.
  Lemma moves_once ks p old new tr : asks_once tr (snd (moves min S ks p old new tr)).
  Proof.
    unfold moves. pose proof (take_once ks new tr) as H. destruct (take min S ks new tr) as [[a ks'] tr']. cbn [snd] in *.
    destruct (_ <=? _); [|exact H]. destruct (_ <=? _); [left; reflexivity|]. destruct ks as [|k older]; [exact H|].
    destruct (_ && _); [left; reflexivity|exact H].
  Qed.

  Lemma blink_asks o q : gp_on q = true -> ends o = false -> asks_once (gp_calls q) (gp_calls (snd (stp o q))).
  Proof.
    destruct q as [on ks t tr]. cbn [gp_on]. intros -> Ho.
    destruct o as [l z|h|h n|h off cs| | |]; try discriminate; cbn [gp_step gp_on gp_chunks gp_tab gp_calls].
    - destruct (_ && _); [|left; reflexivity]. unfold gp_new. cbn [gp_on gp_chunks gp_calls]. pose proof (take_once ks l tr) as H.
      destruct (take min S ks l tr) as [[a ks'] tr']. exact H.
    - destruct (get h t) as [[bk u]|]; [|left; reflexivity]. destruct (Bool.eqb _ _); left; reflexivity.
    - destruct (get h t) as [[bk u]|]; [|left; reflexivity]. cbv zeta. destruct (_ && _); [|left; reflexivity].
      destruct (layout_okb _); [|left; reflexivity]. unfold gp_move. cbn [gp_on gp_chunks gp_calls].
      pose proof (moves_once ks (u_ptr u) (u_layout u) (mkLayout n (l_align (u_layout u))) tr) as H.
      destruct (moves _ _ _ _ _ _ _) as [[a ks'] tr']. exact H.
    - destruct (get h t) as [[bk u]|]; [|left; reflexivity]. destruct (_ && _); left; reflexivity.
    - left; reflexivity.
  Qed.

  Lemma direct_keeps o q : gp_on q = false -> ends o = false -> gp_chunks (snd (stp o q)) = gp_chunks q.
  Proof.
    destruct q as [on ks t tr]. cbn [gp_on]. intros -> Ho.
    destruct o as [l z|h|h n|h off cs| | |]; try discriminate; cbn [gp_step gp_on gp_chunks gp_tab gp_calls].
    - destruct (_ && _); reflexivity.
    - destruct (get h t) as [[bk u]|]; [|reflexivity]. destruct (Bool.eqb _ _); reflexivity.
    - destruct (get h t) as [[bk u]|]; [|reflexivity]. cbv zeta. destruct (_ && _); [|reflexivity].
      destruct (layout_okb _); reflexivity.
    - destruct (get h t) as [[bk u]|]; [|reflexivity]. destruct (_ && _); reflexivity.
    - reflexivity.
  Qed.
End Paper.

Section Consequences.
  Variable len : bool.
  Variable su : setup.
  Hypothesis Hok : setup_ok su.
  Variable sync : bool.
  Notation run os := (run_of len su sync os (gstart su)).
  Notation paper os := (gp_run (su_min su) (su_strat su) (su_dbg su) (su_smax su) (may_of len) os gp0).
  Notation calls c := (bw_trace (snd (g_aw (gc_st c)))).

  (** In blink mode an operation other than a reset makes one request at most, and gives nothing back. *)
  Lemma blink_one_call os rs c o : run os = ORet rs c -> g_on (gc_st c) = true -> ends o = false ->
    exists r c', run (os ++ [o]) = ORet (rs ++ [r]) c' /\ (calls c' = calls c \/ exists lay b, calls c' = EvAlloc lay b :: calls c).
  Proof.
    intros E Hm Ho. destruct (either_exact len su sync os Hok) as (rs1 & c1 & q1 & E1 & Q1 & (P1 & _ & _ & P4)).
    rewrite E in E1. injection E1 as <- <-.
    destruct (either_exact len su sync (os ++ [o]) Hok) as (rs2 & c2 & q2 & E2 & Q2 & (_ & _ & _ & P4')).
    rewrite gp_run_snoc, Q1 in Q2. cbn [fst snd] in Q2. injection Q2 as <- <-. eexists. exists c2. split; [exact E2|]. rewrite P4, P4'.
    apply blink_asks; [congruence|exact Ho].
  Qed.

  (** With room in the newest chunk: the next address of it, and no call. *)
  Lemma blink_with_room os rs k older t tr l z : paper os = (rs, mkGP true (k :: older) t tr) ->
    layout_okb l = true -> req_okb (su_smax su) l = true -> 1 <= l_size l ->
    let a := least_multiple (p_free k) (l_align l) in
    p_free k + (l_size l + (l_align l - 1)) <= USIZE_MAX -> a + l_size l <= p_end k ->
    exists c, run (os ++ [GAlloc l z]) = ORet (rs ++ [GPtr a]) c /\
      gshows c (mkGP true (mkP (p_at k) (p_len k) (a + l_size l) :: older) (t ++ [Some (true, mkU a (l_size l) l)]) tr).
  Proof.
    intros Q1 H1 H2 H3 a H4 H5. destruct (either_exact len su sync (os ++ [GAlloc l z]) Hok) as (rs2 & c2 & q2 & E2 & Q2 & P).
    rewrite gp_run_snoc, Q1 in Q2. cbn [fst snd] in Q2.
    assert (Es : gp_step (su_min su) (su_strat su) (su_dbg su) (su_smax su) (may_of len) (GAlloc l z) (mkGP true (k :: older) t tr) =
      (GPtr a, mkGP true (mkP (p_at k) (p_len k) (a + l_size l) :: older) (t ++ [Some (true, mkU a (l_size l) l)]) tr)).
    { cbn [gp_step]. rewrite H1, H2. replace (1 <=? l_size l) with true by lia. cbn [andb]. unfold gp_new. cbn [gp_on gp_chunks gp_calls take].
      fold a. apply Z.leb_le in H4. apply Z.leb_le in H5. rewrite H4, H5. reflexivity. }
    rewrite Es in Q2. cbn [fst snd] in Q2. injection Q2 as <- <-. exists c2. auto.
  Qed.

  (** Leaving blink mode keeps one chunk, which waits for the next blink mode. *)
  Lemma direct_waits os rs c ds : run os = ORet rs c -> g_on (gc_st c) = false -> forallb stays ds = true ->
    exists rs' c', run (os ++ ds) = ORet rs' c' /\ ar_root (fst (g_aw (gc_st c'))) = ar_root (fst (g_aw (gc_st c))) /\
      exists ks, headed (bw_mem (snd (g_aw (gc_st c)))) (ar_root (fst (g_aw (gc_st c)))) ks /\ headed (bw_mem (snd (g_aw (gc_st c')))) (ar_root (fst (g_aw (gc_st c')))) ks.
  Proof.
    intros E Hm Hd. destruct (either_exact len su sync os Hok) as (rs1 & c1 & q1 & E1 & Q1 & (P1 & _ & P3 & _)).
    rewrite E in E1. injection E1 as <- <-.
    assert (Hrun : forall ds q, gp_on q = false -> forallb stays ds = true ->
      gp_chunks (snd (gp_run (su_min su) (su_strat su) (su_dbg su) (su_smax su) (may_of len) ds q)) = gp_chunks q).
    { clear. induction ds as [|o ds IH]; intros q Hq H; [reflexivity|]. cbn [forallb] in H. apply andb_true_iff in H. destruct H as [H1 H2].
      cbn [gp_run].
      pose proof (direct_keeps (su_min su) (su_strat su) (su_dbg su) (su_smax su) (may_of len) o q Hq ltac:(destruct o; try discriminate; reflexivity)) as K.
      assert (Hon : gp_on (snd (gp_step (su_min su) (su_strat su) (su_dbg su) (su_smax su) (may_of len) o q)) = false).
      { destruct o as [l z|h|h n|h off cs| | |]; try discriminate; cbn [gp_step].
        - destruct (_ && _); [|exact Hq]. destruct (gp_new _ _ _ _) as [[r ks] tr]. exact Hq.
        - destruct (get h _) as [[bk u]|]; [|exact Hq]. destruct (Bool.eqb _ _); exact Hq.
        - destruct (get h _) as [[bk u]|]; [|exact Hq]. cbv zeta. destruct (_ && _); [|exact Hq].
          destruct (layout_okb _); [|exact Hq]. destruct (gp_move _ _ _ _ _) as [[r ks] tr]. exact Hq.
        - destruct (get h _) as [[bk u]|]; [|exact Hq]. destruct (_ && _); exact Hq. }
      destruct (gp_step _ _ _ _ _ _ _) as [r q1]. cbn [snd] in *. specialize (IH q1 Hon H2).
      destruct (gp_run _ _ _ _ _ _ _) as [rs q2]. cbn [snd] in *. congruence. }
    assert (Happ : forall a b q, gp_chunks (snd (gp_run (su_min su) (su_strat su) (su_dbg su) (su_smax su) (may_of len) (a ++ b) q)) =
      gp_chunks (snd (gp_run (su_min su) (su_strat su) (su_dbg su) (su_smax su) (may_of len) b (snd (gp_run (su_min su) (su_strat su) (su_dbg su) (su_smax su) (may_of len) a q))))).
    { clear. induction a as [|o a IH]; intros b q; [reflexivity|]. cbn [app gp_run]. destruct (gp_step _ _ _ _ _ _ _) as [r q1]. specialize (IH b q1).
      destruct (gp_run _ _ _ _ _ (a ++ b) q1) as [rs q2], (gp_run _ _ _ _ _ a q1) as [rs3 q3]. exact IH. }
    destruct (either_exact len su sync (os ++ ds) Hok) as (rs2 & c2 & q2 & E2 & Q2 & (_ & _ & P3' & _)).
    specialize (Happ os ds gp0). rewrite Q1, Q2 in Happ. cbn [snd] in Happ. rewrite (Hrun ds q1 ltac:(congruence) Hd) in Happ. rewrite Happ in P3'.
    exists rs2, c2. split; [exact E2|]. split.
    - destruct (ar_root (fst (g_aw (gc_st c)))), (ar_root (fst (g_aw (gc_st c2)))), (gp_chunks q1) as [|k older]; cbn [headed] in P3, P3'; try contradiction; try reflexivity.
      destruct P3 as [P3 _], P3' as [P3' _]. congruence.
    - exists (gp_chunks q1). auto.
  Qed.
End Consequences.

(** ** A case *)
Definition trip : list gop :=
  [GAlloc (L 100 8) false; GBlink; GAlloc (L 100 16) false; GAlloc (L 1000 8) true; GRealloc 2 1200; GDealloc 0; GDealloc 1;
   GReset; GRealloc 2 40; GDealloc 2; GDirect; GRealloc 0 300; GBlink; GAlloc (L 20 4) false].

Lemma trip_case sync : exists c, lenient_run (demo megabytes) sync trip (gstart (demo megabytes)) =
  ORet [GPtr 1048576; GDone; GPtr 2097184; GPtr 3145760; GPtr 3145760; GSkipped; GDone; GPanicked; GPtr 3145760; GDone; GDone; GNull; GDone;
        GPtr 3145760] c /\
  gshows c (mkGP true [mkP 3145728 2048 3145780] [Some (false, mkU 1048576 100 (L 100 8)); None; None; Some (true, mkU 3145760 20 (L 20 4))]
    [EvResize 1048576 (L 100 8) (L 300 8) None; EvDealloc 2097152 (L 512 8); EvAlloc (L 2048 8) (Some (mkBlock 3145728 2048));
     EvAlloc (L 512 8) (Some (mkBlock 2097152 512)); EvAlloc (L 100 8) (Some (mkBlock 1048576 100))]).
Proof.
  destruct (lenient_exact (demo megabytes) (demo_ok megabytes) sync trip) as (rs & c & q & E & Q & P).
  vm_compute in Q. injection Q as <- <-. exists c. split; [exact E|exact P].
Qed.

(** After it there is room in the chunk; and the trip without its last two steps is in direct mode. *)
Lemma trip_room : exists rs t tr, gp_run (su_min (demo megabytes)) (su_strat (demo megabytes)) true (su_smax (demo megabytes)) (may_of true) trip gp0 =
  (rs, mkGP true [mkP 3145728 2048 3145780] t tr) /\
  least_multiple 3145780 16 + 100 <= p_end (mkP 3145728 2048 3145780) /\
  exists rs' q, gp_run (su_min (demo megabytes)) (su_strat (demo megabytes)) true (su_smax (demo megabytes)) (may_of true) (firstn 12 trip) gp0 = (rs', q) /\
    gp_on q = false /\ gp_chunks q = [mkP 3145728 2048 3145760].
Proof.
  eexists. eexists. eexists. split; [vm_compute; reflexivity|]. split; [vm_compute; discriminate|].
  eexists. eexists. split; [vm_compute; reflexivity|]. split; reflexivity.
Qed.
