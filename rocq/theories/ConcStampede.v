(** A stampede (C95): any number of threads find no chunk at the same time. *)
From Verif Require Import Base BaseFacts Alloc AllocFacts Arena ArenaFacts ArenaInv BlinkAlloc History HistoryFacts Setup SetupFacts Concrete
  Conc ConcAsk ConcFacts ConcSteps ConcProps Paper PaperFacts ProxyPaper ProxyPaperFacts ConcPaper ConcPaperFacts ConcPaperDemo ConcPaperAll
  InitialFacts ConcInitial ConcGrowth.

Section Stampede.
  Variables (min smax : Z) (S : strategy) (l : Layout).
  Hypothesis Hl : req_ok smax l.
  Notation o := (OpAlloc l false).
  Notation stp := (cp_step min smax S).
  Notation rn := (cp_run min smax S).

  Lemma at_pre {T} (pre : list T) x r : nth_error (pre ++ x :: r) (length pre) = Some x.
  Proof. rewrite nth_error_app2 by lia. rewrite Nat.sub_diag. reflexivity. Qed.
  Lemma set_pre {T} (pre : list T) x y r : set_nth (length pre) y (pre ++ x :: r) = pre ++ y :: r.
  Proof. induction pre as [|z pre IH]; cbn; [reflexivity|]. f_equal. exact IH. Qed.
  Lemma at_rep {T} (d : T) j x r : nth_error (repeat d j ++ x :: r) j = Some x.
  Proof. pose proof (at_pre (repeat d j) x r) as X. rewrite repeat_length in X. exact X. Qed.
  Lemma set_rep {T} (d : T) j x y r : set_nth j y (repeat d j ++ x :: r) = repeat d j ++ y :: r.
  Proof. pose proof (set_pre (repeat d j) x y r) as X. rewrite repeat_length in X. exact X. Qed.
  Lemma run_two ms1 : forall ms2 q es1 q1 es2 q2, rn ms1 q = Some (es1, q1) -> rn ms2 q1 = Some (es2, q2) ->
    rn (ms1 ++ ms2) q = Some (es1 ++ es2, q2).
  Proof.
    induction ms1 as [|m ms1 IH]; intros ms2 q es1 q1 es2 q2 E1 E2; cbn [cp_run app] in *.
    - injection E1 as <- <-. exact E2.
    - destruct (stp m q) as [[es q']|]; [|discriminate E1]. destruct (rn ms1 q') as [[es' q'']|] eqn:E; [|discriminate E1].
      injection E1 as <- <-. rewrite (IH ms2 q' es' q'' es2 q2 E E2). rewrite app_assoc. reflexivity.
  Qed.

  Lemma all_call i : forall pre, rn (map (fun t => MCall t o) (seq (length pre) i)) (mkCP [] [] [] (pre ++ repeat DNone i)) =
    Some (map (fun t => Call t o) (seq (length pre) i), mkCP [] [] [] (pre ++ repeat (DAsked o) i)).
  Proof.
    induction i as [|i IH]; intros pre; [reflexivity|]. cbn [seq map repeat cp_run cp_step cp_thr].
    rewrite at_pre. rewrite Hl. unfold set_thr. cbn [cp_chunks cp_tab cp_calls cp_thr]. rewrite set_pre.
    specialize (IH (pre ++ [DAsked o])). rewrite app_length, Nat.add_1_r, <- !app_assoc in IH. cbn [app] in IH. rewrite IH. reflexivity.
  Qed.
  Lemma all_full i : forall j, rn (map MFull (seq j i)) (mkCP [] [] [] (repeat (DFull o) j ++ repeat (DAsked o) i)) =
    Some ([], mkCP [] [] [] (repeat (DFull o) (j + i))).
  Proof.
    induction i as [|i IH]; intros j; [cbn; rewrite app_nil_r, Nat.add_0_r; reflexivity|].
    cbn [seq map repeat cp_run cp_step cp_thr cp_chunks cp_tab].
    rewrite at_rep.
    assert (Hx : existsb alone (repeat (DFull o) j ++ DAsked o :: repeat (DAsked o) i) = false).
    { rewrite existsb_app. cbn [existsb alone]. assert (forall d k, alone d = false -> existsb alone (repeat d k) = false) as X.
      { intros d k Hd. induction k; cbn; [reflexivity|]. rewrite Hd. exact IHk. }
      rewrite !X; reflexivity. }
    rewrite Hx. cbn [shrinks must_grow orb wants room_in]. unfold set_thr. cbn [cp_chunks cp_tab cp_calls cp_thr].
    rewrite set_rep.
    specialize (IH (Datatypes.S j)). change (repeat (DFull o) (Datatypes.S j)) with (DFull o :: repeat (DFull o) j) in IH. rewrite repeat_cons, <- app_assoc in IH. cbn [app] in IH. rewrite IH.
    rewrite Nat.add_succ_r. reflexivity.
  Qed.
  Lemma all_fresh i : forall j ks tab tr, exists es ks' tab' tr',
    rn (flat_map (fun t => [MFresh t; MReturn t]) (seq j i)) (mkCP ks tab tr (repeat DNone j ++ repeat (DFull o) i)) =
      Some (es, mkCP ks' tab' tr' (repeat DNone (j + i))) /\
    forallb no_reset es = true /\ most_called es = 0 /\
    (existsb ConcPaperDemo.refused es = true \/ length (filter given tr') = (i + length (filter given tr))%nat).
  Proof.
    induction i as [|i IH]; intros j ks tab tr.
    - exists [], ks, tab, tr. cbn. rewrite app_nil_r, Nat.add_0_r. auto.
    - cbn [seq flat_map repeat app]. cbn [cp_run]. cbn [cp_step cp_thr cp_chunks cp_tab cp_calls].
      rewrite at_rep.
      assert (Hx : existsb has_got (repeat DNone j ++ DFull o :: repeat (DFull o) i) = false).
      { rewrite existsb_app. cbn [existsb has_got]. assert (forall d k, has_got d = false -> existsb has_got (repeat d k) = false) as X.
        { intros d k Hd. induction k; cbn; [reflexivity|]. rewrite Hd. exact IHk. }
        rewrite !X; reflexivity. }
      rewrite Hx. cbn [wants]. destruct (fresh min S ks l tr) as [[a ks1] tr1] eqn:Ef.
      assert (Hg : (a <> None -> length (filter given tr1) = Datatypes.S (length (filter given tr)))).
      { unfold fresh in Ef. destruct (chunk_size min ks l) as [z|]; [|injection Ef as <- <- <-; intros X; contradiction X; reflexivity].
        destruct (st_alloc S tr _) as [b|]; injection Ef as <- <- <-; [reflexivity|intros X; contradiction X; reflexivity]. }
      assert (Hd : exists hh tt r, match a with
                      | Some a0 => granted j o true (mkBlock a0 (l_size l)) (mkCP ks1 tab tr1 (repeat DNone j ++ DFull o :: repeat (DFull o) i))
                      | None => done_with j o true None (mkCP ks1 tab tr1 (repeat DNone j ++ DFull o :: repeat (DFull o) i))
                      end = ([Lin j o r], mkCP ks1 tt tr1 (repeat DNone j ++ DDone hh true :: repeat (DFull o) i)) /\
                      (r = None <-> a = None)).
      { destruct a as [a0|].
        - exists (Some (length tab)), (tab ++ [Some (mkU a0 (l_size l) l)]), (Some (mkBlock a0 (l_size l))). split; [|split; discriminate].
          unfold granted, done_with. cbn [cp_chunks cp_tab cp_calls cp_thr b_ptr b_len]. rewrite set_rep. reflexivity.
        - exists None, tab, None. split; [|split; reflexivity].
          unfold done_with, set_thr. cbn [cp_chunks cp_tab cp_calls cp_thr op_handle]. rewrite set_rep. reflexivity. }
      destruct Hd as (hh & tt & r & -> & Hr). cbn [cp_thr].
      rewrite at_rep. unfold set_thr. cbn [cp_chunks cp_tab cp_calls cp_thr].
      rewrite set_rep.
      destruct (IH (Datatypes.S j) ks1 tt tr1) as (es & ks2 & tab2 & tr2 & E & E1 & E2 & E3).
      change (repeat DNone (Datatypes.S j)) with (DNone :: repeat DNone j) in E. rewrite repeat_cons, <- app_assoc in E. cbn [app] in E. rewrite E.
      exists ([Lin j o r] ++ [Return j] ++ es), ks2, tab2, tr2. rewrite Nat.add_succ_r. split; [reflexivity|].
      split; [exact E1|]. split; [exact E2|]. cbn [app existsb ConcPaperDemo.refused].
      destruct r as [b|]; [|left; reflexivity]. destruct E3 as [E3|E3]; [left; exact E3|right].
      rewrite E3, Hg; [lia|]. intros X. apply Hr in X. discriminate X.
  Qed.

  Lemma stampede_paper n : exists ms es q, rn ms (cp0 n) = Some (es, q) /\ forallb no_reset es = true /\
    most_called es = Z.of_nat n * (l_size l + (l_align l - 1)) /\
    (existsb ConcPaperDemo.refused es = true \/ length (filter given (cp_calls q)) = n).
  Proof.
    pose proof (all_call n []) as A. cbn [length app] in A. pose proof (all_full n 0) as F. cbn [repeat app Nat.add] in F.
    destruct (all_fresh n 0 [] [] []) as (es & ks & tab & tr & E & E1 & E2 & E3). cbn [repeat app Nat.add] in E.
    pose proof (run_two _ _ _ _ _ _ _ A (run_two _ _ _ _ _ _ _ F E)) as R. do 3 eexists. split; [exact R|].
    rewrite forallb_app, most_called_app, existsb_app. cbn [app cp_calls]. rewrite E1, E2.
    split; [|split].
    - rewrite andb_true_r. clear. generalize 0%nat as j. induction n as [|n IH]; intros j; cbn; auto.
    - rewrite Z.add_0_r. clear. generalize 0%nat as j. induction n as [|n IH]; intros j; [reflexivity|].
      cbn [seq map most_called]. rewrite IH. cbn [most]. lia.
    - destruct E3 as [E3|E3]; [left; rewrite E3; apply orb_true_r|right]. rewrite E3. cbn. lia.
  Qed.
End Stampede.

(** On the model of the code. *)
Lemma stampede_code su n l : setup_ok su -> req_ok (su_smax su) l -> exists sched es g,
  crun su sched (cstart su n) = ORet es g /\ forallb no_reset es = true /\
  most_called es = Z.of_nat n * (l_size l + (l_align l - 1)) /\
  (existsb ConcPaperDemo.refused es = true \/
   length (filter given (cupstream g)) = n /\ 64 * 2 ^ Z.of_nat (n / 2) <= obtained (cupstream g) + 64).
Proof.
  intros Hok Hl. destruct (stampede_paper (su_min su) (su_smax su) (su_strat su) l Hl n) as (ms & es & q & E & E1 & E2 & E3).
  destruct (moves_real su Hok n ms es q E) as (sched & g & Eg & _ & _ & Hc & _).
  exists sched, es, g. split; [exact Eg|]. split; [exact E1|]. split; [exact E2|].
  destruct E3 as [E3|E3]; [left; exact E3|right]. unfold cupstream. pose proof (chunks_large su n sched es g Hok Eg E1) as X.
  rewrite Hc, E3 in *. split; [reflexivity|exact X].
Qed.
