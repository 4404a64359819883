(** Consequences of C86 and a worked case. *)
From Verif Require Import Base BaseFacts Alloc AllocFacts Arena ArenaFacts BlinkAlloc History HistoryFacts Setup SetupFacts Concrete
  BlinkDemo Proxy ProxyFacts ProxyProps ProxyDemo Paper PaperFacts ProxyPaper ProxyPaperUse ProxyPaperFacts.

Section Consequences.
  Variable su : setup.
  Variables psmax nmax : Z.
  Notation PR := (pp_run (su_min su) (su_strat su) (su_dbg su) (su_smax su) psmax nmax).
  Notation PP := (pp_step (su_min su) (su_strat su) (su_dbg su) (su_smax su) psmax nmax).

  Lemma pp_run_snoc os o q : PR (os ++ [o]) q =
    (fst (PR os q) ++ [fst (PP o (snd (PR os q)))], snd (PP o (snd (PR os q)))).
  Proof.
    revert q. induction os as [|o1 os IH]; intros q; cbn [app pp_run].
    - cbn [fst snd app]. destruct (PP o q) as [r q1]. reflexivity.
    - destruct (PP o1 q) as [r q1]. rewrite IH. destruct (PR os q1) as [rs q2]. cbn [fst snd]. reflexivity.
  Qed.

  Lemma sells_one lay x : snd (snd (sells (su_min su) (su_strat su) lay x)) = snd x \/
    exists l b, snd (snd (sells (su_min su) (su_strat su) lay x)) = EvAlloc l b :: snd x.
  Proof.
    unfold sells, take. destruct (fst x) as [|k older] eqn:E.
    - unfold fresh. destruct (chunk_size _ _ _) as [n|]; [|left; reflexivity]. destruct (Alloc.st_alloc _ _ _); right; eexists; eexists; reflexivity.
    - destruct (_ && _); [left; reflexivity|]. unfold fresh. destruct (chunk_size _ _ _) as [n|]; [|left; reflexivity].
      destruct (Alloc.st_alloc _ _ _); right; eexists; eexists; reflexivity.
  Qed.

  Lemma take_calls min S ks l : snd (take min S ks l []) = [] \/ exists lay b, snd (take min S ks l []) = [EvAlloc lay b].
  Proof.
    assert (Hf : snd (fresh min S ks l []) = [] \/ exists lay b, snd (fresh min S ks l []) = [EvAlloc lay b]).
    { unfold fresh. destruct (chunk_size _ _ _) as [n|]; [|left; reflexivity]. destruct (Alloc.st_alloc _ _ _); right; eexists; eexists; reflexivity. }
    unfold take. destruct ks as [|k older]; [exact Hf|]. destruct (_ && _); [left; reflexivity|exact Hf].
  Qed.
  Lemma moves_calls min S ks p old new : snd (moves min S ks p old new []) = [] \/ exists lay b, snd (moves min S ks p old new []) = [EvAlloc lay b].
  Proof.
    pose proof (take_calls min S ks new) as H. unfold moves. destruct (take min S ks new []) as [[r ks'] tr]. cbn [snd] in H.
    destruct (_ <=? _); [|exact H]. destruct (_ <=? _); [left; reflexivity|]. destruct ks as [|k older]; [exact H|]. destruct (_ && _); [left; reflexivity|exact H].
  Qed.

  (** What an operation of a proxy does to the books of the shared allocator. *)
  Lemma use_calls o p x : let '(_, _, x') := use_pp (sells (su_min su) (su_strat su)) keeps (su_dbg su) psmax o p x in
    snd x' = snd x \/ exists l b, snd x' = EvAlloc l b :: snd x.
  Proof.
    set (ch := charged (sells (su_min su) (su_strat su)) keeps x).
    assert (Hc : forall tr, (tr = [] \/ exists lay b, tr = [EvAlloc lay b]) -> snd (ch tr) = snd x \/ exists l b, snd (ch tr) = EvAlloc l b :: snd x).
    { intros tr [->|(lay & b & ->)]; [left; reflexivity|]. apply sells_one. }
    unfold use_pp. set (S := supplier _ x). set (o' := match o with OpReset _ => OpReset true | _ => o end).
    assert (Hk : snd (ch (p_calls (snd (paper_step (pp_min p) psmax S o' (mkPaper (pp_chunks p) (pp_tab p) []))))) = snd x \/
      exists l b, snd (ch (p_calls (snd (paper_step (pp_min p) psmax S o' (mkPaper (pp_chunks p) (pp_tab p) []))))) = EvAlloc l b :: snd x).
    { unfold o'. destruct o as [l z|h off bs|h l|h old new|h old new|keep]; cbn [paper_step p_chunks p_tab p_calls].
      - destruct (req_okb _ _); [|left; reflexivity]. pose proof (take_calls (pp_min p) S (pp_chunks p) l) as H.
        destruct (take _ _ _ _ _) as [[[a|] ks] tr]; apply Hc; exact H.
      - left; reflexivity.
      - destruct (get h _) as [u|]; [|left; reflexivity]. destruct (fitsb _ _); left; reflexivity.
      - destruct (get h _) as [u|]; [|left; reflexivity]. destruct (_ && _); [|left; reflexivity].
        pose proof (moves_calls (pp_min p) S (pp_chunks p) (u_ptr u) old new) as H. destruct (moves _ _ _ _ _ _ _) as [[[a|] ks] tr]; apply Hc; exact H.
      - destruct (get h _) as [u|]; [|left; reflexivity]. destruct (_ && _); [|left; reflexivity].
        pose proof (take_calls (pp_min p) S (pp_chunks p) new) as H. destruct (take _ _ _ _ _) as [[[a|] ks] tr]; apply Hc; exact H.
      - destruct (pp_chunks p) as [|k older]; cbn [snd p_calls]; [left; reflexivity|]. unfold ch. rewrite charged_back. left.
        cbn [charged]. clear. revert x. induction older as [|k' older IH]; intros x; [reflexivity|apply IH]. }
    destruct (paper_step _ _ _ _ _) as [r q]. cbn [snd] in Hk. destruct (cramped _ _ _); exact Hk.
  Qed.

  Hypothesis Hok : proxies_ok su psmax nmax.

  (** An operation of a proxy means one request to the underlying allocator at most, and gives
      nothing back. *)
  Theorem one_call os k o : exists rs s r s',
    proxy_run su psmax nmax os (proxy_start su) = ORet rs s /\
    proxy_run su psmax nmax (os ++ [PUse (Some k) o]) (proxy_start su) = ORet (rs ++ [r]) s' /\
    (bw_trace (snd (ps_w s')) = bw_trace (snd (ps_w s)) \/
     exists l b, bw_trace (snd (ps_w s')) = EvAlloc l b :: bw_trace (snd (ps_w s))).
  Proof.
    pose proof (proxies_on_paper su psmax nmax Hok os) as H1.
    pose proof (proxies_on_paper su psmax nmax Hok (os ++ [PUse (Some k) o])) as H2.
    rewrite pp_run_snoc in H2. destruct (PR os pp0) as [rs q]. cbn [fst snd] in H2.
    destruct H1 as (s & E1 & _ & _ & _ & T1 & _). destruct H2 as (s' & E2 & _ & _ & _ & T2 & _).
    exists rs, s, (fst (PP (PUse (Some k) o) q)), s'. split; [exact E1|]. split; [exact E2|]. rewrite T1, T2. cbn [pp_step].
    destruct (get k (sh_prox q)) as [p|]; [|left; reflexivity].
    pose proof (use_calls o p (sh_books q)) as U. destruct (use_pp _ _ _ _ _ _ _) as [[r p'] x']. exact U.
  Qed.

  (** While there is room in the newest chunk of a proxy, the block comes from there and only
      that proxy changes. *)
  Theorem with_room os k p c older l z : let q := snd (PR os pp0) in
    get k (sh_prox q) = Some p -> pp_chunks p = c :: older -> req_ok psmax l ->
    let a := least_multiple (p_free c) (l_align l) in
    p_free c + (l_size l + (l_align l - 1)) <= USIZE_MAX -> a + l_size l <= p_end c ->
    exists s, proxy_run su psmax nmax (os ++ [PUse (Some k) (OpAlloc l z)]) (proxy_start su) =
        ORet (fst (PR os pp0) ++ [PBlock (Some (mkBlock a (l_size l)))]) s /\
      pictured s (mkShared (sh_max q)
        (set_nth k (Some (mkPP (pp_min p) (mkP (p_at c) (p_len c) (a + l_size l) :: older) (pp_tab p ++ [Some (mkU a (l_size l) l)]))) (sh_prox q))
        (sh_tab q) (sh_books q)).
  Proof.
    intros q G Ec Hl a H1 H2. pose proof (proxies_on_paper su psmax nmax Hok (os ++ [PUse (Some k) (OpAlloc l z)])) as H.
    rewrite pp_run_snoc in H. fold q in H.
    assert (E : PP (PUse (Some k) (OpAlloc l z)) q = (PBlock (Some (mkBlock a (l_size l))), mkShared (sh_max q)
        (set_nth k (Some (mkPP (pp_min p) (mkP (p_at c) (p_len c) (a + l_size l) :: older) (pp_tab p ++ [Some (mkU a (l_size l) l)]))) (sh_prox q))
        (sh_tab q) (sh_books q))).
    { cbn [pp_step]. rewrite G. unfold use_pp. cbn [paper_step p_chunks p_tab p_calls]. unfold req_ok in Hl. rewrite Hl, Ec. cbn [take]. fold a.
      replace (p_free c + (l_size l + (l_align l - 1)) <=? USIZE_MAX) with true by lia. replace (a + l_size l <=? p_end c) with true by lia.
      cbn [andb p_chunks p_tab p_calls charged]. unfold cramped. rewrite andb_false_r. reflexivity. }
    rewrite E in H. exact H.
  Qed.
  Lemma with_room' os k p c older l z :
    let '(rs, q) := PR os pp0 in
    get k (sh_prox q) = Some p -> pp_chunks p = c :: older -> req_okb psmax l = true ->
    let a := least_multiple (p_free c) (l_align l) in
    p_free c + (l_size l + (l_align l - 1)) <= USIZE_MAX -> a + l_size l <= p_end c ->
    exists s, proxy_run su psmax nmax (os ++ [PUse (Some k) (OpAlloc l z)]) (proxy_start su) =
        ORet (rs ++ [PBlock (Some (mkBlock a (l_size l)))]) s /\
      pictured s (mkShared (sh_max q)
        (set_nth k (Some (mkPP (pp_min p) (mkP (p_at c) (p_len c) (a + l_size l) :: older) (pp_tab p ++ [Some (mkU a (l_size l) l)]))) (sh_prox q))
        (sh_tab q) (sh_books q)).
  Proof. pose proof (with_room os k p c older l z) as H. cbv zeta in H |- *. destruct (PR os pp0) as [rs q]. exact H. Qed.
End Consequences.

(** ** A case *)
Definition on_big (os : list pop) : list pres * ppaper :=
  pp_run (su_min (big megabytes)) (su_strat (big megabytes)) (su_dbg (big megabytes)) (su_smax (big megabytes)) (2 ^ 40) (2 ^ 20) os pp0.

(** Two proxies and a block of the shared allocator.  The chunks of the proxies (1024 and 4096
    bytes) lie one behind the other in the second chunk of the shared allocator; the chunk the
    first proxy lost in its [reset] is in the first one. *)
Definition two_proxies : ppaper :=
  mkShared 992
    [Some (mkPP 0 [mkP 2101280 1024 2101328] [None; None; Some (mkU 2101312 16 (L 16 8))]);
     Some (mkPP 0 [mkP 2097184 4096 2100416] [Some (mkU 2097216 3200 (L 3200 8))])]
    [Some (mkU 1048864 50 (L 50 16))]
    ([mkP 2097152 8192 2102304; mkP 1048576 512 1048914],
     [EvAlloc (L 8192 8) (Some (mkBlock 2097152 8192)); EvAlloc (L 512 8) (Some (mkBlock 1048576 512))]).
Lemma tour_case : exists rs s, on_big (firstn 11 tour) = (rs, two_proxies) /\ proxy_run (big megabytes) (2 ^ 40) (2 ^ 20) (firstn 11 tour) (proxy_start (big megabytes)) = ORet rs s /\ pictured s two_proxies.
Proof.
  pose proof (proxies_on_paper (big megabytes) _ _ (big_proxies megabytes) (firstn 11 tour)) as H.
  assert (E : snd (on_big (firstn 11 tour)) = two_proxies) by (vm_compute; reflexivity).
  unfold on_big in *. destruct (pp_run _ _ _ _ _ _ _ _) as [rs q]. cbn [snd] in E. subst q. destruct H as (s & H1 & H2). exists rs, s. auto.
Qed.

(** The panic of a debug build: the chunk stays with the shared allocator. *)
Lemma panic_case : exists s, proxy_run (big megabytes) (2 ^ 40) (2 ^ 20) empty_first (proxy_start (big megabytes)) = ORet [PDone; PPanicked] s /\ pictured s (mkShared 0 [Some (mkPP 0 [] [])] []
    ([mkP 1048576 512 1048640], [EvAlloc (L 512 8) (Some (mkBlock 1048576 512))])).
Proof.
  pose proof (proxies_on_paper (big megabytes) _ _ (big_proxies megabytes) empty_first) as H.
  assert (E : on_big empty_first = ([PDone; PPanicked], mkShared 0 [Some (mkPP 0 [] [])] []
    ([mkP 1048576 512 1048640], [EvAlloc (L 512 8) (Some (mkBlock 1048576 512))]))) by (vm_compute; reflexivity).
  unfold on_big in E. rewrite E in H. exact H.
Qed.

(** Room in the newest chunk: the next block of the second proxy. *)
Lemma room_case : exists rs s, proxy_run (big megabytes) (2 ^ 40) (2 ^ 20) (firstn 11 tour ++ [PUse (Some 1%nat) (OpAlloc (L 100 64) false)])
    (proxy_start (big megabytes)) = ORet (rs ++ [PBlock (Some (mkBlock 2100416 100))]) s /\ bw_trace (snd (ps_w s)) = snd (sh_books two_proxies).
Proof.
  assert (E : snd (on_big (firstn 11 tour)) = two_proxies) by (vm_compute; reflexivity).
  pose proof (with_room (big megabytes) _ _ (big_proxies megabytes) (firstn 11 tour) 1
    (mkPP 0 [mkP 2097184 4096 2100416] [Some (mkU 2097216 3200 (L 3200 8))]) (mkP 2097184 4096 2100416) [] (L 100 64) false) as H.
  cbv zeta in H. unfold on_big in E. rewrite E in H.
  destruct H as (s & H1 & H2); [reflexivity|reflexivity|reflexivity|vm_compute; discriminate|vm_compute; discriminate|].
  eexists. exists s. split; [exact H1|]. apply H2.
Qed.
