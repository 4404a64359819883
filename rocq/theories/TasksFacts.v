(** Tasks and the cache: every schedule keeps the invariant. *)
From Coq Require Import Permutation.
From Verif Require Import Base BaseFacts Alloc AllocFacts Arena ArenaInv BlinkAlloc BlinkFacts
  History HistoryFacts Setup SetupFacts SetupOps Wraps WrapsFacts Conc ConcFacts Cache CacheFacts CacheProps Tasks.

(** What is on the way in or out of the cache, for each thread. *)
Definition on_the_way (q : qst wrap) : list (list wrap) :=
  map (fun p => carried (qphase_of (q_pop q) p)) (q_thr q).
(** All [BlinkAlloc]s there are. *)
Definition everything (s : tst) : list wrap :=
  concat (tk_own s) ++ concat (on_the_way (tk_q s)) ++ queue_of (tk_q s).
Definition flat (s : tst) : wst := mkWst (tk_w s) (everything s) (tk_tab s).

(** Memory contains what the buffers contain, wherever they are. *)
Definition holds (m : mem) (x : wrap) (y : sbufs) : Prop := wp_fate x = fst y /\ agrees m (wp_tab x) (snd y).
Definition one_or_none {T} (y : option T) : list T := match y with Some x => [x] | None => [] end.
Definition tagrees (s : tst) (b : tspec) : Prop :=
  let m := bw_mem (tk_w s) in
  Forall2 (Forall2 (holds m)) (tk_own s) (tx_own b) /\
  Forall2 (Forall2 (holds m)) (on_the_way (tk_q s)) (map one_or_none (tx_mid b)) /\
  Forall2 (holds m) (queue_of (tk_q s)) (tx_queue b) /\
  agrees m (tk_tab s) (tx_tab b).

(** ** Lists *)

Lemma concat_split {T} (l1 : list (list T)) x l2 : Permutation (concat (l1 ++ x :: l2)) (x ++ concat (l1 ++ l2)).
Proof. rewrite !concat_app. cbn [concat]. apply Permutation_app_swap_app. Qed.
Lemma map_split {T S} (f : T -> S) l a x b : map f l = a ++ x :: b ->
  exists l1 y l2, l = l1 ++ y :: l2 /\ map f l1 = a /\ f y = x /\ map f l2 = b.
Proof.
  intros H. apply map_eq_app in H. destruct H as (l1 & l2 & -> & E1 & E2).
  destruct l2 as [|y l2]; [discriminate E2|]. injection E2 as E2 E3. exists l1, y, l2. auto.
Qed.
Lemma set_nth_map {T S} (f : T -> S) k y : forall l, map f (set_nth k y l) = set_nth k (f y) (map f l).
Proof. induction k as [|k IH]; intros [|z l]; cbn; try reflexivity. f_equal. apply IH. Qed.
Lemma remove_nth_map {T S} (f : T -> S) k l : map f (remove_nth k l) = remove_nth k (map f l).
Proof. unfold remove_nth. rewrite map_app, firstn_map, skipn_map. reflexivity. Qed.
Lemma remove_nth_split {T} (l1 : list T) x l2 : remove_nth (length l1) (l1 ++ x :: l2) = l1 ++ l2.
Proof.
  unfold remove_nth. f_equal.
  - rewrite firstn_app, Nat.sub_diag, firstn_O, firstn_all, app_nil_r. reflexivity.
  - rewrite skipn_app. rewrite skipn_all2 by lia. replace (S (length l1) - length l1)%nat with 1%nat by lia. reflexivity.
Qed.
Lemma set_nth_shift {T} (l : list T) k y : forall r, set_nth (length l + k) y (l ++ r) = l ++ set_nth k y r.
Proof. induction l as [|z l IH]; intros r; cbn; [reflexivity|]. f_equal. apply IH. Qed.
Lemma nth_shift {T} (l : list T) k r : nth_error (l ++ r) (length l + k) = nth_error r k.
Proof. rewrite nth_error_app2 by lia. f_equal. lia. Qed.
Lemma Forall2_perm {T S} (R : T -> S -> Prop) : forall r r', Permutation r r' -> forall l, Forall2 R l r ->
  exists l', Permutation l l' /\ Forall2 R l' r'.
Proof.
  induction 1 as [|x r r' P IH|x y r|r1 r2 r3 P1 IH1 P2 IH2]; intros l H.
  - inversion H; subst. exists []. auto.
  - inversion H as [|a ? l0 ? Ha H0]; subst. destruct (IH _ H0) as (l' & P' & H'). exists (a :: l'). split; [constructor; exact P'|constructor; auto].
  - inversion H as [|a ? l0 ? Ha H0]; subst. inversion H0 as [|b ? l1 ? Hb H1]; subst. exists (b :: a :: l1). split; [constructor|auto].
  - destruct (IH1 _ H) as (l1 & Q1 & H1). destruct (IH2 _ H1) as (l2 & Q2 & H2). exists l2. split; [eapply perm_trans; eauto|exact H2].
Qed.
Lemma concat_perm {T} (l l' : list (list T)) : Permutation l l' -> Permutation (concat l) (concat l').
Proof.
  induction 1; cbn; auto.
  - apply Permutation_app_head. assumption.
  - apply Permutation_app_swap_app.
  - eapply perm_trans; eauto.
Qed.
Lemma list_set_ext {T} (l l' : list T) t x : length l' = length l -> nth_error l' t = Some x ->
  (forall t', t' <> t -> nth_error l' t' = nth_error l t') -> l' = set_nth t x l.
Proof.
  revert l' t. induction l as [|y l IH]; intros [|y' l'] t L E H; try discriminate L.
  - destruct t; discriminate E.
  - injection L as L. destruct t as [|t].
    + cbn in E. injection E as ->. cbn. f_equal. clear IH.
      assert (H' : forall k, nth_error l' k = nth_error l k) by (intros k; apply (H (S k)); lia).
      clear H. revert l' L H'. induction l as [|z l IH]; intros [|z' l'] L H'; try discriminate L; [reflexivity|].
      pose proof (H' 0%nat) as H0. cbn in H0. injection H0 as ->. f_equal. injection L as L. apply IH; [exact L|]. intros k. apply (H' (S k)).
    + pose proof (H 0%nat ltac:(lia)) as H0. cbn in H0. injection H0 as ->. cbn. f_equal.
      apply IH; [exact L|exact E|]. intros t' Ht. apply (H (S t')). lia.
Qed.

(** ** The cache emits at most one event per step *)

Lemma qgo_one vmax t p (q q' : qst wrap) es : qgo vmax t p q = ORet es q' ->
  es = [] \/ exists e, es = [e] /\ qthread e = t /\ match e with QCall _ _ => False | _ => True end.
Proof.
  unfold qgo, bind, get_q, set_lock, set_next_pop, set_next_push, set_arrays, q_become, upd, ret, flush.
  intros H. destruct p; unfold bind, get_q, set_lock, set_next_pop, set_next_push, set_arrays, q_become, upd, ret, ub in H;
    cbn [q_pop q_next_pop q_push q_next_push q_lock q_thr] in H;
    repeat match type of H with
    | context [match ?b with _ => _ end] =>
        match type of b with
        | bool => destruct b
        | option _ => destruct b
        | list _ => destruct b
        | unit => destruct b
        end
    | ORet _ _ = ORet _ _ => inversion H; subst; clear H
    | _ = ORet _ _ => discriminate H
    end; auto; right; eexists; (split; [reflexivity|]); cbn; auto.
Qed.

Section Tasks.
  Variable su : setup.
  Hypothesis Hok : setup_ok su.
  Variable vmax : Z.
  Hypothesis Hvmax : 0 <= vmax <= ISIZE_MAX.
  Notation bown := (base_own (su_amax su) (su_bmax su)).
  Notation Hct := (su_ct su Hok).

  (** A [BlinkAlloc] with its ideal. *)
  Notation both := (wrap * sbufs)%type.
  Definition binv (w : bworld) (tab : list (option ublock)) (stab : list (option sbuf)) (P : list both) : Prop :=
    winv su (mkWst w (map fst P) tab) (mkWs (map snd P) stab).

  Lemma binv_perm w tab stab P P' : Permutation P P' -> binv w tab stab P -> binv w tab stab P'.
  Proof.
    intros HP (css & HL & Ho & Ha & Hd). cbn [ws_w ws_wraps ws_tab wx_wraps wx_tab] in *.
    assert (HL' : Forall2 (fun cs p => lrep su (bw_mem w) cs (fst p) /\ holds (bw_mem w) (fst p) (snd p)) css P).
    { clear HP Ho Hd. revert css HL Ha. induction P as [|p P IH]; intros css HL Ha; inversion HL; subst; constructor.
      - inversion Ha; subst. split; assumption.
      - apply IH; [assumption|]. inversion Ha; subst. assumption. }
    destruct (Forall2_perm _ _ _ HP _ HL') as (css' & HPc & HR).
    exists css'. split; [|split; [|split; [|exact Hd]]]; cbn [ws_w ws_wraps ws_tab wx_wraps wx_tab].
    - clear -HR. induction HR as [|cs p css P [H _] HR IH]; constructor; auto.
    - apply (ct_perm _ _ _ _ Hct _ _ _ Ho). apply Permutation_app_tail. unfold allc. apply concat_perm. apply Permutation_map. exact HPc.
    - clear -HR. induction HR as [|cs p css P [_ H] HR IH]; constructor; auto.
  Qed.

  (** *** A thread acts on what it has *)

  Definition shift (n : nat) (a : wact) : wact :=
    match a with
    | WUse k o => WUse (n + k) o
    | WUnwrap k => WUnwrap (n + k)
    | WDrop k => WDrop (n + k)
    | _ => a
    end.
  Definition behind (l : list wrap) (s : wst) : wst := mkWst (ws_w s) (l ++ ws_wraps s) (ws_tab s).
  Definition omap {W W' B} (f : W -> W') (r : outcome W B) : outcome W' B :=
    match r with ORet b s => ORet b (f s) | OPanic s => OPanic (f s) | OAbort => OAbort | OUB => OUB end.

  Lemma fate_behind l s k : fate_of (length l + k) (behind l s) = fate_of k s.
  Proof. unfold fate_of, behind. cbn [ws_wraps]. rewrite nth_shift. reflexivity. Qed.
  Lemma on_wrap_behind {B} l k f (m : M (cst (AW (W := bworld))) B) s :
    on_wrap (length l + k) f m (behind l s) = omap (behind l) (on_wrap k f m s).
  Proof.
    unfold on_wrap, behind at 1 2. cbn [ws_wraps ws_w ws_tab]. rewrite nth_shift.
    destruct (nth_error (ws_wraps s) k) as [x|]; [|reflexivity]. cbn [ws_w behind].
    destruct (m _) as [b c|c| |]; cbn [omap]; try reflexivity; unfold behind; cbn [ws_wraps ws_w ws_tab]; rewrite set_nth_shift; reflexivity.
  Qed.
  Lemma wstep_behind l a s : wstep su (shift (length l) a) (behind l s) = omap (behind l) (wstep su a s).
  Proof.
    destruct a as [min|k o|k|k|o]; cbn [shift wstep]; rewrite ?fate_behind.
    - unfold behind. cbn [ws_w ws_wraps ws_tab omap]. rewrite app_assoc. reflexivity.
    - destruct (usable (fate_of k s) o); [apply on_wrap_behind|reflexivity].
    - destruct (fate_of k s); try reflexivity. apply on_wrap_behind.
    - destruct (fate_of k s); try reflexivity. apply on_wrap_behind.
    - destruct (plain_op o); [|reflexivity]. unfold on_direct. cbn [behind ws_w ws_wraps ws_tab].
      destruct (step _ _ _ _ _); reflexivity.
  Qed.
  Lemma wspec_behind (l : list sbufs) n a r (b : wspec) : n = length l ->
    wspec_step (shift n a) r (mkWs (l ++ wx_wraps b) (wx_tab b)) =
    mkWs (l ++ wx_wraps (wspec_step a r b)) (wx_tab (wspec_step a r b)).
  Proof.
    intros ->. destruct a as [min|k o|k|k|o]; cbn [shift wspec_step wx_wraps wx_tab]; rewrite ?nth_shift.
    - rewrite app_assoc. reflexivity.
    - destruct (nth_error (wx_wraps b) k) as [[f t]|]; [|reflexivity]. destruct (usable f o); [|reflexivity].
      cbn [wx_wraps wx_tab]. rewrite set_nth_shift. reflexivity.
    - destruct (nth_error (wx_wraps b) k) as [[[] t]|]; try reflexivity. cbn [wx_wraps wx_tab]. rewrite set_nth_shift. reflexivity.
    - destruct (nth_error (wx_wraps b) k) as [[[] t]|]; try reflexivity. cbn [wx_wraps wx_tab]. rewrite set_nth_shift. reflexivity.
    - destruct (plain_op o); reflexivity.
  Qed.

  Lemma shift_fine n a : min_fine su a -> min_fine su (shift n a).
  Proof. destruct a; exact (fun H => H). Qed.

  Lemma local_step w tab stab R P a : min_fine su a -> binv w tab stab (R ++ P) ->
    exists r s' P', wstep su a (mkWst w (map fst P) tab) = ORet r s' /\ map fst P' = ws_wraps s' /\
      let z := wspec_step a (option_map b_len r) (mkWs (map snd P) stab) in
      map snd P' = wx_wraps z /\ binv (ws_w s') (ws_tab s') (wx_tab z) (R ++ P').
  Proof.
    intros Hm (css & Hi). unfold binv in Hi. rewrite !map_app in Hi.
    pose proof (wstep_ok su Hok css _ _ (shift (length (map fst R)) a) (shift_fine _ a Hm) Hi) as X.
    change (mkWst w (map fst R ++ map fst P) tab) with (behind (map fst R) (mkWst w (map fst P) tab)) in X.
    unfold wp in X. rewrite wstep_behind in X.
    destruct (wstep su a (mkWst w (map fst P) tab)) as [r s'|s'| |]; cbn [omap] in X; try contradiction.
    destruct X as (css' & Hi' & _).
    pose proof (wspec_behind (map snd R) (length (map fst R)) a (option_map b_len r) (mkWs (map snd P) stab)
      ltac:(rewrite !map_length; reflexivity)) as Es. cbn [wx_wraps wx_tab] in Es.
    rewrite Es in Hi'. clear Es.
    set (z := wspec_step a (option_map b_len r) (mkWs (map snd P) stab)) in *.
    assert (Hlen : length (ws_wraps s') = length (wx_wraps z)).
    { destruct Hi' as (_ & _ & Ha & _). pose proof (Forall2_len _ _ _ Ha) as L. cbn [behind ws_wraps wx_wraps] in L.
      rewrite !app_length, !map_length in L. lia. }
    exists r, s', (combine (ws_wraps s') (wx_wraps z)).
    assert (E1 : map fst (combine (ws_wraps s') (wx_wraps z)) = ws_wraps s').
    { clear -Hlen. revert Hlen. generalize (wx_wraps z). induction (ws_wraps s') as [|x l IH]; intros [|y l'] L; try discriminate L; [reflexivity|].
      cbn. f_equal. apply IH. injection L as L. exact L. }
    assert (E2 : map snd (combine (ws_wraps s') (wx_wraps z)) = wx_wraps z).
    { clear -Hlen. revert Hlen. generalize (ws_wraps s'). induction (wx_wraps z) as [|x l IH]; intros [|y l'] L; try discriminate L; [reflexivity|].
      cbn. f_equal. apply IH. injection L as L. exact L. }
    split; [reflexivity|]. split; [exact E1|]. split; [exact E2|].
    exists css'. rewrite !map_app, E1, E2. exact Hi'.
  Qed.

  (** *** The whole *)

  Record tinvp (Po Pm : list (list both)) (Pq : list both) (s : tst) (b : tspec) : Prop := mkTinv {
    ti_own : tk_own s = map (map fst) Po;
    ti_own' : tx_own b = map (map snd) Po;
    ti_mid : on_the_way (tk_q s) = map (map fst) Pm;
    ti_mid' : map one_or_none (tx_mid b) = map (map snd) Pm;
    ti_queue : queue_of (tk_q s) = map fst Pq;
    ti_queue' : tx_queue b = map snd Pq;
    ti_all : binv (tk_w s) (tk_tab s) (tx_tab b) (concat Po ++ concat Pm ++ Pq);
    ti_cache : qinv vmax (tk_q s);
    ti_len : length (tk_own s) = length (q_thr (tk_q s))
  }.
  Definition tinv (s : tst) (b : tspec) : Prop := exists Po Pm Pq, tinvp Po Pm Pq s b.

  (** What a step has to do. *)
  Definition tgood (s : tst) (b : tspec) (r : outcome tst (list tev)) : Prop :=
    match r with
    | ORet es s' => exists b', tspecs es b = Some b' /\ tinv s' b'
    | OPanic s' => zlen (q_pop (tk_q s')) = vmax
    | _ => False
    end.

  Lemma do_ok s b t a : min_fine su a -> tinv s b -> tgood s b (tstep su vmax (TDo t a) s).
  Proof.
    intros Hm (Po & Pm & Pq & [H1 H2 H3 H4 H5 H6 H7 H8 H9]). cbn [tstep].
    assert (Hskip : tgood s b (ORet [] s)).
    { exists b. split; [reflexivity|]. exists Po, Pm, Pq. constructor; assumption. }
    unfold free. destruct (nth_error (q_thr (tk_q s)) t) as [p|]; [|exact Hskip]. destruct p; try exact Hskip.
    destruct (nth_error (tk_own s) t) as [xs|] eqn:Ex; [|exact Hskip].
    destruct (nth_split_at _ _ _ Ex) as (l1 & l2 & El & Ek). rewrite El in H1. symmetry in H1. apply map_split in H1.
    destruct H1 as (P1 & P & P2 & -> & E1 & <- & E2).
    assert (B0 : binv (tk_w s) (tk_tab s) (tx_tab b) ((concat (P1 ++ P2) ++ concat Pm ++ Pq) ++ P)).
    { eapply binv_perm; [|exact H7]. etransitivity; [apply Permutation_app_tail, concat_split|].
      rewrite <- app_assoc. apply Permutation_app_comm. }
    destruct (local_step _ _ _ _ _ a Hm B0) as (r & s' & P' & E & F1 & F2 & B1). rewrite E.
    assert (Hl : length P1 = t) by (rewrite <- Ek, <- E1, map_length; reflexivity).
    assert (En : nth_error (tx_own b) t = Some (map snd P)).
    { rewrite H2, map_app. cbn [map]. rewrite <- Hl, <- (map_length (map snd)). apply nth_mid. }
    cbn [tgood tspecs tspec_step]. rewrite En. eexists. split; [reflexivity|].
    exists (P1 ++ P' :: P2), Pm, Pq. constructor; cbn [tk_w tk_own tk_q tk_tab tx_own tx_mid tx_queue tx_tab]; auto.
    - rewrite El, <- Ek, set_nth_split, map_app. cbn [map]. rewrite E1, E2, F1. reflexivity.
    - rewrite H2, !map_app. cbn [map]. rewrite <- Hl, <- (map_length (map snd)), set_nth_split, F2. reflexivity.
    - eapply binv_perm; [|exact B1]. etransitivity; [apply Permutation_app_comm|]. rewrite app_assoc. apply Permutation_app_tail.
      symmetry. apply concat_split.
    - rewrite set_nth_length. exact H9.
  Qed.

  (** *** The cache *)

  (** Where the phase of a thread changes. *)
  Lemma way_set q q' t p' : length (q_thr q') = length (q_thr q) -> nth_error (q_thr q') t = Some p' ->
    (forall t' p, t' <> t -> nth_error (q_thr q) t' = Some p ->
       exists p1, nth_error (q_thr q') t' = Some p1 /\ qphase_of (q_pop q') p1 = qphase_of (q_pop q) p) ->
    on_the_way q' = set_nth t (carried (qphase_of (q_pop q') p')) (on_the_way q).
  Proof.
    intros L E H. apply list_set_ext.
    - unfold on_the_way. rewrite !map_length. exact L.
    - unfold on_the_way. rewrite nth_error_map, E. reflexivity.
    - intros t' N. unfold on_the_way. rewrite !nth_error_map.
      destruct (nth_error (q_thr q) t') as [p|] eqn:Ep.
      + destruct (H t' p N Ep) as (p1 & -> & E1). cbn. rewrite E1. reflexivity.
      + apply nth_error_None in Ep. assert (Ep' : nth_error (q_thr q') t' = None) by (apply nth_error_None; lia). rewrite Ep'. reflexivity.
  Qed.

  Lemma follows_nil t (a b : qphase wrap) : qfollows t a [] b -> b = a.
  Proof. intros H. inversion H; subst; reflexivity. Qed.
  Lemma follows_other t e (a b : qphase wrap) : qthread e <> t -> qfollows t a [e] b -> b = a.
  Proof.
    intros N H. inversion H as [|? ? ? H'|? ? ? ? H'|? ? ? H'|? ? ? ? ? H']; subst; cbn in N; try contradiction.
    apply (follows_nil _ _ _ H').
  Qed.

  (** What [qpost] says of a step with at most one event. *)
  Lemma post_same q q' t : nth_error (q_thr q) t <> None -> qpost vmax q [] q' ->
    queue_of q' = queue_of q /\ on_the_way q' = on_the_way q.
  Proof.
    intros Ht (_ & Hq & L & Hf). split; [inversion Hq; reflexivity|].
    destruct (nth_error (q_thr q) t) as [p|] eqn:Ep; [|contradiction].
    destruct (Hf t p Ep) as (p' & Ep' & F). apply follows_nil in F.
    rewrite (way_set q q' t p' L Ep').
    - rewrite F. apply set_nth_same. unfold on_the_way. rewrite nth_error_map, Ep. reflexivity.
    - intros t' p1 _ E1. destruct (Hf t' p1 E1) as (p2 & E2 & F2). exists p2. split; [exact E2|apply (follows_nil _ _ _ F2)].
  Qed.
  Lemma post_one q q' t p e : nth_error (q_thr q) t = Some p -> qthread e = t -> qpost vmax q [e] q' ->
    exists p', nth_error (q_thr q') t = Some p' /\ qfollows t (qphase_of (q_pop q) p) [e] (qphase_of (q_pop q') p') /\
      queue_run (queue_of q) [e] (queue_of q') /\
      on_the_way q' = set_nth t (carried (qphase_of (q_pop q') p')) (on_the_way q).
  Proof.
    intros Ep Et (_ & Hq & L & Hf). destruct (Hf t p Ep) as (p' & Ep' & F). exists p'.
    split; [exact Ep'|]. split; [exact F|]. split; [exact Hq|]. apply way_set; [exact L|exact Ep'|].
    intros t' p1 N E1. destruct (Hf t' p1 E1) as (p2 & E2 & F2). exists p2. split; [exact E2|].
    apply (follows_other t' e); [congruence|exact F2].
  Qed.

  (** The inside of an event of thread [t]. *)
  Lemma follows_call t o (a b : qphase wrap) : qfollows t a [QCall t o] b -> a = XIdle /\ b = XCalled o.
  Proof.
    intros H. inversion H as [|? ? ? H'|? ? ? ? H'|? ? ? H'|? ? ? ? N H']; subst; [|contradiction].
    split; [reflexivity|]. apply (follows_nil _ _ _ H').
  Qed.
  Lemma follows_lin t o r (a b : qphase wrap) : qfollows t a [QLin t o r] b -> a = XCalled o /\ b = XDone r.
  Proof.
    intros H. inversion H as [|? ? ? H'|? ? ? ? H'|? ? ? H'|? ? ? ? N H']; subst; [|contradiction].
    split; [reflexivity|]. apply (follows_nil _ _ _ H').
  Qed.
  Lemma follows_ret t r (a b : qphase wrap) : qfollows t a [QRet t r] b -> a = XDone r /\ b = XIdle.
  Proof.
    intros H. inversion H as [|? ? ? H'|? ? ? ? H'|? ? ? H'|? ? ? ? N H']; subst; [|contradiction].
    split; [reflexivity|]. apply (follows_nil _ _ _ H').
  Qed.

  Lemma mid_at Po Pm Pq s b t p : tinvp Po Pm Pq s b -> nth_error (q_thr (tk_q s)) t = Some p ->
    exists M1 M M2 m, Pm = M1 ++ M :: M2 /\ length M1 = t /\ map fst M = carried (qphase_of (q_pop (tk_q s)) p) /\
      nth_error (tx_mid b) t = Some m /\ one_or_none m = map snd M.
  Proof.
    intros [H1 H2 H3 H4 H5 H6 H7 H8 H9] Ep.
    assert (E : nth_error (on_the_way (tk_q s)) t = Some (carried (qphase_of (q_pop (tk_q s)) p))).
    { unfold on_the_way. rewrite nth_error_map, Ep. reflexivity. }
    destruct (nth_split_at _ _ _ E) as (l1 & l2 & El & Ek). rewrite El in H3. symmetry in H3. apply map_split in H3.
    destruct H3 as (M1 & M & M2 & -> & E1 & E2 & E3).
    assert (Hl : length M1 = t) by (rewrite <- Ek, <- E1, map_length; reflexivity).
    rewrite map_app in H4. cbn [map] in H4. apply map_split in H4. destruct H4 as (m1 & m & m2 & Em & F1 & F2 & F3).
    exists M1, M, M2, m. split; [reflexivity|]. split; [exact Hl|]. split; [exact E2|]. split; [|exact F2].
    rewrite Em. assert (Hm : length m1 = t) by (rewrite <- Hl, <- (map_length one_or_none m1), F1, map_length; reflexivity).
    rewrite <- Hm. apply nth_mid.
  Qed.

  Lemma put_mid Po M1 M M2 Pq s b t Po' M' m' Pq' q' sq :
    tinvp Po (M1 ++ M :: M2) Pq s b -> length M1 = t ->
    on_the_way q' = set_nth t (map fst M') (on_the_way (tk_q s)) -> one_or_none m' = map snd M' ->
    queue_of q' = map fst Pq' -> sq = map snd Pq' ->
    Permutation (concat Po ++ M ++ Pq) (concat Po' ++ M' ++ Pq') -> length Po' = length Po ->
    qinv vmax q' -> length (q_thr q') = length (q_thr (tk_q s)) ->
    tinvp Po' (M1 ++ M' :: M2) Pq' (mkT (tk_w s) (map (map fst) Po') q' (tk_tab s))
      (mkTx (map (map snd) Po') (set_nth t m' (tx_mid b)) sq (tx_tab b)).
  Proof.
    intros [H1 H2 H3 H4 H5 H6 H7 H8 H9] Ht Ew Em Eq Es HP Hlen Hc HL.
    constructor; cbn [tk_w tk_own tk_q tk_tab tx_own tx_mid tx_queue tx_tab]; auto.
    - rewrite Ew, H3, !map_app. cbn [map]. rewrite <- Ht, <- (map_length (map fst)), set_nth_split. reflexivity.
    - rewrite set_nth_map, H4, Em, !map_app. cbn [map]. rewrite <- Ht, <- (map_length (map snd)), set_nth_split. reflexivity.
    - eapply binv_perm; [|exact H7].
      transitivity (concat (M1 ++ M2) ++ (concat Po ++ M ++ Pq)).
      { etransitivity; [|apply Permutation_app_swap_app]. apply Permutation_app_head.
        rewrite app_assoc. apply Permutation_app_tail. etransitivity; [apply concat_split|]. apply Permutation_app_comm. }
      transitivity (concat (M1 ++ M2) ++ (concat Po' ++ M' ++ Pq')); [apply Permutation_app_head; exact HP|].
      etransitivity; [apply Permutation_app_swap_app|]. apply Permutation_app_head. rewrite !app_assoc.
      apply Permutation_app_tail. symmetry. etransitivity; [apply concat_split|]. apply Permutation_app_comm.
    - rewrite map_length, Hlen, HL, <- H9, H1, map_length. reflexivity.
  Qed.

  Lemma mk_eta s : mkT (tk_w s) (tk_own s) (tk_q s) (tk_tab s) = s.
  Proof. destruct s; reflexivity. Qed.

  Lemma go_ok s b t : tinv s b -> tgood s b (tstep su vmax (TGo t) s).
  Proof.
    intros (Po & Pm & Pq & Hi). pose proof Hi as [H1 H2 H3 H4 H5 H6 H7 H8 H9]. cbn [tstep]. unfold on_cache. cbn [app].
    pose proof (qstep_ok vmax Hvmax (tk_q s) (QGo t) H8) as Hs.
    destruct (qstep vmax (QGo t) (tk_q s)) as [es q'|q'| |] eqn:Eq; cbn [qgoal] in Hs; try contradiction; [|exact Hs].
    unfold qstep, bind at 1, get_q in Eq.
    destruct (nth_error (q_thr (tk_q s)) t) as [p|] eqn:Ep.
    2: { unfold ret in Eq. injection Eq as <- <-. cbn [tgood flat_map fold_left]. rewrite mk_eta. exists b. split; [reflexivity|].
         exists Po, Pm, Pq. exact Hi. }
    destruct (mid_at _ _ _ _ _ t p Hi Ep) as (M1 & M & M2 & m & -> & Hl & EM & Em & Em').
    pose proof (proj1 Hs) as Hc'. pose proof (proj1 (proj2 (proj2 Hs))) as HL'.
    assert (Hown : map (map fst) Po = tk_own s) by (symmetry; exact H1).
    assert (Htx : b = mkTx (map (map snd) Po) (tx_mid b) (tx_queue b) (tx_tab b)) by (destruct b; cbn in *; congruence).
    destruct (qgo_one _ _ _ _ _ _ Eq) as [-> |(e & -> & Et & Hne)].
    { cbn [tgood flat_map fold_left tspecs]. exists b. split; [reflexivity|].
      destruct (post_same (tk_q s) q' t ltac:(congruence) Hs) as [Q1 Q2].
      exists Po, (M1 ++ M :: M2), Pq. constructor; cbn [tk_w tk_own tk_q tk_tab]; auto; congruence. }
    destruct (post_one _ _ t p e Ep Et Hs) as (p' & Ep' & Hf & Hq & Hw).
    destruct e as [t0 o|t0 o r|t0 r]; [contradiction| |]; cbn in Et; subst t0.
    - (* takes effect *)
      destruct (follows_lin _ _ _ _ _ Hf) as [F1 F2]. rewrite F2 in Hw. rewrite F1 in EM.
      destruct o as [x|].
      + (* a push *)
        assert (Hr : r = None /\ queue_of q' = queue_of (tk_q s) ++ [x]).
        { inversion Hq as [|? ? ? ? ? Hq'| | | |]; subst. inversion Hq'; subst. auto. }
        destruct Hr as [-> Hq']. cbn [carried] in EM, Hw.
        destruct M as [|[x0 y] [|? ?]]; cbn in EM; try discriminate EM. injection EM as ->.
        destruct m as [y0|]; cbn in Em'; [|discriminate Em']. injection Em' as ->.
        cbn [flat_map outward app fold_left receive tgood tspecs tspec_step]. rewrite Em. eexists. split; [reflexivity|].
        exists Po, (M1 ++ [] :: M2), (Pq ++ [(x, y)]). rewrite <- Hown. rewrite H2.
        apply (put_mid Po M1 [(x, y)] M2 Pq s b t Po [] None (Pq ++ [(x, y)]) q'); auto.
        * rewrite Hq', H5, map_app. reflexivity.
        * rewrite H6, map_app. reflexivity.
        * apply Permutation_app_head. cbn. apply Permutation_cons_append.
      + destruct r as [x|].
        * (* a pop that finds something *)
          assert (Hr : queue_of (tk_q s) = x :: queue_of q') by (inversion Hq as [| |? ? ? ? ? Hq'| | |]; subst; inversion Hq'; subst; reflexivity).
          cbn [carried] in EM, Hw. destruct M as [|? ?]; [|discriminate EM].
          destruct m as [y0|]; cbn in Em'; [discriminate Em'|].
          rewrite H5 in Hr. destruct Pq as [|[x0 y] Pq]; [discriminate Hr|]. cbn in Hr. injection Hr as -> Hr.
          cbn [map snd] in H6.
          cbn [flat_map outward found app fold_left receive tgood tspecs tspec_step]. rewrite Em, H6. eexists. split; [reflexivity|].
          exists Po, (M1 ++ [(x, y)] :: M2), Pq. rewrite <- Hown. rewrite H2.
          apply (put_mid Po M1 [] M2 ((x, y) :: Pq) s b t Po [(x, y)] (Some y) Pq q'); auto.
        * (* a pop that does not *)
          assert (Hr : queue_of (tk_q s) = [] /\ queue_of q' = []) by (inversion Hq as [| | |? ? ? Hq'| |]; subst; inversion Hq'; subst; auto).
          destruct Hr as [Hr Hr']. cbn [carried] in EM, Hw. destruct M as [|? ?]; [|discriminate EM].
          destruct m as [y0|]; cbn in Em'; [discriminate Em'|].
          rewrite H5 in Hr. destruct Pq as [|? Pq]; [|discriminate Hr]. cbn [map] in H6.
          cbn [flat_map outward found app fold_left receive tgood tspecs tspec_step]. rewrite H6. exists b. split; [reflexivity|].
          exists Po, (M1 ++ [] :: M2), []. rewrite <- Hown. rewrite Htx.
          replace (tx_mid b) with (set_nth t None (tx_mid b)) by (apply set_nth_same; exact Em).
          apply (put_mid Po M1 [] M2 [] s b t Po [] None [] q'); auto.
    - (* returns *)
      destruct (follows_ret _ _ _ _ Hf) as [F1 F2]. rewrite F2 in Hw. rewrite F1 in EM. cbn [carried] in Hw.
      assert (Hr : queue_of q' = queue_of (tk_q s)) by (inversion Hq as [| | | | |? ? ? ? ? Hq']; subst; inversion Hq'; subst; reflexivity).
      destruct r as [x|]; cbn [carried] in EM.
      + destruct M as [|[x0 y] [|? ?]]; cbn in EM; try discriminate EM. injection EM as ->.
        destruct m as [y0|]; cbn in Em'; [|discriminate Em']. injection Em' as ->.
        assert (Hx : exists xs, nth_error (tk_own s) t = Some xs).
        { destruct (nth_error (tk_own s) t) as [xs|] eqn:Ex; [eauto|]. apply nth_error_None in Ex.
          assert (t < length (q_thr (tk_q s)))%nat by (apply nth_error_Some; congruence). lia. }
        destruct Hx as (xs & Ex).
        destruct (nth_split_at _ _ _ Ex) as (l1 & l2 & El & Ek).
        assert (H1' : map (map fst) Po = l1 ++ xs :: l2) by congruence. apply map_split in H1'.
        destruct H1' as (P1 & P & P2 & -> & E1 & E2 & E3).
        assert (Hl' : length P1 = t) by (rewrite <- Ek, <- E1, map_length; reflexivity).
        assert (Ey : nth_error (tx_own b) t = Some (map snd P)).
        { rewrite H2, map_app. cbn [map]. rewrite <- Hl', <- (map_length (map snd)). apply nth_mid. }
        cbn [flat_map outward found app fold_left receive tgood tspecs tspec_step]. rewrite Em, Ey. eexists. split; [reflexivity|].
        assert (Eo : set_nth t (nth t (tk_own s) [] ++ [x]) (tk_own s) = map (map fst) (P1 ++ (P ++ [(x, y)]) :: P2)).
        { rewrite (nth_error_nth _ _ _ Ex), El, <- Ek, set_nth_split, map_app. cbn [map]. rewrite map_app, E1, E2, E3. reflexivity. }
        assert (Eo' : set_nth t (map snd P ++ [y]) (tx_own b) = map (map snd) (P1 ++ (P ++ [(x, y)]) :: P2)).
        { rewrite H2, !map_app. cbn [map]. rewrite <- Hl', <- (map_length (map snd)), set_nth_split, map_app. reflexivity. }
        rewrite Eo, Eo'.
        exists (P1 ++ (P ++ [(x, y)]) :: P2), (M1 ++ [] :: M2), Pq.
        apply (put_mid _ M1 [(x, y)] M2 Pq s b t _ [] None Pq q' _ Hi); auto; [congruence| |].
        * rewrite app_nil_l. rewrite app_assoc. apply Permutation_app_tail. rewrite !concat_app. cbn [concat]. rewrite <- !app_assoc.
          apply Permutation_app_head. apply Permutation_app_head. apply Permutation_app_comm.
        * rewrite !app_length. reflexivity.
      + destruct M as [|? ?]; [|discriminate EM]. destruct m as [y0|]; cbn in Em'; [discriminate Em'|].
        cbn [flat_map outward found app fold_left receive tgood tspecs tspec_step]. rewrite Em. exists b. split; [reflexivity|].
        exists Po, (M1 ++ [] :: M2), Pq. rewrite <- Hown. rewrite Htx.
        replace (tx_mid b) with (set_nth t None (tx_mid b)) by (apply set_nth_same; exact Em).
        apply (put_mid Po M1 [] M2 Pq s b t Po [] None Pq q'); auto. congruence.
  Qed.

  (** Starting a call. *)
  Lemma start_post (q : qst wrap) t o q' es : qinv vmax q -> nth_error (q_thr q) t = Some QIdle -> qstep vmax (QStart t o) q = ORet es q' ->
    es = [QCall t o] /\ qinv vmax q' /\ length (q_thr q') = length (q_thr q) /\ queue_of q' = queue_of q /\
    on_the_way q' = set_nth t (carried (XCalled o)) (on_the_way q).
  Proof.
    intros Hi Ep E. pose proof (qstep_ok vmax Hvmax q (QStart t o) Hi) as Hs. rewrite E in Hs. cbn [qgoal] in Hs.
    assert (Ee : es = [QCall t o]).
    { unfold qstep, bind, get_q in E. rewrite Ep in E. cbn in E. injection E as <- _. reflexivity. }
    subst es. destruct (post_one _ _ t QIdle (QCall t o) Ep eq_refl Hs) as (p' & Ep' & Hf & Hq & Hw).
    destruct (follows_call _ _ _ _ Hf) as [_ F2]. rewrite F2 in Hw.
    split; [reflexivity|]. split; [apply Hs|]. split; [apply Hs|]. split; [|exact Hw].
    inversion Hq as [| | | |? ? ? ? ? Hq'|]; subst. inversion Hq'; subst. reflexivity.
  Qed.
  Lemma start_runs (q : qst wrap) t o : nth_error (q_thr q) t = Some QIdle -> exists es q', qstep vmax (QStart t o) q = ORet es q'.
  Proof. intros Ep. unfold qstep, bind, get_q. rewrite Ep. eexists _, _. reflexivity. Qed.

  Lemma pop_ok s b t : tinv s b -> tgood s b (tstep su vmax (TPop t) s).
  Proof.
    intros (Po & Pm & Pq & Hi). pose proof Hi as [H1 H2 H3 H4 H5 H6 H7 H8 H9]. cbn [tstep].
    assert (Hskip : tgood s b (ORet [] s)) by (exists b; split; [reflexivity|]; exists Po, Pm, Pq; exact Hi).
    unfold free. destruct (nth_error (q_thr (tk_q s)) t) as [p|] eqn:Ep; [|exact Hskip]. destruct p; try exact Hskip.
    destruct (nth_error (tk_own s) t) as [xs|] eqn:Ex; [|exact Hskip].
    unfold on_cache. destruct (start_runs (tk_q s) t CPop Ep) as (es & q' & E). rewrite E.
    destruct (start_post _ _ _ _ _ H8 Ep E) as (-> & Hc & HL & Hq & Hw). cbn [carried] in Hw.
    destruct (mid_at _ _ _ _ _ t QIdle Hi Ep) as (M1 & M & M2 & m & -> & Hl & EM & Em & Em').
    destruct M as [|? ?]; [|discriminate EM]. destruct m as [y0|]; cbn in Em'; [discriminate Em'|].
    cbn [flat_map outward app fold_left receive tgood tspecs tspec_step]. rewrite Em. exists b. split; [reflexivity|].
    exists Po, (M1 ++ [] :: M2), Pq. rewrite H1.
    assert (Htx : b = mkTx (map (map snd) Po) (set_nth t None (tx_mid b)) (tx_queue b) (tx_tab b)).
    { rewrite (set_nth_same t None _ Em). destruct b; cbn in *; congruence. }
    rewrite Htx. apply (put_mid Po M1 [] M2 Pq s b t Po [] None Pq q'); auto. congruence.
  Qed.

  Lemma push_ok s b t k : tinv s b -> tgood s b (tstep su vmax (TPush t k) s).
  Proof.
    intros (Po & Pm & Pq & Hi). pose proof Hi as [H1 H2 H3 H4 H5 H6 H7 H8 H9]. cbn [tstep].
    assert (Hskip : tgood s b (ORet [] s)) by (exists b; split; [reflexivity|]; exists Po, Pm, Pq; exact Hi).
    unfold free. destruct (nth_error (q_thr (tk_q s)) t) as [p|] eqn:Ep; [|exact Hskip]. destruct p; try exact Hskip.
    destruct (nth_error (tk_own s) t) as [xs|] eqn:Ex; [|exact Hskip].
    destruct (nth_error xs k) as [x|] eqn:Ek; [|exact Hskip]. destruct (wp_fate x); try exact Hskip.
    unfold on_cache. cbn [tk_w tk_own tk_q tk_tab]. destruct (start_runs (tk_q s) t (CPush x) Ep) as (es & q' & E). rewrite E.
    destruct (start_post _ _ _ _ _ H8 Ep E) as (-> & Hc & HL & Hq & Hw). cbn [carried] in Hw.
    destruct (mid_at _ _ _ _ _ t QIdle Hi Ep) as (M1 & M & M2 & m & -> & Hl & EM & Em & Em').
    destruct M as [|? ?]; [|discriminate EM]. destruct m as [y0|]; cbn in Em'; [discriminate Em'|].
    destruct (nth_split_at _ _ _ Ex) as (l1 & l2 & El & Et).
    assert (H1' : map (map fst) Po = l1 ++ xs :: l2) by congruence. apply map_split in H1'.
    destruct H1' as (P1 & P & P2 & -> & E1 & E2 & E3).
    assert (Hl' : length P1 = t) by (rewrite <- Et, <- E1, map_length; reflexivity).
    assert (Ey : nth_error (tx_own b) t = Some (map snd P)).
    { rewrite H2, map_app. cbn [map]. rewrite <- Hl', <- (map_length (map snd)). apply nth_mid. }
    destruct (nth_split_at _ _ _ Ek) as (u1 & u2 & Eu & Euk). rewrite Eu in E2. apply map_split in E2.
    destruct E2 as (A1 & [x0 y] & A2 & -> & G1 & G2 & G3). cbn in G2. subst x0.
    assert (Hk : length A1 = k) by (rewrite <- Euk, <- G1, map_length; reflexivity).
    cbn [flat_map outward app fold_left receive tgood tspecs tspec_step]. rewrite Em, Ey.
    assert (Ey' : nth_error (map snd (A1 ++ (x, y) :: A2)) k = Some y).
    { rewrite map_app. cbn [map snd]. rewrite <- Hk, <- (map_length snd A1). apply nth_mid. }
    rewrite Ey'. eexists. split; [reflexivity|].
    assert (Eo : set_nth t (remove_nth k xs) (tk_own s) = map (map fst) (P1 ++ (A1 ++ A2) :: P2)).
    { rewrite El, <- Et, set_nth_split, map_app. cbn [map]. rewrite Eu, <- Euk, remove_nth_split, map_app, E1, E3, G1, G3. reflexivity. }
    assert (Eo' : set_nth t (remove_nth k (map snd (A1 ++ (x, y) :: A2))) (tx_own b) = map (map snd) (P1 ++ (A1 ++ A2) :: P2)).
    { rewrite <- remove_nth_map, <- Hk, remove_nth_split, H2, !map_app. cbn [map].
      rewrite <- Hl', <- (map_length (map snd)), set_nth_split, map_app. reflexivity. }
    rewrite Eo, Eo'. exists (P1 ++ (A1 ++ A2) :: P2), (M1 ++ [(x, y)] :: M2), Pq.
    apply (put_mid _ M1 [] M2 Pq s b t _ [(x, y)] (Some y) Pq q' _ Hi); auto; [congruence| |].
    - rewrite app_nil_l. rewrite (app_assoc (concat _) [(x, y)]). apply Permutation_app_tail. rewrite !concat_app. cbn [concat].
      rewrite <- !app_assoc. apply Permutation_app_head. apply Permutation_app_head. cbn [app].
      etransitivity; [apply Permutation_middle|]. rewrite app_assoc. symmetry.
      etransitivity; [apply Permutation_app_comm|]. cbn [app]. apply Permutation_cons_app. reflexivity.
    - rewrite !app_length. reflexivity.
  Qed.

  Lemma tstep_ok c s b : choice_fine su c -> tinv s b -> tgood s b (tstep su vmax c s).
  Proof. intros Hm Hi. destruct c as [t a|t k|t|t]; [apply do_ok|apply push_ok|apply pop_ok|apply go_ok]; assumption. Qed.

  Lemma tspecs_app es1 : forall es2 b, tspecs (es1 ++ es2) b = match tspecs es1 b with Some b' => tspecs es2 b' | None => None end.
  Proof. induction es1 as [|e es IH]; intros es2 b; cbn [tspecs app]; [reflexivity|]. destruct (tspec_step e b); [apply IH|reflexivity]. Qed.

  Lemma trun_ok cs : forall s b, Forall (choice_fine su) cs -> tinv s b -> tgood s b (trun su vmax cs s).
  Proof.
    induction cs as [|c cs IH]; intros s b Hm Hi; cbn [trun].
    - exists b. split; [reflexivity|exact Hi].
    - inversion Hm as [|? ? Hc Hm']; subst. unfold bind. pose proof (tstep_ok c s b Hc Hi) as H1.
      destruct (tstep su vmax c s) as [es1 s1|s1| |]; cbn [tgood] in H1; try contradiction; [|exact H1].
      destruct H1 as (b1 & E1 & I1). pose proof (IH s1 b1 Hm' I1) as H2.
      destruct (trun su vmax cs s1) as [es2 s2|s2| |]; cbn [tgood] in H2; try contradiction; [|exact H2].
      destruct H2 as (b2 & E2 & I2). exists b2. split; [|exact I2]. rewrite tspecs_app, E1. exact E2.
  Qed.

  Lemma tstart_ok n : Z.of_nat n <= 2 ^ 63 -> tinv (tstart n) (tspec0 n).
  Proof.
    intros Hn. exists (repeat [] n), (repeat [] n), []. constructor; cbn [tstart tspec0 tk_w tk_own tk_q tk_tab tx_own tx_mid tx_queue tx_tab].
    - clear. induction n; cbn; congruence.
    - clear. induction n; cbn; congruence.
    - unfold on_the_way, qstart. cbn [q_thr q_pop]. clear. induction n as [|n IH]; cbn; [reflexivity|]. rewrite IH. reflexivity.
    - clear. induction n; cbn; congruence.
    - reflexivity.
    - reflexivity.
    - assert (E : concat (repeat (@nil both) n) = []) by (clear; induction n; auto). rewrite E. cbn [app].
      exists []. apply (wstart_ok su).
    - apply (qstart_inv vmax Hvmax n Hn).
    - unfold qstart. cbn [q_thr]. rewrite !repeat_length. reflexivity.
  Qed.

  (** *** What the invariant says *)
  Lemma tinv_flat s b : tinv s b -> exists b', winv su (flat s) b'.
  Proof.
    intros (Po & Pm & Pq & [H1 H2 H3 H4 H5 H6 H7 H8 H9]). unfold binv in H7. unfold flat, everything.
    rewrite H1, H3, H5. rewrite !map_app, !concat_map in H7. eexists. exact H7.
  Qed.

  Lemma holds_all m (P : list both) : Forall2 (holds m) (map fst P) (map snd P) <-> Forall (fun p => holds m (fst p) (snd p)) P.
  Proof.
    split.
    - induction P as [|p P IH]; intros H; constructor; inversion H; subst; auto.
    - induction 1; constructor; auto.
  Qed.
  Lemma holds_each m (P : list (list both)) : Forall (fun p => holds m (fst p) (snd p)) (concat P) ->
    Forall2 (Forall2 (holds m)) (map (map fst) P) (map (map snd) P).
  Proof.
    induction P as [|p P IH]; intros H; cbn [map]; constructor; cbn [concat] in H; apply Forall_app in H; destruct H as [Ha Hb].
    - apply holds_all. exact Ha.
    - apply IH. exact Hb.
  Qed.
  Lemma tinv_agrees s b : tinv s b -> tagrees s b.
  Proof.
    intros (Po & Pm & Pq & [H1 H2 H3 H4 H5 H6 H7 H8 H9]). unfold tagrees. cbv zeta. rewrite H1, H2, H3, H4, H5, H6.
    destruct H7 as (css & _ & _ & Ha & Hd). cbn [ws_w ws_wraps ws_tab wx_wraps wx_tab] in Ha, Hd.
    apply (holds_all (bw_mem (tk_w s))) in Ha. apply Forall_app in Ha. destruct Ha as [A1 A2]. apply Forall_app in A2. destruct A2 as [A2 A3].
    split; [apply holds_each, A1|]. split; [apply holds_each, A2|]. split; [apply holds_all, A3|exact Hd].
  Qed.
End Tasks.
