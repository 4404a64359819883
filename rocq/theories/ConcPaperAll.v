(** Whatever ConcPaper.v allows, threads that share a [SyncBlinkAlloc] can do (C89). *)
From Coq Require Import Permutation.
From Verif Require Import Base BaseFacts Alloc AllocFacts Arena ArenaFacts ArenaInv ArenaOps
  BlinkAlloc BlinkFacts History HistoryFacts Setup SetupFacts SetupOps SetupOps2 Conc ConcFacts ConcSteps ConcProps
  Paper PaperFacts ProxyPaper ProxyPaperFacts ConcPaper ConcPaperFacts Concrete.

(** Between two moves a thread is at one of these places. *)
Definition settled (p : pc) : Prop :=
  match p with Idle | WantRead _ | WantWrite _ | Copy _ _ _ _ | Unlock _ None _ => True | _ => False end.

(** The move of thread [t], which was doing [d], that an observer records as [es]. *)
Definition guess (t : nat) (d : doing) (es : list event) : cmove :=
  match d, es with
  | DNone, Call _ o :: _ => MCall t o
  | DAsked (OpResize _ _ _), Bump _ :: Lin _ _ _ :: _ => MGrow t
  | DAsked _, Bump _ :: _ => MTake t
  | DAsked _, Lin _ _ _ :: _ => MStay t
  | DAsked _, _ => MFull t
  | DFull _, _ => MFresh t
  | DHas _ _ _, _ => MCopied t
  | DDone _ _, _ => MReturn t
  | _, _ => MReset true
  end.

Lemma set_nth_at {T} t (x : T) l y : nth_error l t = Some y -> nth_error (set_nth t x l) t = Some x.
Proof. apply nth_set_same. Qed.

Section All.
  Variable su : setup.
  Hypothesis Hok : setup_ok su.
  (** The blocks [ext] of the underlying allocator belong to others (ConcFacts.v). *)
  Variable sole : bool.
  Variable ext : list ublock.
  Variable m0 : mem.
  Notation A := (bot su).
  Notation dbg := (su_dbg su).
  Notation pstep := (cp_step (su_min su) (su_smax su) (su_strat su)).
  Notation prun := (cp_run (su_min su) (su_smax su) (su_strat su)).

  (** Which move it was. *)
  Lemma pinned t d d1 m es q q1 : pstep m q = Some (es, q1) -> nth_error (cp_thr q) t = Some d ->
    cp_thr q1 = set_nth t d1 (cp_thr q) -> events_of t es -> es <> [] \/ d1 <> d -> m = guess t d es.
  Proof.
    intros E Hd Et He Hn.
    assert (Hother : forall t' d0 d', nth_error (cp_thr q) t' = Some d0 -> nth_error (cp_thr q1) t' = Some d' -> d' <> d0 -> t' = t).
    { intros t' d0 d' E1 E2 N. destruct (Nat.eq_dec t' t) as [X|X]; [exact X|]. exfalso. rewrite Et, nth_set_other in E2 by congruence. congruence. }
    destruct m; cbn [cp_step] in E.
    - destruct (nth_error (cp_thr q) t0) as [d0|] eqn:Hd0; [|discriminate E]. destruct d0; try discriminate E.
      assert (X : exists es0, es = Call t0 o :: es0).
      { destruct o as [l z|h off cl|h l|h old new|h old new|keep]; try discriminate E.
        - destruct z; [discriminate E|]. destruct (req_okb _ _); [|discriminate E]. injection E as <- _. eauto.
        - destruct (get h (cp_tab q)); [|discriminate E]. destruct (_ && _); [|discriminate E]. injection E as <- _. eauto.
        - destruct (get h (cp_tab q)); [|discriminate E]. destruct (_ && _); [|discriminate E]. injection E as <- _. eauto.
        - destruct (get h (cp_tab q)); [|discriminate E]. destruct (_ && _); [|discriminate E]. injection E as <- _. eauto.
        - destruct keep; [|discriminate E]. destruct (forallb _ _); [|discriminate E]. injection E as <- _. eauto. }
      destruct X as [es0 ->]. pose proof (Forall_inv He) as X0; cbn in X0; subst t0. rewrite Hd in Hd0. injection Hd0 as ->. reflexivity.
    - destruct (nth_error (cp_thr q) t0) as [d0|] eqn:Hd0; [|discriminate E]. destruct d0; try discriminate E.
      destruct (_ || _); [discriminate E|]. destruct (wants o) as [l|]; [|discriminate E].
      destruct (room_in (cp_chunks q) l) as [[a ks]|]; [|discriminate E]. unfold bumped in E. injection E as <- _.
      pose proof (Forall_inv He) as X0; cbn in X0; subst t0. rewrite Hd in Hd0. injection Hd0 as ->. destruct o; reflexivity.
    - destruct (nth_error (cp_thr q) t0) as [d0|] eqn:Hd0; [|discriminate E]. destruct d0; try discriminate E. destruct o; try discriminate E.
      destruct (existsb _ _); [discriminate E|]. destruct (get h (cp_tab q)) as [u|]; [|discriminate E]. destruct (_ && _); [|discriminate E].
      destruct (room_at _ _ _ _) as [ks|]; [|discriminate E]. unfold bumped in E. injection E as <- _.
      pose proof (Forall_inv He) as X0; cbn in X0; subst t0. rewrite Hd in Hd0. injection Hd0 as ->. reflexivity.
    - destruct (nth_error (cp_thr q) t0) as [d0|] eqn:Hd0; [|discriminate E]. destruct d0; try discriminate E.
      destruct (existsb _ _); [discriminate E|].
      assert (X : exists r, es = [Lin t0 o r]).
      { destruct o; try discriminate E; [injection E as <- _; eauto|]. destruct (get h (cp_tab q)) as [u|]; [|discriminate E].
        destruct (shrinks _); [|discriminate E]. injection E as <- _. eauto. }
      destruct X as [r ->]. pose proof (Forall_inv He) as X0; cbn in X0; subst t0. rewrite Hd in Hd0. injection Hd0 as ->. destruct o; reflexivity.
    - destruct (nth_error (cp_thr q) t0) as [d0|] eqn:Hd0; [|discriminate E]. destruct d0; try discriminate E.
      destruct (_ || _); [discriminate E|]. destruct (wants o) as [l|]; [|discriminate E].
      destruct (room_in (cp_chunks q) l) as [[a ks]|]; [discriminate E|]. injection E as <- Eq.
      assert (X : t0 = t).
      { apply (Hother t0 (DAsked o) (DFull o) Hd0); [|discriminate]. rewrite <- Eq. apply (set_nth_at _ _ _ _ Hd0). }
      subst t0. rewrite Hd in Hd0. injection Hd0 as ->. destruct o; reflexivity.
    - destruct (nth_error (cp_thr q) t0) as [d0|] eqn:Hd0; [|discriminate E]. destruct d0; try discriminate E.
      destruct (existsb _ _); [discriminate E|]. destruct (wants o) as [l|]; [|discriminate E].
      destruct (fresh _ _ _ _ _) as [[a ks] tr].
      assert (X : t0 = t).
      { assert (Hdone : forall a0 r q2, Some (done_with t0 o a0 r q2) = Some (es, q1) -> t0 = t).
        { intros a0 r q2 Ex. assert (es = [Lin t0 o r]) as -> by (injection Ex as <- _; reflexivity). exact (Forall_inv He). }
        destruct a as [a|]; [|apply (Hdone _ _ _ E)]. unfold granted in E. destruct o; try (apply (Hdone _ _ _ E)).
        injection E as <- Eq. apply (Hother t0 _ (DHas (OpResize h old new) (mkBlock a (l_size l)) true) Hd0); [|discriminate].
        rewrite <- Eq. apply (set_nth_at _ _ _ _ Hd0). }
      subst t0. rewrite Hd in Hd0. injection Hd0 as ->. reflexivity.
    - destruct (nth_error (cp_thr q) t0) as [d0|] eqn:Hd0; [|discriminate E]. destruct d0; try discriminate E.
      injection E as <- _. pose proof (Forall_inv He) as X0; cbn in X0; subst t0. rewrite Hd in Hd0. injection Hd0 as ->. reflexivity.
    - destruct (nth_error (cp_thr q) t0) as [d0|] eqn:Hd0; [|discriminate E]. destruct d0; try discriminate E.
      injection E as <- _. pose proof (Forall_inv He) as X0; cbn in X0; subst t0. rewrite Hd in Hd0. injection Hd0 as ->. reflexivity.
    - destruct (forallb _ _); [|discriminate E]. injection E as <- _. destruct (Forall_inv He).
  Qed.

  Lemma one_or_none ms q es q' : prun ms q = Some (es, q') -> (length ms <= 1)%nat ->
    (es = [] /\ q' = q) \/ exists m, pstep m q = Some (es, q').
  Proof.
    destruct ms as [|m [|m' ms]]; cbn [cp_run length]; intros E L; [injection E as <- <-; auto| |lia].
    destruct (pstep m q) as [[es1 q1]|] eqn:E1; [|discriminate E]. injection E as <- <-. right. exists m. rewrite app_nil_r. exact E1.
  Qed.

  (** Everybody but [t] is between two moves. *)
  Definition near (t : nat) (g : gst) (q : cpaper) : Prop :=
    (exists s, xinv su sole ext m0 g s) /\ cshows g q /\ paced (cp_chunks q) (g_thr g) /\
    forall t' p, t' <> t -> nth_error (g_thr g) t' = Some p -> settled p.
  Definition good (g : gst) (q : cpaper) : Prop :=
    (exists s, xinv su sole ext m0 g s) /\ cshows g q /\ forall t p, nth_error (g_thr g) t = Some p -> settled p.

  Lemma good_near t g q : good g q -> near t g q.
  Proof.
    intros (Hi & Hs & Ha). split; [exact Hi|]. split; [exact Hs|]. split; [|intros t' p _; apply Ha].
    unfold paced. rewrite Forall_forall. intros p Hp. destruct (In_nth_error _ _ Hp) as [t' E]. specialize (Ha _ _ E).
    destruct p; try exact I; destruct Ha.
  Qed.
  Lemma near_good t g q p : near t g q -> nth_error (g_thr g) t = Some p -> settled p -> good g q.
  Proof.
    intros (Hi & Hs & _ & Ha) Hp Hst. split; [exact Hi|]. split; [exact Hs|]. intros t' p' E. destruct (Nat.eq_dec t' t) as [->|N].
    - congruence.
    - apply (Ha _ _ N E).
  Qed.

  Lemma stepped t g q c P : near t g q -> wlp (cstep su c) g P ->
    exists es g' ms q', cstep su c g = ORet es g' /\ P es g' /\ prun ms q = Some (es, q') /\ (length ms <= 1)%nat /\
      (exists s, xinv su sole ext m0 g' s) /\ cshows g' q' /\ paced (cp_chunks q') (g_thr g').
  Proof.
    intros ((s & Hi) & Hs & Hpa & _) HP.
    pose proof (wp_conj _ _ _ _ (xcstep_ok su Hok sole ext m0 g s c Hi) (xstep_exact su Hok sole ext m0 g s c q Hi Hs Hpa)) as H. apply wp_inv in H.
    destruct H as (es & g' & E & Hi' & ms & q' & Em & _ & L & Hs' & Hpa'). exists es, g', ms, q'.
    split; [exact E|]. split; [apply (HP _ _ E)|]. split; [exact Em|]. split; [exact L|]. split; [exists (sevs es s); exact Hi'|]. auto.
  Qed.

  (** Thread [t] comes to [p']. *)
  Definition lands (t : nat) (g : gst) (P : list event -> pc -> Prop) (es : list event) (g' : gst) : Prop :=
    exists p', g_thr g' = set_nth t p' (g_thr g) /\ P es p'.

  (** A step of thread [t] in a call. *)
  Definition own_step (t : nat) (c : choice) : Prop := match c with Go t' _ | Stale t' _ => t' = t | _ => False end.
  Definition does (K : choice -> Prop) (t : nat) (g : gst) (q : cpaper) (es : list event) (q' : cpaper) : Prop :=
    exists sched g', crun su sched g = ORet es g' /\ good g' q' /\ Forall K sched.

  Lemma does_step (K : choice -> Prop) t g q c es1 es g1 q' q1 : K c -> cstep su c g = ORet es1 g1 -> does K t g1 q1 es q' -> does K t g q (es1 ++ es) q'.
  Proof.
    intros Hc E (sched & g' & E' & Hg & Hf). exists (c :: sched), g'. split; [|split; [exact Hg|constructor; assumption]]. cbn [crun]. unfold bind. rewrite E, E'. reflexivity.
  Qed.
  Lemma does_none K t g q p : near t g q -> nth_error (g_thr g) t = Some p -> settled p -> does K t g q [] q.
  Proof. intros H Hp Hst. exists [], g. split; [reflexivity|]. split; [apply (near_good _ _ _ _ H Hp Hst)|constructor]. Qed.

  Lemma others t g g' p' : g_thr g' = set_nth t p' (g_thr g) ->
    (forall t' p, t' <> t -> nth_error (g_thr g) t' = Some p -> settled p) ->
    forall t' p, t' <> t -> nth_error (g_thr g') t' = Some p -> settled p.
  Proof. intros E H t' p N Hp. rewrite E, nth_set_other in Hp by congruence. apply (H _ _ N Hp). Qed.

  (** A step that does not show. *)
  Lemma quietly (K : choice -> Prop) t g q c p p1 es q' : near t g q -> nth_error (g_thr g) t = Some p -> doing_of p1 = doing_of p ->
    wlp (cstep su c) g (lands t g (fun es p' => es = [] /\ p' = p1)) ->
    (forall g1, near t g1 q -> nth_error (g_thr g1) t = Some p1 -> does K t g1 q es q') -> K c -> does K t g q es q'.
  Proof.
    intros H Hp Ed HP Hk HK. destruct (stepped t g q c _ H HP) as (es1 & g1 & ms & q1 & E & (p' & Et & -> & ->) & Em & L & Hi & Hs & Hpa).
    pose proof H as (_ & Hs0 & _ & Ho).
    assert (q1 = q) as ->.
    { destruct (one_or_none _ _ _ _ Em L) as [[_ X]|[m Em1]]; [exact X|]. exfalso.
      destruct Hs as (_ & _ & _ & Ht). destruct Hs0 as (_ & _ & _ & Ht0).
      assert (Hd : nth_error (cp_thr q) t = Some (doing_of p)) by (rewrite <- Ht0, nth_error_map, Hp; reflexivity).
      assert (Hsame : cp_thr q1 = cp_thr q).
      { rewrite <- Ht, Et, map_set_nth, Ht0, Ed. apply set_nth_same. exact Hd. }
      (* any silent move changes what a thread is doing *)
      clear - Em1 Hsame. destruct m; cbn [cp_step] in Em1.
      - destruct (nth_error (cp_thr q) t) as [[]|]; try discriminate Em1. destruct o as [l z|h off cl|h l|h old new|h old new|keep]; try discriminate Em1.
        + destruct z; [discriminate Em1|]. destruct (req_okb _ _); discriminate Em1.
        + destruct (get h (cp_tab q)); [|discriminate Em1]. destruct (_ && _); discriminate Em1.
        + destruct (get h (cp_tab q)); [|discriminate Em1]. destruct (_ && _); discriminate Em1.
        + destruct (get h (cp_tab q)); [|discriminate Em1]. destruct (_ && _); discriminate Em1.
        + destruct keep; [|discriminate Em1]. destruct (forallb _ _); discriminate Em1.
      - destruct (nth_error (cp_thr q) t) as [[]|]; try discriminate Em1. destruct (_ || _); [discriminate Em1|].
        destruct (wants o); [|discriminate Em1]. destruct (room_in _ _) as [[]|]; discriminate Em1.
      - destruct (nth_error (cp_thr q) t) as [[]|]; try discriminate Em1. destruct o; try discriminate Em1. destruct (existsb _ _); [discriminate Em1|].
        destruct (get h (cp_tab q)); [|discriminate Em1]. destruct (_ && _); [|discriminate Em1]. destruct (room_at _ _ _ _); discriminate Em1.
      - destruct (nth_error (cp_thr q) t) as [[]|]; try discriminate Em1. destruct (existsb _ _); [discriminate Em1|]. destruct o; try discriminate Em1.
        destruct (get h (cp_tab q)); [|discriminate Em1]. destruct (shrinks _); discriminate Em1.
      - destruct (nth_error (cp_thr q) t) as [[]|] eqn:Hd; try discriminate Em1. destruct (_ || _); [discriminate Em1|].
        destruct (wants o); [|discriminate Em1]. destruct (room_in _ _) as [[]|]; [discriminate Em1|]. injection Em1 as <-.
        cbn [cp_thr set_thr] in Hsame. apply (f_equal (fun l => nth_error l t)) in Hsame. rewrite (set_nth_at _ _ _ _ Hd), Hd in Hsame. discriminate Hsame.
      - destruct (nth_error (cp_thr q) t) as [[]|] eqn:Hd; try discriminate Em1. destruct (existsb _ _); [discriminate Em1|].
        destruct (wants o) as [l|]; [|discriminate Em1]. destruct (fresh _ _ _ _ _) as [[a ks] tr]. destruct a as [a|]; [|discriminate Em1].
        unfold granted in Em1. destruct o; try discriminate Em1. injection Em1 as <-.
        cbn [cp_thr set_thr] in Hsame. apply (f_equal (fun l => nth_error l t)) in Hsame. rewrite (set_nth_at _ _ _ _ Hd), Hd in Hsame. discriminate Hsame.
      - destruct (nth_error (cp_thr q) t) as [[]|]; discriminate Em1.
      - destruct (nth_error (cp_thr q) t) as [[]|]; discriminate Em1.
      - destruct (forallb _ _); discriminate Em1. }
    apply (does_step K t g q c [] es g1 q' q HK E). apply Hk.
    - split; [exact Hi|]. split; [exact Hs|]. split; [exact Hpa|]. apply (others t g g1 p1 Et Ho).
    - rewrite Et. apply (nth_set_same _ _ _ _ Hp).
  Qed.

  (** The step that makes the move [m]. *)
  Lemma moved t g q c p P m es q' : near t g q -> nth_error (g_thr g) t = Some p ->
    wlp (cstep su c) g (lands t g P) ->
    (forall es1 p1, P es1 p1 -> events_of t es1 /\ (es1 <> [] \/ doing_of p1 <> doing_of p) /\ guess t (doing_of p) es1 = m) ->
    pstep m q = Some (es, q') ->
    exists g1 p1, cstep su c g = ORet es g1 /\ P es p1 /\ near t g1 q' /\ nth_error (g_thr g1) t = Some p1.
  Proof.
    intros H Hp HP Hc Em. destruct (stepped t g q c _ H HP) as (es1 & g1 & ms & q1 & E & (p' & Et & Hp1) & Er & L & Hi & Hs & Hpa).
    pose proof H as (_ & (_ & _ & _ & Ht0) & _ & Ho). pose proof Hs as (_ & _ & _ & Ht).
    destruct (Hc _ _ Hp1) as (He & Hne & Hgu).
    assert (Hd : nth_error (cp_thr q) t = Some (doing_of p)) by (rewrite <- Ht0, nth_error_map, Hp; reflexivity).
    assert (Hset : cp_thr q1 = set_nth t (doing_of p') (cp_thr q)) by (rewrite <- Ht, Et, map_set_nth, Ht0; reflexivity).
    assert (X : pstep m q = Some (es1, q1)).
    { destruct (one_or_none _ _ _ _ Er L) as [[X1 X2]|[m1 Em1]].
      - exfalso. subst q1. destruct Hne as [X|X]; [apply X, X1|]. apply X.
        apply (f_equal (fun l => nth_error l t)) in Hset. rewrite (set_nth_at _ _ _ _ Hd), Hd in Hset. congruence.
      - rewrite <- Hgu, <- (pinned t _ _ _ _ _ _ Em1 Hd Hset He Hne). exact Em1. }
    rewrite Em in X. injection X as <- <-. exists g1, p'. split; [exact E|]. split; [exact Hp1|]. split.
    - split; [exact Hi|]. split; [exact Hs|]. split; [exact Hpa|]. apply (others t g g1 p' Et Ho).
    - rewrite Et. apply (nth_set_same _ _ _ _ Hp).
  Qed.
  Lemma moving (K : choice -> Prop) t g q c p P m es q' : near t g q -> nth_error (g_thr g) t = Some p ->
    wlp (cstep su c) g (lands t g P) ->
    (forall es1 p1, P es1 p1 -> events_of t es1 /\ (es1 <> [] \/ doing_of p1 <> doing_of p) /\ guess t (doing_of p) es1 = m) ->
    pstep m q = Some (es, q') ->
    (forall g1 p1, P es p1 -> near t g1 q' -> nth_error (g_thr g1) t = Some p1 -> does K t g1 q' [] q') -> K c -> does K t g q es q'.
  Proof.
    intros H Hp HP Hc Em Hk HK. destruct (moved t g q c p P m es q' H Hp HP Hc Em) as (g1 & p1 & E & Hp1 & H1 & Ht1).
    rewrite <- (app_nil_r es). apply (does_step K t g q c es [] g1 q' q' HK E). apply (Hk g1 p1 Hp1 H1 Ht1).
  Qed.

  (** ** Where the steps lead *)
  Lemma view t g q p : near t g q -> nth_error (g_thr g) t = Some p ->
    exists cs, cp_chunks q = bumps cs /\ cp_tab q = g_tab g /\ ar_root (fst (g_aw g)) = head_ptr cs /\
      arep (su_amax su) A (base_own (su_amax su) (su_bmax su)) ext cs (fst (g_aw g)) (snd (g_aw g)) (live (g_tab g) ++ flat_map hold (g_thr g)) /\
      pc_ok su cs (g_tab g) (bw_mem (snd (g_aw g))) p /\ lock_ok (g_lock g) (g_thr g).
  Proof.
    intros ((s & cs & C) & Hs & _) Hp. exists cs. pose proof (xpage_eq su Hok sole ext m0 cs g s q C Hs) as ->.
    pose proof C as (R & _ & _ & _ & Hlk & Hpc & _). split; [reflexivity|]. split; [reflexivity|]. split; [apply (ar_head _ _ _ _ _ _ _ _ R)|].
    split; [exact R|]. split; [apply (Hpc _ _ Hp)|exact Hlk].
  Qed.

  Lemma pure_w {B C} (m : M bworld B) (f : B -> M gst C) b g Q : m (snd (g_aw g)) = ORet b (snd (g_aw g)) ->
    wlp (f b) g Q -> wlp (bind (on_w m) f) g Q.
  Proof.
    intros E H. apply wlp_on_w. intros b' w' E'. rewrite E in E'. injection E' as <- <-.
    destruct g as [tab thr k [ar w]]. exact H.
  Qed.
  Lemma word_w {C} a v (f : Z -> M gst C) g Q : load (bw_mem (snd (g_aw g))) a 8 = Some v -> wlp (f v) g Q -> wlp (bind (on_w (mload A a 8)) f) g Q.
  Proof. intros E. apply pure_w. apply mload_eq. exact E. Qed.

  Lemma go_lands t g p sp Q : nth_error (g_thr g) t = Some p -> wlp (go su t p sp) g Q -> wlp (cstep su (Go t sp)) g Q.
  Proof. intros Hp H. unfold cstep. apply wlp_get. rewrite Hp. exact H. Qed.

  Definition lin (t : nat) (es : list event) (p : pc) : Prop := (exists o r, es = [Lin t o r]) /\ exists wr h, p = Unlock wr None h.

  Lemma become_lands t p' es0 (P : list event -> pc -> Prop) g g0 : g_thr g = g_thr g0 -> P es0 p' ->
    wlp (become t p' ;;; ret es0) g (lands t g0 P).
  Proof. intros Et H es g' E. inversion E; subst. exists p'. cbn. rewrite Et. auto. Qed.
  Lemma finish_lands t j wr r (P : list event -> pc -> Prop) g g0 : g_thr g = g_thr g0 -> (forall es p, lin t es p -> P es p) ->
    wlp (finish t j wr r) g (lands t g0 P).
  Proof.
    intros Et H es g' E. rewrite finish_eq in E. inversion E; subst. eexists. cbn. rewrite Et. split; [reflexivity|]. apply H.
    split; eauto.
  Qed.
  Lemma bump_lands t m (P : list event -> pc -> Prop) g g0 : wlp m g (lands t g0 (fun es p => P (Bump t :: es) p)) ->
    wlp (ev <- m ;; ret (Bump t :: ev)) g (lands t g0 P).
  Proof. intros H. apply wlp_bind. intros es g' E. apply wlp_ret. destruct (H _ _ E) as (p' & E1 & E2). exists p'. auto. Qed.

  Definition enters (t : nat) (ks : list pchunk) (j : job) (es : list event) (p : pc) : Prop :=
    match ks, j with
    | [], JDealloc _ _ _ => lin t es p
    | [], _ => es = [] /\ p = Unlock false (Some j) (job_handle j)
    | k :: _, JAlloc _ => es = [] /\ p = Load j (p_at k)
    | k :: _, JDealloc _ _ _ => es = [] /\ p = FreeCas j (p_at k)
    | k :: _, JResize _ _ old new =>
        if l_align new <=? l_align old then
          if l_size new <=? l_size old then lin t es p else es = [] /\ p = TipLoad j (p_at k)
        else es = [] /\ p = Load j (p_at k)
    end.
  Lemma land_enter t g q j : near t g q -> nth_error (g_thr g) t = Some (WantRead j) -> lk_writer (g_lock g) = None ->
    wlp (cstep su (Go t false)) g (lands t g (fun es p => enters t (cp_chunks q) j es p)).
  Proof.
    intros H Hp Hw. destruct (view t g q _ H Hp) as (cs & -> & _ & Er & _). apply (go_lands t g _ _ _ Hp). cbn [go].
    apply wlp_get. rewrite Hw. apply wlp_put_lock. rewrite Er. unfold enter, enters. destruct cs as [|c cs]; cbn [head_ptr bumps map].
    - destruct j; [apply become_lands|apply become_lands|apply finish_lands]; auto.
    - destruct j; [apply become_lands; auto| |apply become_lands; auto].
      destruct (_ <=? _); [|apply become_lands; auto]. destruct (_ <=? _); [apply finish_lands|apply become_lands]; auto.
  Qed.

  Lemma land_load t g q j r k older : near t g q -> nth_error (g_thr g) t = Some (Load j r) -> cp_chunks q = k :: older ->
    wlp (cstep su (Go t false)) g (lands t g (fun es p => es = [] /\ p = Cas j r (p_free k))).
  Proof.
    intros H Hp Ek. destruct (view t g q _ H Hp) as (cs & E & _ & _ & R & (_ & _ & Hr) & _).
    destruct (xheader_of su Hok ext _ _ _ _ _ R Hr) as (c & cs0 & -> & -> & L1 & _). rewrite E in Ek. injection Ek as <- _.
    apply (go_lands t g _ _ _ Hp). cbn [go]. apply (word_w _ _ _ _ _ L1). apply become_lands; auto.
  Qed.

  Definition took (t : nat) (j : job) (es : list event) (p : pc) : Prop :=
    match j with
    | JAlloc _ => exists es1, es = Bump t :: es1 /\ lin t es1 p
    | _ => es = [Bump t] /\ exists b, p = Copy j b 0 false
    end.
  Lemma land_cas t g q j r k older : near t g q -> nth_error (g_thr g) t = Some (Cas j r (p_free k)) -> cp_chunks q = k :: older ->
    wlp (cstep su (Go t false)) g (lands t g (fun es p =>
      if room (p_free k) (p_end k) (job_layout j) then took t j es p else es = [] /\ p = Unlock false (Some j) (job_handle j))).
  Proof.
    intros H Hp Ek. destruct (view t g q _ H Hp) as (cs & E & _ & _ & R & (Hj & Tj & Hc & Hr) & _).
    destruct (xheader_of su Hok ext _ _ _ _ _ R Hr) as (c & cs0 & -> & -> & L1 & L2 & P & B & Hend). rewrite E in Ek. injection Ek as <- _.
    assert (Hl : req_ok (su_smax su) (job_layout j)).
    { destruct j; cbn in Hj |- *; [exact Hj|tauto|contradiction]. }
    pose proof (su_smax_ok su Hok) as Hs. pose proof (su_amax_ok su Hok) as Hamax.
    apply (go_lands t g _ _ _ Hp). cbn [go]. apply (word_w _ _ _ _ _ L2).
    eapply pure_w; [apply (alloc_attempt_eq dbg _ _ _ (su_smax su)); auto; lia|].
    change (p_end (bump c)) with (c_end c). change (p_free (bump c)) with (c_cur c) in *.
    destruct (room (c_cur c) (c_end c) (job_layout j)); [|unfold retry; apply become_lands; auto].
    apply (word_w _ _ _ _ _ L1). rewrite Z.eqb_refl. cbn [negb andb].
    apply wlp_on_w. intros [] w' _.
    apply wlp_bind. intros len g1 E1. apply pure_sub in E1. subst g1.
    apply wlp_bind. intros ? g1 E1. apply pure_assert in E1. subst g1.
    apply wlp_bind. intros ? g1 E1. apply pure_assert in E1. subst g1.
    apply bump_lands. unfold allocated, took. destruct j as [l|h u old new|h u l]; [| |contradiction].
    - apply finish_lands; [reflexivity|]. eauto.
    - apply become_lands; [reflexivity|]. eauto.
  Qed.

  Lemma land_tip t g q h u old new r k older : near t g q -> nth_error (g_thr g) t = Some (TipLoad (JResize h u old new) r) ->
    cp_chunks q = k :: older ->
    wlp (cstep su (Go t false)) g (lands t g (fun es p => es = [] /\
      p = if p_free k =? u_ptr u + l_size old
          then if u_ptr u + l_size new <=? p_end k then TipCas (JResize h u old new) r (p_free k)
               else Unlock false (Some (JResize h u old new)) (Some h)
          else Load (JResize h u old new) r)).
  Proof.
    intros H Hp Ek. destruct (view t g q _ H Hp) as (cs & E & _ & _ & R & (Hj & Hr & _) & _).
    destruct (xheader_of su Hok ext _ _ _ _ _ R Hr) as (c & cs0 & -> & -> & L1 & L2 & P & B & Hend). rewrite E in Ek. injection Ek as <- _.
    pose proof (su_amax_ok su Hok) as Hamax.
    apply (go_lands t g _ _ _ Hp). cbn [go]. change (p_end (bump c)) with (c_end c). change (p_free (bump c)) with (c_cur c).
    apply wlp_bind. intros oe g1 E1. apply pure_ptr_add in E1. destruct E1 as [-> ->].
    apply (word_w _ _ _ _ _ L1). destruct (c_cur c =? u_ptr u + l_size old); [|apply become_lands; auto].
    unfold checked_add. destruct (Z.leb_spec (u_ptr u + l_size new) USIZE_MAX) as [Lu|Lu].
    - apply (word_w _ _ _ _ _ L2). destruct (Z.leb_spec (u_ptr u + l_size new) (c_end c)) as [L|L].
      + replace (c_end c <? u_ptr u + l_size new) with false by lia. apply become_lands; auto.
      + replace (c_end c <? u_ptr u + l_size new) with true by lia. unfold retry. apply become_lands; auto.
    - replace (u_ptr u + l_size new <=? c_end c) with false by lia. unfold retry. apply become_lands; auto.
  Qed.

  Lemma land_old t g q h u old new r k older : near t g q -> nth_error (g_thr g) t = Some (TipLoad (JResize h u old new) r) ->
    cp_chunks q = k :: older -> p_at k + HDR <> u_ptr u + l_size old ->
    wlp (cstep su (Stale t (p_at k + HDR))) g (lands t g (fun es p => es = [] /\ p = Load (JResize h u old new) r)).
  Proof.
    intros H Hp Ek N. destruct (view t g q _ H Hp) as (cs & E & _ & _ & R & (Hj & Hr & _) & _).
    destruct (xheader_of su Hok ext _ _ _ _ _ R Hr) as (c & cs0 & -> & -> & L1 & L2 & P & B & Hend). rewrite E in Ek. injection Ek as <- _.
    unfold cstep. apply wlp_get. rewrite Hp. cbn [stale]. change (p_at (bump c)) with (c_ptr c) in *.
    apply wlp_bind. intros oe g1 E1. apply pure_ptr_add in E1. destruct E1 as [-> ->].
    apply wlp_bind. unfold old_value. apply (word_w _ _ _ _ _ L1). apply wlp_ret.
    unfold c_base in B. replace ((c_ptr c + HDR <=? c_ptr c + HDR) && (c_ptr c + HDR <=? c_cur c)) with true by lia.
    replace (c_ptr c + HDR =? u_ptr u + l_size old) with false by lia. apply become_lands; auto.
  Qed.

  Lemma land_tipcas t g q h u old new r k older : near t g q -> nth_error (g_thr g) t = Some (TipCas (JResize h u old new) r (p_free k)) ->
    cp_chunks q = k :: older ->
    wlp (cstep su (Go t false)) g (lands t g (fun es p => exists es1, es = Bump t :: es1 /\ lin t es1 p)).
  Proof.
    intros H Hp Ek. destruct (view t g q _ H Hp) as (cs & E & _ & _ & R & (Hj & _ & _ & _ & e & Hr & _) & _).
    destruct (xheader_of su Hok ext _ _ _ _ r R (ex_intro _ e Hr)) as (c & cs0 & -> & -> & L1 & L2 & P & B & Hend). rewrite E in Ek. injection Ek as <- _.
    apply (go_lands t g _ _ _ Hp). cbn [go]. change (p_free (bump c)) with (c_cur c).
    apply wlp_bind. intros oe g1 E1. apply pure_ptr_add in E1. destruct E1 as [-> ->].
    apply (word_w _ _ _ _ _ L1). rewrite Z.eqb_refl. apply wlp_on_w. intros [] w' _.
    apply wlp_bind. intros len g1 E1. apply pure_sub in E1. subst g1.
    apply wlp_bind. intros ? g1 E1. apply pure_assert in E1. subst g1.
    apply bump_lands. apply finish_lands; [reflexivity|]. eauto.
  Qed.

  Lemma land_free t g j r : nth_error (g_thr g) t = Some (FreeCas j r) -> wlp (cstep su (Go t false)) g (lands t g (lin t)).
  Proof.
    intros Hp. apply (go_lands t g _ _ _ Hp). cbn [go]. destruct j; try apply wlp_ub.
    apply wlp_on_w. intros [] w' _. apply finish_lands; auto.
  Qed.
  Lemma land_unlock t g wr n h : nth_error (g_thr g) t = Some (Unlock wr n h) ->
    wlp (cstep su (Go t false)) g (lands t g (fun es p =>
      match n with Some j => es = [] /\ p = WantWrite j | None => es = [Return t] /\ p = Idle end)).
  Proof.
    intros Hp. apply (go_lands t g _ _ _ Hp). cbn [go]. apply wlp_get, wlp_put_lock. destruct n; apply become_lands; auto.
  Qed.
  Lemma land_want t g j : nth_error (g_thr g) t = Some (WantWrite j) -> lk_writer (g_lock g) = None -> lk_readers (g_lock g) = [] ->
    wlp (cstep su (Go t false)) g (lands t g (fun es p => es = [] /\ p = Slow j)).
  Proof.
    intros Hp H1 H2. apply (go_lands t g _ _ _ Hp). cbn [go]. apply wlp_get. rewrite H1, H2. apply wlp_put_lock. apply become_lands; auto.
  Qed.
  Lemma land_slow t g j : nth_error (g_thr g) t = Some (Slow j) ->
    wlp (cstep su (Go t false)) g (lands t g (fun es p => lin t es p \/ es = [] /\ exists b, p = Copy j b 0 true)).
  Proof.
    intros Hp. apply (go_lands t g _ _ _ Hp). cbn [go]. apply wlp_bind. intros r g1 E. unfold on_aw in E.
    destruct (arena_alloc_slow A dbg (job_layout j) (g_aw g)); try discriminate. inversion E; subst; clear E.
    destruct r as [b|]; [|apply finish_lands; auto]. unfold allocated. destruct j; try (apply finish_lands; auto). apply become_lands; eauto.
  Qed.
  Lemma land_copy t g h u old new b i wr : nth_error (g_thr g) t = Some (Copy (JResize h u old new) b i wr) ->
    wlp (cstep su (Go t false)) g (lands t g (fun es p =>
      if i <? Z.min (l_size new) (l_size old) then es = [] /\ p = Copy (JResize h u old new) b (i + 1) wr else lin t es p)).
  Proof.
    intros Hp. apply (go_lands t g _ _ _ Hp). cbn [go]. cbv zeta. destruct (negb _); [apply wlp_ub|].
    destruct (i <? _); [|apply finish_lands; auto]. apply wlp_on_w. intros [] w' _. apply become_lands; auto.
  Qed.

  (** ** The lock between two moves *)
  Lemma no_alone_writer g q : good g q -> existsb alone (cp_thr q) = false -> lk_writer (g_lock g) = None.
  Proof.
    intros ((s & cs & C) & (_ & _ & _ & Ht) & Ha) Hn. pose proof C as (_ & _ & _ & _ & (_ & L2 & _) & _).
    destruct (lk_writer (g_lock g)) as [t|] eqn:E; [|reflexivity]. destruct (proj1 (L2 t) eq_refl) as (p & Hp & Hw). exfalso.
    specialize (Ha t p Hp). assert (X : existsb alone (cp_thr q) = true); [|congruence].
    rewrite <- Ht. apply existsb_exists. exists (doing_of p). split; [apply in_map, (nth_error_In _ _ Hp)|].
    destruct p; try discriminate Hw; try destruct Ha; [exact Hw|]. destruct next; [destruct Ha|exact Hw].
  Qed.
  Lemma nobody_in g q : good g q -> existsb has_got (cp_thr q) = false -> lk_writer (g_lock g) = None /\ lk_readers (g_lock g) = [].
  Proof.
    intros Hg Hn. assert (Hw : lk_writer (g_lock g) = None).
    { apply (no_alone_writer g q Hg). destruct (existsb alone (cp_thr q)) eqn:E; [|reflexivity]. exfalso.
      apply existsb_exists in E. destruct E as (d & Hin & Hd). assert (X : existsb has_got (cp_thr q) = true); [|congruence].
      apply existsb_exists. exists d. split; [exact Hin|]. destruct d; try discriminate Hd; reflexivity. }
    split; [exact Hw|]. destruct Hg as ((s & cs & C) & (_ & _ & _ & Ht) & Ha). pose proof C as (_ & _ & _ & _ & (L1 & _) & _).
    destruct (lk_readers (g_lock g)) as [|t rs]; [reflexivity|]. destruct (proj1 (L1 t) (or_introl eq_refl)) as (p & Hp & Hr). exfalso.
    specialize (Ha t p Hp). assert (X : existsb has_got (cp_thr q) = true); [|congruence].
    rewrite <- Ht. apply existsb_exists. exists (doing_of p). split; [apply in_map, (nth_error_In _ _ Hp)|].
    destruct p; try discriminate Hr; try destruct Ha; [reflexivity|]. destruct next; [destruct Ha|reflexivity].
  Qed.

  (** ** The moves *)
  Lemma lin_pins t j es p : lin t es p -> events_of t es /\ (es <> [] \/ doing_of p <> doing_of (WantRead j)).
  Proof. intros ((o & r & ->) & _). split; [constructor; [reflexivity|constructor]|left; discriminate]. Qed.
  Lemma lin_ends t g q es p : lin t es p -> near t g q -> nth_error (g_thr g) t = Some p -> does (own_step t) t g q [] q.
  Proof. intros (_ & wr & h & ->) H Hp. apply (does_none _ t g q _ H Hp). exact I. Qed.
  Lemma retreats t g q j wr h : near t g q -> nth_error (g_thr g) t = Some (Unlock wr (Some j) h) -> does (own_step t) t g q [] q.
  Proof.
    intros H Hp. apply (quietly _ t g q (Go t false) _ (WantWrite j) [] q H Hp eq_refl (land_unlock t g wr (Some j) h Hp)); [|exact eq_refl].
    intros g1 H1 Hp1. apply (does_none _ t g1 q _ H1 Hp1). exact I.
  Qed.

  Lemma to_load t g q j k older es q' : near t g q -> nth_error (g_thr g) t = Some (WantRead j) -> lk_writer (g_lock g) = None ->
    cp_chunks q = k :: older -> takes j -> shrinks (job_op j) = false -> must_grow (cp_chunks q) (cp_tab q) (job_op j) = false ->
    match j with
    | JResize _ u old new => l_align new <= l_align old -> p_free k = u_ptr u + l_size old -> u_ptr u + l_size new <= p_end k
    | _ => True
    end ->
    (forall g1 r, near t g1 q -> nth_error (g_thr g1) t = Some (Load j r) -> does (own_step t) t g1 q es q') -> does (own_step t) t g q es q'.
  Proof.
    intros H Hp Hw Ek Tj Hs Hmg Hroom Hk. destruct (view t g q _ H Hp) as (cs & _ & Etab & _ & _ & Hj & _).
    pose proof (land_enter t g q j H Hp Hw) as Hl. rewrite Ek in Hl.
    destruct j as [l|h u old new|h u l]; cbn [enters] in Hl; [| |contradiction].
    - apply (quietly _ t g q _ _ _ es q' H Hp) with (2 := Hl); [reflexivity| |exact eq_refl]. intros g1 H1 Hp1. apply (Hk _ _ H1 Hp1).
    - destruct (Z.leb_spec (l_align new) (l_align old)) as [La|La].
      2: { apply (quietly _ t g q _ _ _ es q' H Hp) with (2 := Hl); [reflexivity| |exact eq_refl]. intros g1 H1 Hp1. apply (Hk _ _ H1 Hp1). }
      destruct (Z.leb_spec (l_size new) (l_size old)) as [Ls|Ls]; [cbn in Hs; lia|].
      apply (quietly _ t g q _ _ _ es q' H Hp) with (2 := Hl); [reflexivity| |exact eq_refl]. intros g1 H1 Hp1.
      destruct (Z.eqb_spec (p_free k) (u_ptr u + l_size old)) as [E|E].
      + assert (N : p_at k + HDR <> u_ptr u + l_size old).
        { intros E2. destruct Hj as (G & _). rewrite Ek, Etab in Hmg. cbn [job_op must_grow room_at] in Hmg. rewrite G in Hmg.
          specialize (Hroom La E). replace (l_align new <=? l_align old) with true in Hmg by lia.
          replace (p_free k =? p_at k + HDR) with true in Hmg by lia.
          replace ((p_free k =? u_ptr u + l_size old) && (u_ptr u + l_size new <=? p_end k)) with true in Hmg by lia. discriminate Hmg. }
        apply (quietly _ t g1 q _ _ _ es q' H1 Hp1) with (2 := land_old t g1 q h u old new _ k older H1 Hp1 Ek N); [reflexivity| |exact eq_refl].
        intros g2 H2 Hp2. apply (Hk _ _ H2 Hp2).
      + pose proof (land_tip t g1 q h u old new _ k older H1 Hp1 Ek) as Hl1.
        replace (p_free k =? u_ptr u + l_size old) with false in Hl1 by lia.
        apply (quietly _ t g1 q _ _ _ es q' H1 Hp1) with (2 := Hl1); [reflexivity| |exact eq_refl].
        intros g2 H2 Hp2. apply (Hk _ _ H2 Hp2).
  Qed.
  Lemma to_cas t g q j r k older es q' : near t g q -> nth_error (g_thr g) t = Some (Load j r) -> cp_chunks q = k :: older ->
    (forall g1, near t g1 q -> nth_error (g_thr g1) t = Some (Cas j r (p_free k)) -> does (own_step t) t g1 q es q') -> does (own_step t) t g q es q'.
  Proof.
    intros H Hp Ek Hk. apply (quietly _ t g q _ _ _ es q' H Hp) with (2 := land_load t g q j r k older H Hp Ek); [reflexivity|exact Hk|exact eq_refl].
  Qed.

  Lemma at_thread t g q d : good g q -> nth_error (cp_thr q) t = Some d ->
    exists p, nth_error (g_thr g) t = Some p /\ doing_of p = d /\ settled p.
  Proof.
    intros (_ & (_ & _ & _ & Ht) & Ha) Hd. rewrite <- Ht, nth_error_map in Hd.
    destruct (nth_error (g_thr g) t) as [p|] eqn:E; [|discriminate Hd]. injection Hd as <-. exists p. split; [reflexivity|]. split; [reflexivity|].
    apply (Ha _ _ E).
  Qed.
  Lemma at_asked t g q o : good g q -> nth_error (cp_thr q) t = Some (DAsked o) ->
    exists j, nth_error (g_thr g) t = Some (WantRead j) /\ job_op j = o.
  Proof.
    intros Hg Hd. destruct (at_thread t g q _ Hg Hd) as (p & Hp & E & Hst).
    destruct p; try discriminate E; try destruct Hst; [|destruct next; discriminate E].
    injection E as <-. exists j. auto.
  Qed.

  (** A resize with room in the newest chunk has room where it is, if it is the last. *)
  Lemma tip_room k l p old : room (p_free k) (p_end k) l = true -> 0 < l_align l -> 0 <= old -> p_free k = p + old -> p + l_size l <= p_end k.
  Proof.
    unfold room. intros H Hp Ho E. pose proof (round_up_spec (p_free k) (l_align l) Hp) as [B _].
    apply andb_true_iff in H. destruct H as [_ H]. lia.
  Qed.

  Lemma take_happens t g q es q' : good g q -> pstep (MTake t) q = Some (es, q') -> does (own_step t) t g q es q'.
  Proof.
    intros Hg Em. pose proof (good_near t g q Hg) as H. pose proof Em as E. cbn [cp_step] in E.
    destruct (nth_error (cp_thr q) t) as [d|] eqn:Hd; [|discriminate E]. destruct d; try discriminate E.
    destruct (shrinks o) eqn:Hs; [discriminate E|]. destruct (must_grow _ _ _) eqn:Hmg; [discriminate E|].
    destruct (existsb alone (cp_thr q)) eqn:Hal; [discriminate E|]. cbn [orb] in E.
    destruct (wants o) as [l|] eqn:Hwa; [|discriminate E]. destruct (room_in (cp_chunks q) l) as [[a ks]|] eqn:Er; [|discriminate E]. clear E.
    destruct (at_asked t g q o Hg Hd) as (j & Hp & <-).
    assert (Tj : takes j) by (destruct j; [exact I|exact I|discriminate Hwa]).
    rewrite (wants_job j Tj) in Hwa. injection Hwa as <-.
    destruct (cp_chunks q) as [|k older] eqn:Ek; [discriminate Er|].
    destruct (view t g q _ H Hp) as (cs & _ & Etab & _ & R & Hj & _). cbn [pc_ok] in Hj.
    assert (Rm : room (p_free k) (p_end k) (job_layout j) = true).
    { unfold room_in in Er. unfold room. change (round_up (p_free k) (l_align (job_layout j))) with (least_multiple (p_free k) (l_align (job_layout j))).
      destruct (_ && _) eqn:E in Er; [|discriminate Er]. exact E. }
    apply (to_load t g q j k older es q' H Hp (no_alone_writer g q Hg Hal) Ek Tj Hs); [rewrite Ek; exact Hmg| |].
    { destruct j as [l0|h u old new|h u l0]; auto. intros _ E. destruct Hj as (G & (F1 & F2) & Hn).
      assert (Hu : u_ok (su_amax su) u).
      { pose proof (ar_ok _ _ _ _ _ _ _ _ R) as Ho. rewrite Forall_forall in Ho. apply Ho.
        apply in_or_app. left. apply live_in. eauto. }
      pose proof Hu as ((G1 & G2 & G3 & G4) & _ & G5). cbn in G1, G2, G3, G4.
      destruct (req_ok_facts _ _ Hn) as (kk & _ & _ & Hpos & _).
      apply (tip_room k new (u_ptr u) (l_size old) Rm Hpos); [lia|exact E]. }
    intros g1 r H1 Hp1. apply (to_cas t g1 q j r k older es q' H1 Hp1 Ek). intros g2 H2 Hp2.
    pose proof (land_cas t g2 q j r k older H2 Hp2 Ek) as Hl. rewrite Rm in Hl.
    apply (moving _ t g2 q (Go t false) _ _ (MTake t) es q' H2 Hp2 Hl); [|exact Em| |exact eq_refl].
    - intros es1 p1. unfold took. destruct j as [l|h u old new|h u l]; [| |contradiction].
      + intros (es2 & -> & (o & rr & ->) & _). split; [constructor; [reflexivity|constructor; [reflexivity|constructor]]|]. split; [left; discriminate|reflexivity].
      + intros (-> & _). split; [constructor; [reflexivity|constructor]|]. split; [left; discriminate|reflexivity].
    - intros g3 p1. unfold took. destruct j as [l|h u old new|h u l]; [| |contradiction].
      + intros (es2 & _ & L) H3 Hp3. apply (lin_ends t g3 q' _ _ L H3 Hp3).
      + intros (_ & b & ->) H3 Hp3. apply (does_none _ t g3 q' _ H3 Hp3). exact I.
  Qed.

  Lemma grow_happens t g q es q' : good g q -> pstep (MGrow t) q = Some (es, q') -> does (own_step t) t g q es q'.
  Proof.
    intros Hg Em. pose proof (good_near t g q Hg) as H. pose proof Em as E. cbn [cp_step] in E.
    destruct (nth_error (cp_thr q) t) as [d|] eqn:Hd; [|discriminate E]. destruct d; try discriminate E. destruct o; try discriminate E.
    destruct (existsb alone (cp_thr q)) eqn:Hal; [discriminate E|].
    destruct (get h (cp_tab q)) as [u|] eqn:G; [|discriminate E]. destruct (_ && _) eqn:Hc; [|discriminate E].
    destruct (room_at (cp_chunks q) (u_ptr u) old new) as [ks|] eqn:Er; [|discriminate E]. clear E.
    destruct (at_asked t g q _ Hg Hd) as (j & Hp & Ej). destruct j as [l0|h0 u0 old0 new0|h0 u0 l0]; try discriminate Ej. injection Ej as -> -> ->.
    destruct (view t g q _ H Hp) as (cs & _ & Etab & _ & R & (G0 & _) & _). rewrite Etab in G. assert (u0 = u) as -> by congruence.
    destruct (cp_chunks q) as [|k older] eqn:Ek; [discriminate Er|].
    unfold room_at in Er. destruct (_ && _) eqn:Ht in Er; [|discriminate Er]. clear Er.
    pose proof (land_enter t g q _ H Hp (no_alone_writer g q Hg Hal)) as Hl. rewrite Ek in Hl. cbn [enters] in Hl.
    replace (l_align new <=? l_align old) with true in Hl by lia. replace (l_size new <=? l_size old) with false in Hl by lia.
    apply (quietly _ t g q _ _ _ es q' H Hp) with (2 := Hl); [reflexivity| |exact eq_refl]. intros g1 H1 Hp1.
    pose proof (land_tip t g1 q h u old new _ k older H1 Hp1 Ek) as Hl1.
    replace (p_free k =? u_ptr u + l_size old) with true in Hl1 by lia. replace (u_ptr u + l_size new <=? p_end k) with true in Hl1 by lia.
    apply (quietly _ t g1 q _ _ _ es q' H1 Hp1) with (2 := Hl1); [reflexivity| |exact eq_refl]. intros g2 H2 Hp2.
    apply (moving _ t g2 q (Go t false) _ _ (MGrow t) es q' H2 Hp2 (land_tipcas t g2 q h u old new _ k older H2 Hp2 Ek)); [|exact Em| |exact eq_refl].
    - intros es1 p1 (es2 & -> & (o & rr & ->) & _). split; [constructor; [reflexivity|constructor; [reflexivity|constructor]]|]. split; [left; discriminate|reflexivity].
    - intros g3 p1 (es2 & _ & L) H3 Hp3. apply (lin_ends t g3 q' _ _ L H3 Hp3).
  Qed.

  Lemma stay_happens t g q es q' : good g q -> pstep (MStay t) q = Some (es, q') -> does (own_step t) t g q es q'.
  Proof.
    intros Hg Em. pose proof (good_near t g q Hg) as H. pose proof Em as E. cbn [cp_step] in E.
    destruct (nth_error (cp_thr q) t) as [d|] eqn:Hd; [|discriminate E]. destruct d; try discriminate E.
    destruct (existsb alone (cp_thr q)) eqn:Hal; [discriminate E|].
    destruct (at_asked t g q _ Hg Hd) as (j & Hp & Ej). pose proof (no_alone_writer g q Hg Hal) as Hw.
    pose proof (land_enter t g q _ H Hp Hw) as Hl. destruct (view t g q _ H Hp) as (cs & Ec & Etab & _ & R & Hj & _).
    destruct o; try discriminate E.
    - destruct j as [l0|h0 u0 old0 new0|h0 u0 l0]; try discriminate Ej. injection Ej as -> ->.
      assert (Hlin : forall g1 p, near t g1 q -> nth_error (g_thr g1) t = Some p -> doing_of p = DAsked (OpDealloc h l) ->
                wlp (cstep su (Go t false)) g1 (lands t g1 (lin t)) -> does (own_step t) t g1 q es q').
      { intros g1 p H1 Hp1 Ed Hl1. apply (moving _ t g1 q (Go t false) _ _ (MStay t) es q' H1 Hp1 Hl1); [|exact Em| |exact eq_refl].
        - intros es1 p1 ((o & rr & ->) & _). split; [constructor; [reflexivity|constructor]|]. split; [left; discriminate|]. rewrite Ed. reflexivity.
        - intros g2 p1 L H2 Hp2. apply (lin_ends t g2 q' _ _ L H2 Hp2). }
      destruct (cp_chunks q) as [|k older] eqn:Ek; cbn [enters] in Hl; [apply (Hlin g _ H Hp eq_refl Hl)|].
      apply (quietly _ t g q _ _ _ es q' H Hp) with (2 := Hl); [reflexivity| |exact eq_refl]. intros g1 H1 Hp1.
      apply (Hlin g1 _ H1 Hp1 eq_refl (land_free t g1 _ _ Hp1)).
    - destruct (get h (cp_tab q)) as [u|] eqn:G; [|discriminate E]. destruct (shrinks _) eqn:Hs; [|discriminate E].
      destruct j as [l0|h0 u0 old0 new0|h0 u0 l0]; try discriminate Ej. injection Ej as -> -> ->. cbn in Hs.
      destruct (cp_chunks q) as [|k older] eqn:Ek.
      { exfalso. destruct cs; [|discriminate Ec]. destruct Hj as (G0 & _). pose proof (ar_placed _ _ _ _ _ _ _ _ R) as P. unfold placed in P.
        rewrite Forall_forall in P. destruct (P u0) as (c & [] & _). apply in_or_app. left. apply live_in. eauto. }
      cbn [enters] in Hl. replace (l_align new <=? l_align old) with true in Hl by lia. replace (l_size new <=? l_size old) with true in Hl by lia.
      apply (moving _ t g q (Go t false) _ _ (MStay t) es q' H Hp Hl); [|exact Em| |exact eq_refl].
      + intros es1 p1 ((o & rr & ->) & _). split; [constructor; [reflexivity|constructor]|]. split; [left; discriminate|reflexivity].
      + intros g2 p1 L H2 Hp2. apply (lin_ends t g2 q' _ _ L H2 Hp2).
  Qed.

  Lemma full_happens t g q es q' : good g q -> pstep (MFull t) q = Some (es, q') -> does (own_step t) t g q es q'.
  Proof.
    intros Hg Em. pose proof (good_near t g q Hg) as H. pose proof Em as E. cbn [cp_step] in E.
    destruct (nth_error (cp_thr q) t) as [d|] eqn:Hd; [|discriminate E]. destruct d; try discriminate E.
    destruct (shrinks o) eqn:Hs; [discriminate E|]. destruct (must_grow _ _ _) eqn:Hmg; [discriminate E|].
    destruct (existsb alone (cp_thr q)) eqn:Hal; [discriminate E|]. cbn [orb] in E.
    destruct (wants o) as [l|] eqn:Hwa; [|discriminate E]. destruct (room_in (cp_chunks q) l) as [[a ks]|] eqn:Er; [discriminate E|]. clear E.
    destruct (at_asked t g q o Hg Hd) as (j & Hp & <-).
    assert (Tj : takes j) by (destruct j; [exact I|exact I|discriminate Hwa]).
    rewrite (wants_job j Tj) in Hwa. injection Hwa as <-. pose proof (no_alone_writer g q Hg Hal) as Hw.
    assert (Hretry : forall g1 p, near t g1 q -> nth_error (g_thr g1) t = Some p -> doing_of p = DAsked (job_op j) ->
              wlp (cstep su (Go t false)) g1 (lands t g1 (fun es p => es = [] /\ p = Unlock false (Some j) (job_handle j))) -> does (own_step t) t g1 q es q').
    { intros g1 p H1 Hp1 Ed Hl1. apply (moving _ t g1 q (Go t false) _ _ (MFull t) es q' H1 Hp1 Hl1); [|exact Em| |exact eq_refl].
      - intros es1 p1 (-> & ->). split; [constructor|]. split; [right; cbn; rewrite Ed; discriminate|]. rewrite Ed. destruct j; [reflexivity|reflexivity|destruct Tj].
      - intros g2 p1 (_ & ->) H2 Hp2. apply (retreats t g2 q' _ _ _ H2 Hp2). }
    pose proof (land_enter t g q _ H Hp Hw) as Hl.
    destruct (cp_chunks q) as [|k older] eqn:Ek.
    { apply (Hretry g _ H Hp eq_refl). destruct j; [exact Hl|exact Hl|destruct Tj]. }
    assert (Rm : room (p_free k) (p_end k) (job_layout j) = false).
    { unfold room_in in Er. unfold room. change (round_up (p_free k) (l_align (job_layout j))) with (least_multiple (p_free k) (l_align (job_layout j))).
      destruct (_ && _) eqn:E in Er; [discriminate Er|]. exact E. }
    assert (Hgo : match j with
              | JResize _ u old new => l_align new <= l_align old -> p_free k = u_ptr u + l_size old -> u_ptr u + l_size new <= p_end k
              | _ => True
              end -> does (own_step t) t g q es q').
    { intros Hroom. apply (to_load t g q j k older es q' H Hp Hw Ek Tj Hs); [rewrite Ek; exact Hmg|exact Hroom|].
      intros g1 r H1 Hp1. apply (to_cas t g1 q j r k older es q' H1 Hp1 Ek). intros g2 H2 Hp2.
      pose proof (land_cas t g2 q j r k older H2 Hp2 Ek) as Hl2. rewrite Rm in Hl2. apply (Hretry g2 _ H2 Hp2 eq_refl Hl2). }
    destruct j as [l|h u old new|h u l]; [apply Hgo; exact I| |destruct Tj].
    cbn [enters] in Hl. destruct (Z.leb_spec (l_align new) (l_align old)) as [La|La]; [|apply Hgo; lia].
    destruct (Z.leb_spec (l_size new) (l_size old)) as [Ls|Ls]; [cbn in Hs; lia|].
    destruct (Z.leb_spec (u_ptr u + l_size new) (p_end k)) as [Le|Le]; [apply Hgo; auto|].
    destruct (Z.eqb_spec (p_free k) (u_ptr u + l_size old)) as [E|E]; [|apply Hgo; lia].
    apply (quietly _ t g q _ _ _ es q' H Hp) with (2 := Hl); [reflexivity| |exact eq_refl]. intros g1 H1 Hp1.
    pose proof (land_tip t g1 q h u old new _ k older H1 Hp1 Ek) as Hl1.
    replace (p_free k =? u_ptr u + l_size old) with true in Hl1 by lia. replace (u_ptr u + l_size new <=? p_end k) with false in Hl1 by lia.
    apply (Hretry g1 _ H1 Hp1 eq_refl Hl1).
  Qed.

  Lemma fresh_happens t g q es q' : good g q -> pstep (MFresh t) q = Some (es, q') -> does (own_step t) t g q es q'.
  Proof.
    intros Hg Em. pose proof (good_near t g q Hg) as H. pose proof Em as E. cbn [cp_step] in E.
    destruct (nth_error (cp_thr q) t) as [d|] eqn:Hd; [|discriminate E]. destruct d; try discriminate E.
    destruct (existsb has_got (cp_thr q)) eqn:Hn; [discriminate E|]. clear E.
    destruct (at_thread t g q _ Hg Hd) as (p & Hp & Ep & Hst).
    destruct p; try discriminate Ep; try destruct Hst; [destruct next; [destruct Hst|discriminate Ep]|]. injection Ep as <-.
    destruct (nobody_in g q Hg Hn) as [N1 N2].
    apply (quietly _ t g q _ _ _ es q' H Hp) with (2 := land_want t g j Hp N1 N2); [reflexivity| |exact eq_refl]. intros g1 H1 Hp1.
    apply (moving _ t g1 q (Go t false) _ _ (MFresh t) es q' H1 Hp1 (land_slow t g1 j Hp1)); [|exact Em| |exact eq_refl].
    - intros es1 p1 [((o & r & ->) & _)|(-> & b & ->)].
      + split; [constructor; [reflexivity|constructor]|]. split; [left; discriminate|reflexivity].
      + split; [constructor|]. split; [right; cbn; discriminate|reflexivity].
    - intros g2 p1 [L|(_ & b & ->)] H2 Hp2; [apply (lin_ends t g2 q' _ _ L H2 Hp2)|apply (does_none _ t g2 q' _ H2 Hp2); exact I].
  Qed.

  Lemma copied_happens t g q es q' : good g q -> pstep (MCopied t) q = Some (es, q') -> does (own_step t) t g q es q'.
  Proof.
    intros Hg Em. pose proof (good_near t g q Hg) as H. pose proof Em as E. cbn [cp_step] in E.
    destruct (nth_error (cp_thr q) t) as [d|] eqn:Hd; [|discriminate E]. destruct d; try discriminate E. clear E.
    destruct (at_thread t g q _ Hg Hd) as (p & Hp & Ep & Hst).
    destruct p; try discriminate Ep; [|destruct next; discriminate Ep]. injection Ep as <- <- <-. clear Hd Hg Hst.
    destruct (view t g q _ H Hp) as (cs & _ & _ & _ & _ & (_ & Hj) & _). destruct j as [l|h u old new|h u l]; try contradiction.
    destruct Hj as (_ & Hi & _). set (n := Z.min (l_size new) (l_size old)) in *.
    remember (Z.to_nat (n - i)) as m eqn:Em0. assert (Ei : i = n - Z.of_nat m) by lia. clear Em0 Hi. revert g i H Hp Ei.
    induction m as [|m IH]; intros g i H Hp Ei; pose proof (land_copy t g h u old new _ i _ Hp) as Hl; fold n in Hl.
    - replace (i <? n) with false in Hl by lia.
      apply (moving _ t g q (Go t false) _ _ (MCopied t) es q' H Hp Hl); [|exact Em| |exact eq_refl].
      + intros es1 p1 ((o & r & ->) & _). split; [constructor; [reflexivity|constructor]|]. split; [left; discriminate|reflexivity].
      + intros g2 p1 L H2 Hp2. apply (lin_ends t g2 q' _ _ L H2 Hp2).
    - replace (i <? n) with true in Hl by lia.
      apply (quietly _ t g q _ _ _ es q' H Hp) with (2 := Hl); [reflexivity| |exact eq_refl]. intros g1 H1 Hp1.
      apply (IH g1 (i + 1) H1 Hp1). lia.
  Qed.

  Lemma return_happens t g q es q' : good g q -> pstep (MReturn t) q = Some (es, q') -> does (own_step t) t g q es q'.
  Proof.
    intros Hg Em. pose proof (good_near t g q Hg) as H. pose proof Em as E. cbn [cp_step] in E.
    destruct (nth_error (cp_thr q) t) as [d|] eqn:Hd; [|discriminate E]. destruct d; try discriminate E. clear E.
    destruct (at_thread t g q _ Hg Hd) as (p & Hp & Ep & Hst).
    destruct p; try discriminate Ep. destruct next; [discriminate Ep|].
    apply (moving _ t g q (Go t false) _ _ (MReturn t) es q' H Hp (land_unlock t g _ _ _ Hp)); [|exact Em| |exact eq_refl].
    - intros es1 p1 (-> & ->). split; [constructor; [reflexivity|constructor]|]. split; [left; discriminate|reflexivity].
    - intros g1 p1 (_ & ->) H1 Hp1. apply (does_none _ t g1 q' _ H1 Hp1). exact I.
  Qed.

  Lemma away_back g q : good g q -> forallb d_away (cp_thr q) = true -> forallb away (g_thr g) = true.
  Proof.
    intros (_ & (_ & _ & _ & Ht) & Ha) H. rewrite <- Ht in H. rewrite forallb_forall in *. intros p Hin.
    destruct (In_nth_error _ _ Hin) as [t Hp]. specialize (Ha t p Hp). specialize (H _ (in_map doing_of _ _ Hin)).
    destruct p; try destruct Ha; try discriminate H; try reflexivity; try (destruct j; try discriminate H; reflexivity).
    destruct next; [destruct Ha|discriminate H].
  Qed.
  Lemma idle_back g q : good g q -> forallb d_idle (cp_thr q) = true -> forallb is_idle (g_thr g) = true.
  Proof.
    intros (_ & (_ & _ & _ & Ht) & Ha) H. rewrite <- Ht in H. rewrite forallb_forall in *. intros p Hin.
    specialize (H _ (in_map doing_of _ _ Hin)). destruct p; try discriminate H; [reflexivity|]. destruct next; discriminate H.
  Qed.

  Lemma call_step t o g q es q' : good g q -> pstep (MCall t o) q = Some (es, q') -> exists g', cstep su (Start t o) g = ORet es g' /\ good g' q'.
  Proof.
    intros Hg Em. pose proof (good_near t g q Hg) as H. pose proof Em as E. cbn [cp_step] in E.
    destruct (nth_error (cp_thr q) t) as [d|] eqn:Hd; [|discriminate E]. destruct d; try discriminate E.
    destruct (at_thread t g q _ Hg Hd) as (p & Hp & Ep & Hst). destruct p; try discriminate Ep; [|destruct next; discriminate Ep]. clear Ep Hst.
    assert (Hu : forall h, in_use h (cp_thr q) = busy h (g_thr g)).
    { intros h. pose proof Hg as ((s & cs & C) & (_ & _ & _ & Ht) & _). pose proof C as (_ & _ & _ & _ & _ & Hpc & _).
      rewrite <- Ht. apply (in_use_busy su cs (g_tab g) (bw_mem (snd (g_aw g)))). exact Hpc. }
    pose proof Hg as (_ & (_ & Etab & _) & _).
    assert (Hl : wlp (cstep su (Start t o)) g (lands t g (fun es p => events_of t es /\ es <> [] /\ guess t DNone es = MCall t o /\ settled p))).
    { unfold cstep. apply wlp_get. rewrite Hp. unfold begin. apply wlp_get. rewrite Etab.
      assert (Hb : forall j g0, g_thr g0 = g_thr g -> wlp (become t (WantRead j) ;;; ret [Call t o]) g0
                (lands t g (fun es p => events_of t es /\ es <> [] /\ guess t DNone es = MCall t o /\ settled p))).
      { intros j g0 E0. apply become_lands; [exact E0|]. split; [constructor; [reflexivity|constructor]|]. split; [discriminate|]. split; [reflexivity|exact I]. }
      assert (H3 : forall g0, g_thr g0 = g_thr g -> wlp (ret [Call t o; Lin t o None; Return t]) g0
                (lands t g (fun es p => events_of t es /\ es <> [] /\ guess t DNone es = MCall t o /\ settled p))).
      { intros g0 E0. apply wlp_ret. exists Idle. split; [rewrite E0; symmetry; apply set_nth_same; exact Hp|].
        split; [constructor; [reflexivity|constructor; [reflexivity|constructor; [reflexivity|constructor]]]|]. split; [discriminate|]. split; [reflexivity|exact I]. }
      destruct o as [l z|h off cl|h l|h old new|h old new|keep]; try discriminate E.
      - destruct z; [discriminate E|]. destruct (req_okb _ _); [|discriminate E]. apply Hb. reflexivity.
      - destruct (get h (cp_tab q)) as [u|]; [|discriminate E]. rewrite <- Hu. destruct (_ && _); [|discriminate E].
        apply wlp_on_w. intros [] w' _. apply H3. reflexivity.
      - destruct (get h (cp_tab q)) as [u|]; [|discriminate E]. rewrite <- Hu. destruct (_ && _); [|discriminate E]. apply Hb. reflexivity.
      - destruct (get h (cp_tab q)) as [u|]; [|discriminate E]. rewrite <- Hu. destruct (_ && _); [|discriminate E]. apply Hb. reflexivity.
      - destruct keep; [|discriminate E]. destruct (forallb d_away (cp_thr q)) eqn:Ha; [|discriminate E]. rewrite (away_back g q Hg Ha).
        apply wlp_bind. intros r g1 E1. unfold on_aw in E1. destruct (do_reset su true (g_aw g)); try discriminate. inversion E1; subst; clear E1.
        apply wlp_bind. intros r2 g2 E2. inversion E2; subst. apply H3. reflexivity. }
    destruct (moved t g q (Start t o) _ _ (MCall t o) es q' H Hp Hl) as (g1 & p1 & E1 & (_ & _ & _ & Hst) & H1 & Hp1); [|exact Em|].
    - intros es1 p1 (H1 & H2 & H3 & _). auto.
    - exists g1. split; [exact E1|]. apply (near_good t g1 q' _ H1 Hp1 Hst).
  Qed.
  Lemma call_happens t o g q es q' : good g q -> pstep (MCall t o) q = Some (es, q') -> does (eq (Start t o)) t g q es q'.
  Proof.
    intros Hg Em. destruct (call_step t o g q es q' Hg Em) as (g1 & E & H1). exists [Start t o], g1.
    split; [cbn [crun]; unfold bind; rewrite E; cbn; rewrite app_nil_r; reflexivity|]. split; [exact H1|constructor; [reflexivity|constructor]].
  Qed.

  Lemma only_reset m keep q q1 : pstep m q = Some ([ResetAll keep], q1) -> m = MReset keep.
  Proof.
    intros E. destruct m; cbn [cp_step] in E; try (destruct (nth_error (cp_thr q) t) as [[]|]; try discriminate E).
    - destruct o as [l z|h off cl|h l|h old new|h old new|kp]; try discriminate E.
      + destruct z; [discriminate E|]. destruct (req_okb _ _); discriminate E.
      + destruct (get h (cp_tab q)); [|discriminate E]. destruct (_ && _); discriminate E.
      + destruct (get h (cp_tab q)); [|discriminate E]. destruct (_ && _); discriminate E.
      + destruct (get h (cp_tab q)); [|discriminate E]. destruct (_ && _); discriminate E.
      + destruct kp; [|discriminate E]. destruct (forallb _ _); discriminate E.
    - destruct (_ || _); [discriminate E|]. destruct (wants o); [|discriminate E]. destruct (room_in _ _) as [[]|]; discriminate E.
    - destruct o; try discriminate E. destruct (existsb _ _); [discriminate E|].
      destruct (get h (cp_tab q)); [|discriminate E]. destruct (_ && _); [|discriminate E]. destruct (room_at _ _ _ _); discriminate E.
    - destruct (existsb _ _); [discriminate E|]. destruct o; try discriminate E.
      destruct (get h (cp_tab q)); [|discriminate E]. destruct (shrinks _); discriminate E.
    - destruct (_ || _); [discriminate E|]. destruct (wants o); [|discriminate E]. destruct (room_in _ _) as [[]|]; discriminate E.
    - destruct (existsb _ _); [discriminate E|]. destruct (wants o) as [l|]; [|discriminate E].
      destruct (fresh _ _ _ _ _) as [[a ks] tr]. destruct a as [a|]; [|discriminate E]. unfold granted in E. destruct o; discriminate E.
    - destruct (forallb _ _); [|discriminate E]. injection E as -> _. reflexivity.
  Qed.

  Lemma reset_step keep g q es q' : good g q -> pstep (MReset keep) q = Some (es, q') -> exists g', cstep su (Exclusive keep) g = ORet es g' /\ good g' q'.
  Proof.
    intros Hg Em. pose proof (good_near O g q Hg) as H. pose proof Em as E. cbn [cp_step] in E.
    destruct (forallb d_idle (cp_thr q)) eqn:Hi; [|discriminate E]. injection E as <- _.
    pose proof (idle_back g q Hg Hi) as Hid.
    assert (Hl : wlp (cstep su (Exclusive keep)) g (fun es g' => es = [ResetAll keep] /\ g_thr g' = g_thr g)).
    { unfold cstep. apply wlp_get. rewrite Hid. apply wlp_bind. intros r g1 E1. unfold on_aw in E1.
      destruct (do_reset su keep (g_aw g)); try discriminate. inversion E1; subst; clear E1.
      apply wlp_bind. intros r2 g2 E2. inversion E2; subst. apply wlp_ret. auto. }
    destruct (stepped O g q _ _ H Hl) as (es1 & g1 & ms & q1 & E & (-> & Et) & Er & L & Hi1 & Hs1 & _).
    destruct (one_or_none _ _ _ _ Er L) as [[X _]|[m1 Em1]]; [discriminate X|].
    rewrite (only_reset _ _ _ _ Em1), Em in Em1. injection Em1 as ->.
    exists g1. split; [exact E|]. split; [exact Hi1|]. split; [exact Hs1|]. destruct Hg as (_ & _ & Ha). rewrite Et. exact Ha.
  Qed.
  Lemma reset_happens keep g q es q' : good g q -> pstep (MReset keep) q = Some (es, q') -> does (eq (Exclusive keep)) O g q es q'.
  Proof.
    intros Hg Em. destruct (reset_step keep g q es q' Hg Em) as (g1 & E & H1). exists [Exclusive keep], g1.
    split; [cbn [crun]; unfold bind; rewrite E; cbn; rewrite app_nil_r; reflexivity|]. split; [exact H1|constructor; [reflexivity|constructor]].
  Qed.

  (** The steps that make a move. *)
  Definition steps_of (m : cmove) (c : choice) : Prop :=
    match m with
    | MCall t o => Start t o = c
    | MTake t | MGrow t | MStay t | MFull t | MFresh t | MCopied t | MReturn t => own_step t c
    | MReset keep => Exclusive keep = c
    end.
  Lemma move_happens m g q es q' : good g q -> pstep m q = Some (es, q') ->
    exists sched g', crun su sched g = ORet es g' /\ good g' q' /\ Forall (steps_of m) sched.
  Proof.
    intros Hg Em. destruct m.
    - apply (call_happens t o g q es q' Hg Em).
    - apply (take_happens t g q es q' Hg Em).
    - apply (grow_happens t g q es q' Hg Em).
    - apply (stay_happens t g q es q' Hg Em).
    - apply (full_happens t g q es q' Hg Em).
    - apply (fresh_happens t g q es q' Hg Em).
    - apply (copied_happens t g q es q' Hg Em).
    - apply (return_happens t g q es q' Hg Em).
    - apply (reset_happens keep g q es q' Hg Em).
  Qed.

  Lemma moves_happen ms : forall g q es q', good g q -> prun ms q = Some (es, q') -> exists sched g', crun su sched g = ORet es g' /\ good g' q'.
  Proof.
    induction ms as [|m ms IH]; intros g q es q' Hg Em; cbn [cp_run] in Em.
    - injection Em as <- <-. exists [], g. split; [reflexivity|exact Hg].
    - destruct (pstep m q) as [[es1 q1]|] eqn:E1; [|discriminate Em]. destruct (prun ms q1) as [[es2 q2]|] eqn:E2; [|discriminate Em].
      injection Em as <- <-. destruct (move_happens m g q es1 q1 Hg E1) as (s1 & g1 & R1 & Hg1 & _).
      destruct (IH g1 q1 es2 q2 Hg1 E2) as (s2 & g2 & R2 & Hg2). exists (s1 ++ s2), g2. split; [|exact Hg2].
      rewrite crun_app, R1, R2. reflexivity.
  Qed.

End All.

Section Alone.
  Variable su : setup.
  Hypothesis Hok : setup_ok su.
  Notation prun := (cp_run (su_min su) (su_smax su) (su_strat su)).

  Lemma start_good n : good su true [] (fun _ => Undef) (cstart su n) (cp0 n).
  Proof.
    split; [exists []; apply sole_inv, (cstart_inv su Hok n)|]. split.
    - split; [exact I|]. split; [reflexivity|]. split; [reflexivity|]. cbn. clear. induction n; cbn; congruence.
    - intros t p Hp. apply nth_error_In, repeat_spec in Hp. subst p. exact I.
  Qed.

  (** Every sequence of moves is what the threads do under some schedule. *)
  Lemma moves_real n ms es q : prun ms (cp0 n) = Some (es, q) -> exists sched g, crun su sched (cstart su n) = ORet es g /\ cshows g q.
  Proof.
    intros E. destruct (moves_happen su Hok _ _ _ ms _ _ _ _ (start_good n) E) as (sched & g & R & (_ & Hs & _)). exists sched, g. auto.
  Qed.
End Alone.

(** ** A case: the second block is the last one of its chunk and has room to grow, and is moved.
    One thread has found no room and asks for a chunk after the other has asked for one. *)
Definition turn_moves : list cmove :=
  [MCall 0 (OpAlloc (mkLayout 40 8) false); MCall 1 (OpAlloc (mkLayout 24 8) false); MFull 1; MFull 0; MFresh 1; MReturn 1; MFresh 0; MReturn 0;
   MCall 1 (OpAlloc (mkLayout 16 16) false); MTake 1; MCall 0 (OpWrite 0 3 [Byte 9]); MReturn 1;
   MCall 0 (OpResize 2 (mkLayout 16 16) (mkLayout 40 16)); MCall 1 (OpDealloc 0 (mkLayout 24 8)); MTake 0; MStay 1; MCopied 0; MReturn 1; MReturn 0]%nat.
Lemma turn_computed :
  match cp_run (su_min (demo megabytes)) (su_smax (demo megabytes)) (su_strat (demo megabytes)) turn_moves (cp0 2) with
  | Some (es, q) => (length es, length (cp_chunks q), map (option_map u_ptr) (cp_tab q)) = (20%nat, 2%nat, [None; Some 2097184; Some 2097248])
  | None => False
  end.
Proof. vm_compute. reflexivity. Qed.
Lemma turn_runs : exists es q,
  cp_run (su_min (demo megabytes)) (su_smax (demo megabytes)) (su_strat (demo megabytes)) turn_moves (cp0 2) = Some (es, q) /\
  length es = 20%nat /\ length (cp_chunks q) = 2%nat /\ map (option_map u_ptr) (cp_tab q) = [None; Some 2097184; Some 2097248].
Proof.
  pose proof turn_computed as H.
  destruct (cp_run (su_min (demo megabytes)) (su_smax (demo megabytes)) (su_strat (demo megabytes)) turn_moves (cp0 2)) as [[es q]|]; [|destruct H].
  apply pair_equal_spec in H. destruct H as [H H3]. apply pair_equal_spec in H. destruct H as [H1 H2].
  exists es, q. split; [reflexivity|]. split; [exact H1|]. split; [exact H2|exact H3].
Qed.
