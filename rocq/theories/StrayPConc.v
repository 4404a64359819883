(** Nothing is written outside of what is allocated: threads on one [SyncBlinkAlloc] and on
    proxies of it. *)
From Coq Require Import Permutation.
From Verif Require Import Base BaseFacts Alloc AllocFacts Arena ArenaFacts ArenaInv ArenaOps BlinkAlloc BlinkFacts
  History HistoryFacts Setup SetupFacts SetupOps Conc ConcFacts ConcSteps ConcProps Proxy ProxyFacts ProxyProps PConc PConcAsk PConcFacts
  Stray StrayFacts StrayUse StrayConc.

Section Proxies.
  Variable su : setup.
  Variable psmax nmax : Z.
  Hypothesis Hok : proxies_ok su psmax nmax.
  Variable w0 : bworld.
  Notation Hsu := (psu su psmax nmax Hok).
  Notation here s := (snd (g_aw (r_g s))).
  Notation rinvx := (rinvx su psmax nmax).

  (** Writes to blocks of the shared allocator. *)
  Lemma put_lore g sd hl K m' : cinv su g sd -> map (fun h => get h (g_tab g)) hl = map Some K ->
    (forall x, (forall u, In u K -> ~ in_u x u) -> m' x = gmem g x) -> lore w0 (snd (g_aw g)) ->
    lore w0 (al_set_mem (bot su) (snd (g_aw g)) m').
  Proof.
    intros (cs & R & _) E Hm L. apply (lore_chunks su w0 cs _ _ _ _ R L); [reflexivity|].
    intros x N. change (bw_mem (al_set_mem (bot su) (snd (g_aw g)) m')) with m'. apply Hm. intros u Hu Hx.
    assert (X : In (Some u) (map (fun h => get h (g_tab g)) hl)) by (rewrite E; apply in_map; exact Hu).
    apply in_map_iff in X. destruct X as (h & G & _).
    destruct (in_block su Hsu cs _ _ _ u x R) with (2 := Hx) as (c & Hc & Hi); [|apply (N c Hc Hi)].
    apply in_or_app. left. apply live_in. eauto.
  Qed.

  Lemma shared_lore g sd c es g' : cinv su g sd -> lore w0 (snd (g_aw g)) -> cstep su c g = ORet es g' -> lore w0 (snd (g_aw g')).
  Proof. intros (cs & C) L E. apply (cstep_lore su Hsu w0 cs g sd c es g' C L E). Qed.

  Lemma settle_lore k o out c' s es s' : PConcFacts.over out c' -> settle su k o out s = ORet es s' ->
    here s' = al_set_mem (bot su) (here s) (d_mem (snd (c_w c'))).
  Proof. intros [[r ->]| ->] E; inversion E; reflexivity. Qed.

  Lemma leave_lore keep k P hs s sd b es s' : rinvx P hs s sd b -> lore w0 (here s) -> leave_step su keep k s s = ORet es s' ->
    lore w0 (here s').
  Proof.
    intros I0 L E. unfold leave_step in E. destruct (get k (r_prox s)) as [p|] eqn:G; [|inversion E; subst; exact L].
    destruct (in_call k s); [inversion E; subst; exact L|].
    destruct s as [mx prox ch jobs g]. cbn [r_prox r_g r_max r_job] in *.
    destruct (own_step su psmax nmax Hok _ _ _ _ _ _ _ _ _ _ _ I0 G)
      as (P1 & cs & P2 & l1 & l2 & S1 & t & S2 & h1 & hc & h2 & Hnd & -> & -> & -> & _ & L1 & L2 & Ecs & Lr & Ag & -> & Ehc & _).
    destruct (blocks_ok su g sd hc (map c_u cs) (ri_c _ _ _ _ _ _ _ _ I0) (nodup_left _ _ Hnd) Ehc) as [Ku Kd].
    destruct (leave_ok su psmax nmax Hok keep p (gmem g) cs t _ Lr Ag Ku Kd eq_refl) as (n & aw & cs' & lost & E0 & _ & _ & Hm & _).
    rewrite E0 in E. inversion E; subst. cbn [r_g g_aw snd]. apply (put_lore g sd hc (map c_u cs)); auto. apply (ri_c _ _ _ _ _ _ _ _ I0).
  Qed.

  Lemma on_g_lore c s sd (f : list event -> M rst (list revent)) es s' : cinv su (r_g s) sd -> lore w0 (here s) ->
    (forall es1 s1 es2 s2, f es1 s1 = ORet es2 s2 -> here s2 = here s1) ->
    (es <- on_g (cstep su c) ;; f es) s = ORet es s' -> lore w0 (here s').
  Proof.
    intros Hc L Hf E. unfold bind, on_g in E. destruct (cstep su c (r_g s)) as [es1 g1| | |] eqn:E1; try discriminate E.
    rewrite (Hf _ _ _ _ E). cbn [r_g]. apply (shared_lore _ _ _ _ _ Hc L E1).
  Qed.

  Lemma rstep_lore c s sd b es s' : rinv su psmax nmax s sd b -> lore w0 (here s) -> rstep su psmax nmax c s = ORet es s' -> lore w0 (here s').
  Proof.
    intros (P & hs & I0) L E. unfold rstep in E. pose proof (ri_c _ _ _ _ _ _ _ _ I0) as Hc.
    assert (Hs : forall es0, ret es0 s = ORet es s' -> lore w0 (here s')) by (intros es0 X; inversion X; subst; exact L).
    assert (Hret : forall f : list event -> list revent, forall es1 s1 es2 s2, ret (f es1) s1 = ORet es2 s2 -> here s2 = here s1)
      by (intros f es1 s1 es2 s2 X; inversion X; reflexivity).
    assert (Hthr : forall t c, thread_step su t c s s = ORet es s' -> lore w0 (here s')).
    { intros t c0 X. unfold thread_step in X. destruct (nth_error (r_job s) t); [|apply (Hs _ X)].
      revert X. apply (on_g_lore _ _ sd); auto. intros es1 s1 es2 s2 Y. inversion Y; reflexivity. }
    unfold rstep_at in E. destruct c as [t o|t sp|t v|keep|v|t k o|t|k|k|n].
    - destruct (rready t s && _ && _); [|apply (Hs _ E)]. revert E. apply (on_g_lore _ _ sd); auto. apply (Hret (map RO)).
    - apply (Hthr _ _ E).
    - apply (Hthr _ _ E).
    - destruct (forallb is_none (r_prox s)); [|apply (Hs _ E)]. revert E. apply (on_g_lore _ _ sd); auto. apply (Hret (map RO)).
    - destruct (_ && _); [|apply (Hs _ E)]. inversion E; subst. exact L.
    - destruct (get k (r_prox s)) as [p|] eqn:G; [|apply (Hs _ E)]. destruct (rready t s && _ && _) eqn:Er; [|apply (Hs _ E)].
      apply andb_true_iff in Er. destruct Er as [_ E3]. apply negb_true_iff in E3. cbv zeta in E.
      destruct (asked_of (run_op su psmax o p None (gmem (r_g s)))).
      { revert E. apply (on_g_lore _ _ sd); auto. intros es1 s1 es2 s2 Y. destruct es1; [discriminate|]. inversion Y; reflexivity. }
      destruct s as [mx prox ch jobs g]. cbn [r_prox r_g r_max r_job] in *.
      destruct (own_step su psmax nmax Hok _ _ _ _ _ _ _ _ _ _ _ I0 G)
        as (P1 & cs & P2 & l1 & l2 & S1 & ts & S2 & h1 & hc & h2 & Hnd & -> & -> & -> & _ & L1 & L2 & Ecs & Lr & Ag & -> & Ehc & _).
      destruct (blocks_ok su g sd hc (map c_u cs) Hc (nodup_left _ _ Hnd) Ehc) as [Ku Kd].
      destruct (run_op_ok su psmax nmax Hok o p None (gmem g) cs ts (map c_u cs) E3 Lr Ag Ku Kd) as (_ & c' & cs' & lost & Hov & Hm & _).
      { cbn. rewrite app_nil_r. reflexivity. }
      rewrite (settle_lore _ _ _ _ _ _ _ Hov E). apply (put_lore g sd hc (map c_u cs)); auto.
    - destruct (nth_error (g_thr (r_g s)) t) as [[]|] eqn:Hp; try (apply (Hs _ E)).
      destruct (nth_error (r_job s) t) as [[|k o l|k o l h]|] eqn:Hq; try (apply (Hs _ E)).
      pose proof (ri_fit _ _ _ _ _ _ _ _ I0 t _ _ Hp Hq) as F. cbn [rfit] in F. destruct F as (_ & _ & (E3 & p & G & _) & Hh).
      rewrite G in E. destruct s as [mx prox ch jobs g]. cbn [r_prox r_g r_max r_job] in *.
      destruct (own_step su psmax nmax Hok _ _ _ _ _ _ _ _ _ _ _ I0 G)
        as (P1 & cs & P2 & l1 & l2 & S1 & ts & S2 & h1 & hc & h2 & Hnd & -> & -> & -> & _ & L1 & L2 & Ecs & Lr & Ag & -> & Ehc & _).
      cbv zeta in E. set (bk := match h with Some h => option_map ublk (get h (g_tab g)) | None => None end) in E.
      set (hx := pendh (RAns k o l h)).
      assert (Hx : exists ux, map (fun h => get h (g_tab g)) hx = map Some ux /\ avail (mkD (gmem g) (Some (l, bk)) None) = ux).
      { subst bk hx. destruct h as [h|]; [|exists []; auto]. destruct Hh as (u & Gu & El). exists [u]. cbn [pendh map]. rewrite Gu. split; [reflexivity|].
        cbn. subst l. destruct u; reflexivity. }
      destruct Hx as (ux & Ex & Eav).
      destruct (flat_set pendh jobs t _ Hq) as (rest & Pr).
      pose proof (Pr (RAns k o l h)) as Pq. rewrite (ConcFacts.set_nth_same _ _ _ Hq) in Pq. fold hx in Pq.
      assert (Hnd2 : NoDup (hc ++ hx)).
      { apply (nodup_left _ rest). rewrite <- app_assoc. eapply Permutation_NoDup; [|exact Hnd]. apply Permutation_app_head. exact Pq. }
      assert (Ehx : map (fun h => get h (g_tab g)) (hc ++ hx) = map Some (map c_u cs ++ ux)) by (rewrite !map_app, Ehc, Ex; reflexivity).
      destruct (blocks_ok su g sd _ _ Hc Hnd2 Ehx) as [Ku Kd].
      destruct (run_op_ok su psmax nmax Hok o p (Some (l, bk)) (gmem g) cs ts (map c_u cs ++ ux) E3 Lr Ag Ku Kd) as (_ & c' & cs' & lost & Hov & Hm & _).
      { rewrite Eav. reflexivity. }
      destruct (asked_of (run_op su psmax o p (Some (l, bk)) (gmem g))) as [l'|]; [|discriminate E].
      destruct (layout_eqb l' l); [|discriminate E].
      change (settle su k o (run_op su psmax o p (Some (l, bk)) (gmem g)) (mkR mx (l1 ++ Some p :: l2) ch (set_nth t RNone jobs) g) = ORet es s') in E.
      rewrite (settle_lore _ _ _ _ _ _ _ Hov E). apply (put_lore g sd (hc ++ hx) (map c_u cs ++ ux)); auto.
    - apply (leave_lore true k P hs s sd b es s' I0 L E).
    - apply (leave_lore false k P hs s sd b es s' I0 L E).
    - destruct (_ && _); [|apply (Hs _ E)]. inversion E; subst. exact L.
  Qed.

  Lemma rrun_lore sched : forall s sd b es s', rinv su psmax nmax s sd b -> lore w0 (here s) ->
    rrun su psmax nmax sched s = ORet es s' -> lore w0 (here s').
  Proof.
    induction sched as [|c sched IH]; intros s sd b es s' Hi L E; cbn [rrun] in E; [inversion E; subst; exact L|].
    unfold bind in E. destruct (rstep su psmax nmax c s) as [es1 s2| | |] eqn:E1; try discriminate E.
    destruct (rrun su psmax nmax sched s2) as [es2 s3| | |] eqn:E2; try discriminate E. inversion E; subst.
    pose proof (wp_elim _ _ _ _ _ (rstep_ok su psmax nmax Hok c s sd b Hi) E1) as (Hi2 & _).
    eapply IH; [apply Hi2|apply (rstep_lore _ _ _ _ _ _ Hi L E1)|exact E2].
  Qed.
End Proxies.

Lemma thread_proxies_tidy su psmax nmax n sched1 es1 s1 sched2 es2 s2 : proxies_ok su psmax nmax ->
  rrun su psmax nmax sched1 (rstart su n) = ORet es1 s1 -> rrun su psmax nmax sched2 s1 = ORet es2 s2 ->
  no_stray (snd (g_aw (r_g s1))) (snd (g_aw (r_g s2))).
Proof.
  intros Hok E1 E2. apply lore_no_stray.
  pose proof (wp_elim _ _ _ _ _ (rrun_ok su psmax nmax Hok sched1 _ _ _ (rstart_inv su psmax nmax Hok n)) E1) as (Hi & _).
  eapply (rrun_lore su psmax nmax Hok); [apply Hi|apply lore_start|exact E2].
Qed.
