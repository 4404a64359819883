(** Whatever PConcPaper.v allows happens under some schedule (C92). *)
From Coq Require Import Permutation.
From Verif Require Import Base BaseFacts Alloc AllocFacts Arena ArenaFacts ArenaInv ArenaOps BlinkAlloc BlinkFacts
  History HistoryFacts Setup SetupFacts SetupOps Frame Conc ConcFacts ConcSteps ConcProps ConcShape ConcDrain GConcFacts
  Paper PaperFacts ConcPaper ConcPaperFacts ConcPaperAll GConcPaper Proxy ProxyFacts ProxyProps ProxyPaper ProxyPaperUse ProxyPaperFacts
  GConcPaperFacts PConc PConcAsk PConcFacts PConcPaper PConcPaperFacts.

Section All.
  Variable su : setup.
  Variable psmax nmax : Z.
  Hypothesis Hok : proxies_ok su psmax nmax.
  Notation dbg := (su_dbg su).
  Notation Hsu := (psu su psmax nmax Hok).
  Notation stands := (stands su psmax nmax).
  Notation rstp := (rp_step (su_dbg su) (su_min su) (su_smax su) psmax nmax (su_strat su)).
  Notation rpr := (rp_run (su_dbg su) (su_min su) (su_smax su) psmax nmax (su_strat su)).
  Notation cstp := (cp_step (su_min su) (su_smax su) (su_strat su)).
  Notation good := (good su true [] (fun _ => Undef)).

  (** All threads are between two moves. *)
  Definition calmed (s : rst) : Prop := forall t p, nth_error (g_thr (r_g s)) t = Some p -> settled p.

  Lemma stands_good s q : stands s q -> calmed s -> good (r_g s) (rp_in q).
  Proof.
    intros (P & sd & b & (hs & I0) & _ & _ & _ & H4 & _) Ha. split; [|split; [exact H4|exact Ha]].
    exists sd. apply sole_inv. apply (ri_c _ _ _ _ _ _ _ _ I0).
  Qed.
  Lemma settled_paced ks thr : (forall t p, nth_error thr t = Some p -> settled p) -> paced ks thr.
  Proof.
    intros Ha. unfold paced. rewrite Forall_forall. intros p Hp. destruct (In_nth_error _ _ Hp) as [t' E]. specialize (Ha _ _ E).
    destruct p; try exact I; destruct Ha.
  Qed.

  (** Every move but those inside the shared allocator is one step. *)
  Definition step_for (m : rmove) : option rchoice :=
    match m with
    | NCall t o => Some (RStart t o)
    | NInside _ _ => None
    | NReset keep => Some (RExclusive keep)
    | NLocal v => Some (RLocal v)
    | NUse t k o => Some (RUse t k o)
    | NNext t => Some (RNext t)
    | NReuse k => Some (RReset k)
    | NDrop k => Some (RDrop k)
    | NUpdate n => Some (RUpdate n)
    end.
  Lemma makes_only c m m' : step_for m = Some c -> makes c m' -> m' = m.
  Proof. destruct m; cbn [step_for]; try discriminate; intros E; injection E as <-; auto. Qed.

  Lemma settle_loud k o out s s' : settle su k o out s = ORet [] s' -> False.
  Proof. unfold settle, bind, put_mem, put_prox, ret. destruct out; discriminate. Qed.

  (** If the paper allows it the code does not skip it, and no thread is left in the middle. *)
  Lemma loud m c s q es q' : stands s q -> calmed s -> step_for m = Some c -> rstp m q = Some (es, q') ->
    forall es1 s1, rstep su psmax nmax c s = ORet es1 s1 -> es1 <> [] /\ calmed s1.
  Proof.
    intros H0 Ha Hf Em es1 s1 E1. pose proof (stands_good s q H0 Ha) as Hg.
    pose proof H0 as (P & sd & b & (hs & I0) & H1 & H2 & H3 & H4 & H5 & H6).
    assert (LP : length P = length (r_prox s)) by (apply (each_lens su psmax nmax P hs s sd b I0)).
    assert (Hno : no_proxy q = forallb is_none (r_prox s)) by (unfold no_proxy; rewrite H6; apply sketch_none; exact LP).
    assert (Hget : forall k p, get k (rp_prox q) = Some p -> exists p', get k (r_prox s) = Some p').
    { intros k p G. rewrite H6 in G. revert G. clear -LP. revert k LP. generalize (r_prox s). induction P as [|cs P IH]; intros [|p0 l] k LP; try discriminate LP.
      - destruct k; discriminate.
      - destruct k as [|k]; [destruct p0 as [p0|]; [exists p0; reflexivity|discriminate]|]. intros G. apply (IH l k); [cbn in LP; lia|exact G]. }
    unfold rstep in E1. destruct m as [t o|t x|keep|v|t k o|t|k|k|n]; cbn [step_for] in Hf; try discriminate Hf; injection Hf as <-; cbn [rp_step rstep_at] in Em, E1.
    - rewrite (ready_same su psmax nmax t s q H0), Hno, <- H2 in Em. destruct (rready t s && _ && _); [|discriminate Em].
      unfold below in Em. destruct (cstp (MCall t o) (rp_in q)) as [[e1 x1]|] eqn:Ec; [|discriminate Em].
      destruct (call_step su Hsu _ _ _ t o _ _ _ _ Hg Ec) as (g' & R & Hg'). unfold bind, on_g, ret in E1. rewrite R in E1. injection E1 as <- <-.
      split; [|intros t0 p0 X; apply (proj2 (proj2 Hg') t0 p0 X)]. intros X. apply map_eq_nil in X. subst e1. apply (call_loud su t o _ _ Ec).
    - rewrite Hno in Em. destruct (forallb is_none (r_prox s)); [|discriminate Em]. unfold below in Em.
      destruct (cstp (MReset keep) (rp_in q)) as [[e1 x1]|] eqn:Ec; [|discriminate Em].
      destruct (reset_step su Hsu _ _ _ keep _ _ _ _ Hg Ec) as (g' & R & Hg'). unfold bind, on_g, ret in E1. rewrite R in E1. injection E1 as <- <-.
      split; [|intros t0 p0 X; apply (proj2 (proj2 Hg') t0 p0 X)]. cbn [cp_step] in Ec. destruct (forallb d_idle (cp_thr (rp_in q))); [|discriminate Ec]. injection Ec as <- _. discriminate.
    - rewrite <- H1 in Em. destruct ((0 <=? v) && (v <=? r_max s)); [|discriminate Em]. unfold bind, put_prox, ret in E1. injection E1 as <- <-. split; [discriminate|exact Ha].
    - destruct (get k (rp_prox q)) as [p|] eqn:G; [|discriminate Em]. destruct (Hget k p G) as (p' & G'). rewrite G' in E1.
      rewrite (ready_same su psmax nmax t s q H0) in Em. unfold rp_busy in Em. rewrite <- H3 in Em. unfold in_call in E1.
      destruct (rready t s && _ && _) eqn:Er; [|discriminate Em]. cbv zeta in E1. apply andb_true_iff in Er. destruct Er as [Er _]. apply andb_true_iff in Er. destruct Er as [Er _].
      apply ready_inv in Er. destruct Er as [Hp Hq].
      destruct (asked_of (run_op su psmax o p' None (gmem (r_g s)))) as [l|].
      + unfold bind, on_g in E1. destruct (cstep su (Start t (OpAlloc l false)) (r_g s)) as [e1 g'| | |] eqn:Ec; try discriminate E1.
        destruct e1 as [|e e1]; [discriminate E1|]. unfold put_job, ret in E1. cbn [r_max r_prox r_chunk r_job r_g] in E1. injection E1 as <- <-. split; [discriminate|].
        unfold cstep, bind at 1, get_g in Ec. rewrite Hp in Ec. unfold begin, bind at 1, get_g in Ec.
        destruct (req_okb (su_smax su) l); [|discriminate Ec]. injection Ec as _ _ <-. intros t0 p0 X. cbn [r_g g_thr] in X.
        destruct (Nat.eq_dec t t0) as [<-|N]; [rewrite (nth_set_same _ _ _ _ Hp) in X; injection X as <-; exact I|rewrite nth_set_other in X by exact N; apply (Ha t0 p0 X)].
      + unfold settle, bind, put_mem, put_prox, ret in E1. destruct (run_op su psmax o p' None (gmem (r_g s))); try discriminate E1; injection E1 as <- <-; (split; [discriminate|exact Ha]).
    - destruct (nth_error (cp_thr (rp_in q)) t) as [d|] eqn:Hd; [|discriminate Em]. destruct d; try discriminate Em.
      destruct (nth_error (rp_job q) t) as [j|] eqn:Hj; [|discriminate Em]. destruct j as [|k o l|k o l h]; try discriminate Em.
      destruct (get k (rp_prox q)) as [p|] eqn:G; [|discriminate Em]. destruct (Hget k p G) as (p' & G').
      destruct H4 as (_ & _ & _ & Ht). rewrite <- Ht in Hd. apply idle_none in Hd. rewrite Hd, H3, Hj, G' in E1. cbv zeta in E1.
      destruct (asked_of _) as [l'|]; [|discriminate E1]. destruct (layout_eqb l' l); [|discriminate E1].
      unfold bind, put_job, settle, put_mem, put_prox, ret in E1. destruct (run_op _ _ _ _ _ _); try discriminate E1; injection E1 as <- <-; (split; [discriminate|exact Ha]).
    - destruct (get k (rp_prox q)) as [p|] eqn:G; [|discriminate Em]. destruct (Hget k p G) as (p' & G'). unfold leave_step in E1. rewrite G' in E1.
      unfold rp_busy in Em. rewrite <- H3 in Em. unfold in_call in E1. destruct (existsb (works_on k) (r_job s)); [discriminate Em|].
      destruct (leave su true p' (gmem (r_g s))); try discriminate E1. unfold bind, put_max, put_mem, put_prox, ret in E1. injection E1 as <- <-. split; [discriminate|exact Ha].
    - destruct (get k (rp_prox q)) as [p|] eqn:G; [|discriminate Em]. destruct (Hget k p G) as (p' & G'). unfold leave_step in E1. rewrite G' in E1.
      unfold rp_busy in Em. rewrite <- H3 in Em. unfold in_call in E1. destruct (existsb (works_on k) (r_job s)); [discriminate Em|].
      destruct (leave su false p' (gmem (r_g s))); try discriminate E1. unfold bind, put_max, put_mem, put_prox, ret in E1. injection E1 as <- <-. split; [discriminate|exact Ha].
    - destruct ((0 <=? n) && (n <=? nmax)); [|discriminate Em]. unfold bind, put_max, ret in E1. injection E1 as <- <-. split; [discriminate|exact Ha].
  Qed.

  Lemma one_happens m c s q es q' : stands s q -> calmed s -> step_for m = Some c -> rstp m q = Some (es, q') ->
    exists s', rstep su psmax nmax c s = ORet es s' /\ stands s' q' /\ calmed s'.
  Proof.
    intros H0 Ha Hf Em. pose proof (rstep_exact su psmax nmax Hok c s q H0) as H. apply wp_inv in H.
    destruct H as (es1 & s1 & E1 & ms & q1 & Er & L & F & H1). destruct (loud m c s q es q' H0 Ha Hf Em es1 s1 E1) as [Hne Ha1].
    destruct ms as [|m1 [|m2 ms]]; [|  |cbn in L; lia].
    - injection Er as <- <-. destruct (Hne eq_refl).
    - pose proof (makes_only c m m1 Hf (Forall_inv F)). subst m1. cbn [rp_run] in Er. rewrite Em in Er. injection Er as <- <-.
      exists s1. rewrite app_nil_r in E1. auto.
  Qed.

  (** Several steps of a thread inside. *)
  Definition lifted (c : choice) : rchoice := match c with Go t sp => RGo t sp | Stale t v => RStale t v | _ => RUpdate (-1) end.
  Definition waits (q : rjob) : bool := match q with RWait _ _ _ => true | _ => false end.
  Lemma rafter_app n es1 es2 x : rafter n (es1 ++ es2) x = rafter n es2 (rafter n es1 x).
  Proof. apply fold_left_app. Qed.
  Lemma rafter1_same n n' e x : waits (fst x) = false -> rafter1 n x e = rafter1 n' x e /\ waits (fst (rafter1 n x e)) = false.
  Proof. intros H. unfold rafter1. destruct x as [[|k o l|k o l h] ch]; cbn in *; [|discriminate H|]; destruct e as [t o0|t o0 r|t|t|b]; auto; destruct r; auto. Qed.
  Lemma rafter_same n n' es : forall x, waits (fst x) = false -> rafter n es x = rafter n' es x.
  Proof.
    induction es as [|e es IH]; intros x H; [reflexivity|]. unfold rafter in *. cbn [fold_left].
    destruct (rafter1_same n n' e x H) as [E1 E2]. rewrite <- E1. apply IH, E2.
  Qed.
  Lemma rafter_kept n es : forall x, waits (fst x) = false -> waits (fst (rafter n es x)) = false.
  Proof. induction es as [|e es IH]; intros x H; [exact H|]. unfold rafter in *. cbn [fold_left]. apply IH, (rafter1_same n n e x H). Qed.
  Lemma rafter_done n pre t o r x : waits (fst (rafter n (pre ++ [Lin t o r]) x)) = false.
  Proof. rewrite rafter_app. generalize (rafter n pre x). intros [[| |] ch]; destruct r; reflexivity. Qed.

  Lemma own_moved t c g s : ConcPaperAll.own_step t c -> cinv su g s ->
    wp (cstep su c) g (fun es g' => cinv su g' (sevs es s) /\ (length (g_tab g') = length (g_tab g) \/ exists pre o r, es = pre ++ [Lin t o r])).
  Proof.
    intros Hc Hi. pose proof (cstep_ok su Hsu g s c Hi) as H. apply wp_inv in H. destruct H as (es & g' & E & Hi').
    unfold wp. rewrite E. split; [exact Hi'|].
    assert (Hsh : forall p, nth_error (g_thr g) t = Some p -> shape t p g es g' ->
      length (g_tab g') = length (g_tab g) \/ exists pre o r, es = pre ++ [Lin t o r]).
    { intros p Hp [p' _ Et _ _ _ _|j r pre wr _ _ _ _ Ee _|wr h _ _ Et _]; [left; congruence|right; eauto|left; congruence]. }
    destruct c as [| t' sp|t' v|]; cbn in Hc; try contradiction; subst t'; unfold cstep, bind, get_g in E.
    - destruct (nth_error (g_thr g) t) as [p|] eqn:Hp; [|inversion E; subst; left; reflexivity].
      apply (Hsh p eq_refl). apply (go_shape su t p sp g Hp); [|exact E]. apply (cinv_unlock su g s t p Hi Hp).
    - destruct (nth_error (g_thr g) t) as [p|] eqn:Hp; [|inversion E; subst; left; reflexivity].
      apply (Hsh p eq_refl). apply (stale_shape_ok su t p v g Hp). exact E.
  Qed.

  Definition inside_of (t : nat) (x : rjob * list nat) (g : gst) (s : rst) : rst := mkR (r_max s) (r_prox s) (snd x) (set_nth t (fst x) (r_job s)) g.

  Lemma steps_in t n sched : forall s sd j es g', Forall (ConcPaperAll.own_step t) sched -> cinv su (r_g s) sd ->
    nth_error (r_job s) t = Some j -> (length (g_tab (r_g s)) = n \/ waits j = false) ->
    crun su sched (r_g s) = ORet es g' ->
    rrun su psmax nmax (map lifted sched) s = ORet (map RO es) (inside_of t (rafter n es (j, r_chunk s)) g' s).
  Proof.
    induction sched as [|c sched IH]; intros s sd j es g' Hf Hi Hj Hn E; cbn [map rrun crun] in *.
    - injection E as <- <-. unfold inside_of, rafter. cbn. rewrite (ConcFacts.set_nth_same _ _ _ Hj). destruct s; reflexivity.
    - unfold bind in *. pose proof (Forall_inv Hf) as Hc. apply Forall_inv_tail in Hf.
      pose proof (own_moved t c _ sd Hc Hi) as H. apply wp_inv in H. destruct H as (e1 & g1 & E1 & Hi1 & Hl). rewrite E1 in E.
      destruct (crun su sched g1) as [e2 g2| | |] eqn:E2; try discriminate E. injection E as <- <-.
      assert (R : rstep su psmax nmax (lifted c) s = ORet (map RO e1) (inside_of t (rafter n e1 (j, r_chunk s)) g1 s)).
      { unfold rstep. destruct c as [| t' sp|t' v|]; cbn in Hc; try contradiction; subst t'; cbn [lifted rstep_at]; unfold thread_step;
          rewrite Hj; unfold bind, on_g; rewrite E1; unfold put_job, put_chunk, ret, inside_of; cbn [r_max r_prox r_chunk r_job r_g];
          (destruct Hn as [->|Hn]; [reflexivity|]);
          rewrite (rafter_same (length (g_tab (r_g s))) n e1 (j, r_chunk s) Hn); reflexivity. }
      rewrite R. cbn [ret].
      rewrite (IH (inside_of t (rafter n e1 (j, r_chunk s)) g1 s) (sevs e1 sd) (fst (rafter n e1 (j, r_chunk s))) e2 g2 Hf Hi1); [| | |exact E2].
      + rewrite rafter_app. unfold inside_of. cbn [r_max r_prox r_chunk r_job r_g]. rewrite set_nth_twice, map_app, <- surjective_pairing. reflexivity.
      + cbn. apply (nth_set_same _ _ _ _ Hj).
      + destruct Hn as [Hn|Hn]; [|right; apply rafter_kept; exact Hn].
        destruct Hl as [Hl|(pre & o & r & ->)]; [left; cbn [inside_of r_g]; congruence|right; apply rafter_done].
  Qed.

  Lemma inside_keeps t m q es q' : rstp (NInside t m) q = Some (es, q') -> rp_prox q' = rp_prox q.
  Proof.
    cbn [rp_step]. destruct (mover m); [|discriminate]. destruct (nth_error (rp_job q) t); [|discriminate]. destruct (Nat.eqb _ t); [|discriminate].
    unfold below. destruct (cstp m (rp_in q)) as [[e1 x1]|]; [|discriminate]. intros E. apply (f_equal (fun o => match o with Some (_, q) => rp_prox q | None => [] end)) in E.
    cbn in E. symmetry. exact E.
  Qed.
  Lemma insides_keep ms : forall q es q', Forall (fun m => exists t x, m = NInside t x) ms -> rpr ms q = Some (es, q') -> rp_prox q' = rp_prox q.
  Proof.
    induction ms as [|m ms IH]; intros q es q' F E; cbn [rp_run] in E.
    - injection E as _ <-. reflexivity.
    - destruct (Forall_inv F) as (t & x & ->). apply Forall_inv_tail in F. destruct (rstp (NInside t x) q) as [[e1 q1]|] eqn:E1; [|discriminate E].
      destruct (rpr ms q1) as [[e2 q2]|] eqn:E2; [|discriminate E]. injection E as _ <-. rewrite (IH q1 e2 q2 F E2). apply (inside_keeps t x q e1 q1 E1).
  Qed.

  Lemma rmove_happens m s q es q' : stands s q -> calmed s -> rstp m q = Some (es, q') ->
    exists sched s', rrun su psmax nmax sched s = ORet es s' /\ stands s' q' /\ calmed s'.
  Proof.
    intros H0 Ha Em. destruct (step_for m) as [c|] eqn:Hf.
    - destruct (one_happens m c s q es q' H0 Ha Hf Em) as (s' & E & H & H'). exists [c], s'.
      split; [cbn [rrun]; unfold bind; rewrite E; cbn; rewrite app_nil_r; reflexivity|auto].
    - destruct m as [| t x | | | | | | |]; try discriminate Hf. pose proof Em as E. cbn [rp_step] in E.
      destruct (mover x) as [t'|] eqn:Ex; [|discriminate E]. destruct (nth_error (rp_job q) t) as [j|] eqn:Hj; [|discriminate E].
      destruct (Nat.eqb t' t) eqn:Et; [|discriminate E]. apply Nat.eqb_eq in Et. subst t'.
      unfold below in E. destruct (cstp x (rp_in q)) as [[e1 q1]|] eqn:Ec; [|discriminate E].
      pose proof (stands_good s q H0 Ha) as Hg.
      destruct (move_happens su Hsu _ _ _ x _ _ _ _ Hg Ec) as (sched & g' & R & Hg' & Hst).
      assert (Hst' : Forall (ConcPaperAll.own_step t) sched).
      { eapply Forall_impl; [|exact Hst]. intros c Hc. destruct x; cbn in Ex, Hc; try discriminate Ex; injection Ex as <-; exact Hc. }
      pose proof H0 as (P & sd & b & (hs & I0) & H1 & H2 & H3 & H4 & H5 & H6). rewrite <- H3 in Hj.
      assert (Etab : cp_tab (rp_in q) = g_tab (r_g s)) by (symmetry; apply H4).
      pose proof (steps_in t (length (g_tab (r_g s))) sched s sd j e1 g' Hst' (ri_c _ _ _ _ _ _ _ _ I0) Hj (or_introl eq_refl) R) as Rr.
      rewrite Etab, <- H2 in E. injection E as <- <-. set (y := rafter (length (g_tab (r_g s))) e1 (j, r_chunk s)) in *.
      exists (map lifted sched), (inside_of t y g' s). split; [exact Rr|]. split; [|intros t0 p0 X; apply (proj2 (proj2 Hg') t0 p0 X)].
      destruct (rrun_exact su psmax nmax Hok _ _ _ _ _ H0 Rr) as (ms & q2 & Er & _ & F & (P' & sd' & b' & I' & _ & _ & _ & _ & _ & H6')).
      assert (Ep : rp_prox q2 = rp_prox q).
      { eapply (insides_keep ms q); [|exact Er]. eapply Forall_impl; [|exact F]. intros m (c & Hi & Hm). apply in_map_iff in Hi. destruct Hi as (c0 & <- & Hi).
        rewrite Forall_forall in Hst'. specialize (Hst' c0 Hi). destruct c0 as [|t0 sp|t0 v|]; try destruct Hst'; destruct Hm as (z & ->); eauto. }
      exists P', sd', b'. split; [exact I'|]. unfold with_chunk, with_job, with_in, inside_of. cbn [r_max r_prox r_chunk r_job r_g rp_max rp_prox rp_chunk rp_job rp_in].
      split; [exact H1|]. split; [reflexivity|]. split; [rewrite H3; reflexivity|]. split; [apply Hg'|]. split; [apply settled_paced; apply Hg'|].
      rewrite <- Ep. exact H6'.
  Qed.

  Lemma rrun_app s1 : forall s2 m e1 m1, rrun su psmax nmax s1 m = ORet e1 m1 ->
    rrun su psmax nmax (s1 ++ s2) m = match rrun su psmax nmax s2 m1 with ORet e2 m2 => ORet (e1 ++ e2) m2 | OPanic w => OPanic w | OAbort => OAbort | OUB => OUB end.
  Proof.
    induction s1 as [|c s1 IH]; intros s2 m e1 m1 E; cbn [app rrun] in *.
    - injection E as <- <-. cbn. destruct (rrun su psmax nmax s2 m); reflexivity.
    - unfold bind in *. destruct (rstep su psmax nmax c m) as [ea ma| | |]; try discriminate E.
      destruct (rrun su psmax nmax s1 ma) as [eb mb| | |] eqn:Eb; try discriminate E. injection E as <- <-.
      rewrite (IH s2 ma eb mb Eb). destruct (rrun su psmax nmax s2 mb); try reflexivity. cbn. rewrite app_assoc. reflexivity.
  Qed.

  Lemma rmoves_happen ms : forall s q es q', stands s q -> calmed s -> rpr ms q = Some (es, q') ->
    exists sched s', rrun su psmax nmax sched s = ORet es s' /\ stands s' q' /\ calmed s'.
  Proof.
    induction ms as [|m ms IH]; intros s q es q' H0 Ha Em; cbn [rp_run] in Em.
    - injection Em as <- <-. exists [], s. split; [reflexivity|auto].
    - destruct (rstp m q) as [[es1 q1]|] eqn:E1; [|discriminate Em]. destruct (rpr ms q1) as [[es2 q2]|] eqn:E2; [|discriminate Em].
      injection Em as <- <-. destruct (rmove_happens m s q es1 q1 H0 Ha E1) as (c1 & s1 & R1 & H1 & Ha1).
      destruct (IH s1 q1 es2 q2 H1 Ha1 E2) as (c2 & s2 & R2 & H2). exists (c1 ++ c2), s2. split; [|exact H2].
      rewrite (rrun_app _ _ _ _ _ R1), R2. reflexivity.
  Qed.

  Lemma rmoves_real n ms es q : rpr ms (rp0 n) = Some (es, q) -> exists sched s, rrun su psmax nmax sched (rstart su n) = ORet es s /\ rshows s q.
  Proof.
    intros E. destruct (rmoves_happen ms (rstart su n) (rp0 n) es q (stands_start su psmax nmax Hok n)) with (2 := E) as (sched & s & R & H & _).
    - intros t p Hp. apply nth_error_In, repeat_spec in Hp. subst p. exact I.
    - exists sched, s. split; [exact R|]. apply (stands_shows su psmax nmax). exact H.
  Qed.
End All.
