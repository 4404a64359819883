(** The global allocator: no deadlock (C57). *)
From Verif Require Import Base BaseFacts Alloc AllocFacts Arena ArenaFacts ArenaInv ArenaOps
  BlinkAlloc BlinkFacts History HistoryFacts Setup SetupFacts SetupOps Concrete
  Conc ConcFacts ConcSteps ConcProps ConcDrain ConcDemo ConcShape Shared SharedFacts SharedProps GConc GConcFacts GConcProps.

(** No new call is begun, nobody else uses the underlying allocator, no mode is switched. *)
Definition only_steps (c : mchoice) : Prop :=
  match c with MGo _ false => True | MNext _ => True | _ => False end.

(** How much is left to do outside. *)
Definition post_work (q : post) : nat :=
  match q with PNone => 0 | PReset | PDown | PUp _ _ => 1 | PZero _ => 2 | _ => 3 end.
Definition posts_work (l : list post) : nat := fold_right (fun q n => (post_work q + n)%nat) 0%nat l.

Lemma posts_set l : forall t q q', nth_error l t = Some q ->
  (posts_work (set_nth t q' l) + post_work q = posts_work l + post_work q')%nat.
Proof.
  induction l as [|a l IH]; intros [|t] q q' H; try discriminate; cbn [nth_error set_nth posts_work fold_right] in *.
  - inversion H; subst. fold (posts_work l). lia.
  - specialize (IH t q q' H). fold (posts_work (set_nth t q' l)) (posts_work l). lia.
Qed.
Lemma posts_zero l : posts_work l = 0%nat -> forallb is_none l = true.
Proof.
  induction l as [|a l IH]; [reflexivity|]. cbn [posts_work fold_right forallb]. fold (posts_work l). intros H.
  destruct a; cbn in H; try lia. cbn. apply IH. exact H.
Qed.
Lemma posts_some l : posts_work l <> 0%nat -> exists t q, nth_error l t = Some q /\ q <> PNone.
Proof.
  induction l as [|a l IH]; [cbn; congruence|]. intros H. destruct a eqn:Ea;
    try (exists 0%nat, a; subst; split; [reflexivity|discriminate]).
  destruct (IH H) as (t & q & E). exists (S t), q. exact E.
Qed.

Section Live.
  Variable su : setup.
  Hypothesis Hok : setup_ok su.

  Definition still (m : mst) : Prop := forall t p, nth_error (g_thr (m_g m)) t = Some p -> p = Idle.

  (** Steps inside, taken one by one. *)
  Definition mgo (c : choice) : mchoice := match c with Go t sp => MGo t sp | _ => MGo 0 false end.
  Lemma mgo_run sched : Forall is_go sched -> forall m s s2 es g', minv su m s s2 -> crun su sched (m_g m) = ORet es g' ->
    exists es' m', mrun su (map mgo sched) m = ORet es' m' /\ m_g m' = g'.
  Proof.
    induction 1 as [|c sched Hc _ IH]; intros m s s2 es g' Hi E.
    - inversion E; subst. exists [], m. split; reflexivity.
    - destruct c as [t o|t sp|t v|keep]; try (cbn in Hc; contradiction). cbn [crun] in E. unfold bind in E.
      destruct (cstep su (Go t sp) (m_g m)) as [e1 g1| | |] eqn:E1; try discriminate.
      destruct (crun su sched g1) as [e2 g2| | |] eqn:E2; try discriminate. inversion E; subst.
      pose proof (mstep_ok su Hok (MGo t sp) m s s2 Hi) as W. apply wp_inv in W. destruct W as (es1 & m1 & Es & Hi1).
      assert (Eg : m_g m1 = g1).
      { unfold mstep in Es. cbn [mstep_at] in Es. unfold thread_step in Es. destruct (nth_error (m_post m) t) as [q|] eqn:Hq.
        - unfold bind, inside_step, on_o, lift_g in Es. unfold m_g in E1. rewrite E1 in Es.
          unfold put_post, ret in Es. inversion Es; subst. reflexivity.
        - inversion Es; subst. unfold cstep, bind, get_g in E1.
          destruct (nth_error (g_thr (m_g m1)) t) eqn:Hp; [|inversion E1; reflexivity].
          apply nth_error_None in Hq. rewrite (mi_len _ _ _ _ Hi) in Hq. apply nth_error_None in Hq. congruence. }
      subst g1.
      destruct (IH m1 _ _ _ _ Hi1 E2) as (es2 & m2 & Er & Eg2).
      exists (es1 ++ es2), m2. split; [|exact Eg2]. cbn [map mgo mrun]. unfold bind. rewrite Es, Er. reflexivity.
  Qed.

  Lemma all_idle m : still m -> forallb is_idle (g_thr (m_g m)) = true.
  Proof. intros H. apply forallb_forall. intros p Hin. destruct (In_nth_error _ _ Hin) as (t & Ht). rewrite (H t p Ht). reflexivity. Qed.
  Lemma all_away m : still m -> forallb away (g_thr (m_g m)) = true.
  Proof. intros H. apply forallb_forall. intros p Hin. destruct (In_nth_error _ _ Hin) as (t & Ht). rewrite (H t p Ht). reflexivity. Qed.
  Lemma none_busy m h : still m -> busy h (g_thr (m_g m)) = false.
  Proof.
    intros H. unfold busy. destruct (existsb _ _) eqn:E; [|reflexivity]. apply existsb_exists in E.
    destruct E as (p & Hin & Hh). destruct (In_nth_error _ _ Hin) as (t & Ht). rewrite (H t p Ht) in Hh. discriminate.
  Qed.

  (** A step outside. *)
  Lemma one_next m s s2 t q : minv su m s s2 -> still m -> nth_error (m_post m) t = Some q -> q <> PNone ->
    (q = PReset -> existsb is_pending (m_post m) = false) ->
    exists es m' q', mstep su (MNext t) m = ORet es m' /\ still m' /\ m_post m' = set_nth t q' (m_post m) /\
      (post_work q' < post_work q)%nat.
  Proof.
    intros Hi Hs Hq N Hr.
    pose proof (mstep_ok su Hok (MNext t) m s s2 Hi) as W. apply wp_inv in W. destruct W as (es & m' & E & _).
    exists es, m'. 
    assert (Hp : nth_error (g_thr (m_g m)) t = Some Idle).
    { destruct (nth_error (g_thr (m_g m)) t) as [p|] eqn:Hp; [rewrite (Hs t p Hp) in *; reflexivity|].
      apply nth_error_None in Hp. rewrite <- (mi_len _ _ _ _ Hi) in Hp. apply nth_error_None in Hp. congruence. }
    pose proof (mi_at _ _ _ _ Hi t _ _ Hp Hq) as Hf.
    pose proof E as E0. unfold mstep in E. cbn [mstep_at] in E. rewrite Hp, Hq in E.
    destruct q as [|z|h|h z| | | |]; try congruence.
    - destruct Hf as (l & X & _). discriminate X.
    - destruct (mi_pend _ _ _ _ Hi t _ h Hq eq_refl) as ((b & Hb & _) & _ & _).
      destruct (oinv_live su _ _ _ _ _ (mi_o _ _ _ _ Hi) Hb) as (u & Hu & Hl). fold (m_g m) in Hu. rewrite Hu in E.
      exists (PUp h true). split; [exact E0|].
      unfold enter_call, bind at 1, inside_step, on_o, lift_g in E.
      fold (m_g m) in E. unfold cstep, bind at 1, get_g in E. rewrite Hp in E. unfold begin, bind at 1, get_g in E. rewrite Hu in E.
      rewrite (none_busy m h Hs) in E. rewrite repeat_length in E. cbn [negb andb] in E.
      assert (0 <= u_len u).
      { destruct (oinv_block su Hok _ _ _ (mi_o _ _ _ _ Hi) h u Hu) as (_ & _ & X & _). pose proof (mi_size _ _ _ _ Hi h u Hu). lia. }
      rewrite Z2Nat.id in E by lia. cbn in E. rewrite Z.leb_refl in E.
      unfold bind, on_w, ret, put_post in E. inversion E; subst. cbn [m_post]. split; [|split; [reflexivity|cbn; lia]].
      intros t' p' H'. cbn in H'. apply (Hs t' p' H').
    - exists PNone. split; [exact E0|]. unfold bind, add_count, put_post, ret in E. inversion E; subst.
      split; [exact Hs|]. split; [reflexivity|cbn; lia].
    - destruct Hf as (h & u & l & X). discriminate X.
    - exists PNone. split; [exact E0|]. unfold bind, add_count, put_post, ret in E. inversion E; subst.
      split; [exact Hs|]. split; [reflexivity|cbn; lia].
    - destruct Hf as (h & u & o & n & X & _). discriminate X.
    - exists PNone. split; [exact E0|]. rewrite (Hr eq_refl) in E.
      unfold bind at 1, inside_step, on_o, lift_g in E. fold (m_g m) in E.
      unfold cstep, bind at 1, get_g in E. rewrite Hp in E. unfold begin, bind at 1, get_g in E. rewrite (all_away m Hs) in E.
      unfold bind, on_aw, put_tab, ret in E. destruct (do_reset su true (g_aw (m_g m))) as [x aw|aw| |]; try discriminate.
      unfold put_lost, put_post in E. inversion E; subst. cbn [m_post]. split; [|split; [reflexivity|cbn; lia]].
      intros t' p' H'. cbn in H'. apply (Hs t' p' H').
  Qed.

  Lemma drain_posts n : forall m s s2, minv su m s s2 -> still m -> (posts_work (m_post m) <= n)%nat ->
    exists sched es m', Forall only_steps sched /\ mrun su sched m = ORet es m' /\ all_ready m' = true.
  Proof.
    induction n as [|n IH]; intros m s s2 Hi Hs Hn.
    - exists [], [], m. split; [constructor|]. split; [reflexivity|]. unfold all_ready.
      rewrite (all_idle m Hs), posts_zero by lia. reflexivity.
    - destruct (Nat.eq_dec (posts_work (m_post m)) 0) as [Z0|Z0].
      { exists [], [], m. split; [constructor|]. split; [reflexivity|]. unfold all_ready.
        rewrite (all_idle m Hs), posts_zero by exact Z0. reflexivity. }
      assert (Hgo : exists t q, nth_error (m_post m) t = Some q /\ q <> PNone /\
                (q = PReset -> existsb is_pending (m_post m) = false)).
      { destruct (existsb is_pending (m_post m)) eqn:Ep.
        - apply existsb_exists in Ep. destruct Ep as (q & Hin & Hq). destruct (In_nth_error _ _ Hin) as (t & Ht).
          exists t, q. split; [exact Ht|]. split; intros ->; discriminate Hq.
        - destruct (posts_some _ Z0) as (t & q & Ht & N). exists t, q. auto. }
      destruct Hgo as (t & q & Hq & N & Hr).
      destruct (one_next m s s2 t q Hi Hs Hq N Hr) as (es & m1 & q1 & E1 & Hs1 & Ep & Hlt).
      pose proof (mstep_ok su Hok (MNext t) m s s2 Hi) as W. unfold wp in W. rewrite E1 in W.
      pose proof (posts_set (m_post m) t q q1 Hq) as Ps.
      destruct (IH m1 _ _ W Hs1) as (sched & es2 & m2 & F & E2 & R); [rewrite Ep; lia|].
      exists (MNext t :: sched), (es ++ es2), m2. split; [constructor; [exact I|exact F]|]. split; [|exact R].
      cbn [mrun]. unfold bind. rewrite E1, E2. reflexivity.
  Qed.

  Lemma mrun_two sched1 sched2 m es1 m1 es2 m2 : mrun su sched1 m = ORet es1 m1 -> mrun su sched2 m1 = ORet es2 m2 ->
    mrun su (sched1 ++ sched2) m = ORet (es1 ++ es2) m2.
  Proof.
    revert m es1. induction sched1 as [|c sched1 IH]; intros m es1 E1 E2; cbn [mrun app] in *.
    - inversion E1; subst. exact E2.
    - unfold bind in *. destruct (mstep su c m) as [e m'| | |]; try discriminate.
      destruct (mrun su sched1 m') as [e' m''| | |] eqn:E; try discriminate. inversion E1; subst.
      rewrite (IH m' e' E E2). unfold ret. rewrite app_assoc. reflexivity.
  Qed.

  Lemma all_finish n sched es m : mreached su n sched es m ->
    exists sched2 es2 m2, Forall only_steps sched2 /\ mrun su sched2 m = ORet es2 m2 /\ all_ready m2 = true.
  Proof.
    intros E. pose proof (mreached_inv su Hok _ _ _ _ E) as Hi.
    destruct (mi_o _ _ _ _ Hi) as (X & _).
    destruct (drain su Hok _ _ _ _ _ X) as (d & e & g' & s' & F & Ed & _ & Hid).
    destruct (mgo_run d F m _ _ e g' Hi Ed) as (e1 & m1 & E1 & Eg).
    pose proof (mrun_ok su Hok (map mgo d) m _ _ Hi) as W. unfold wp in W. rewrite E1 in W.
    destruct (drain_posts (posts_work (m_post m1)) m1 _ _ W) as (d2 & e2 & m2 & F2 & E2 & R);
      [unfold still; rewrite Eg; exact Hid|lia|].
    exists (map mgo d ++ d2), (e1 ++ e2), m2. split; [|split; [apply (mrun_two _ _ _ _ _ _ _ E1 E2)|exact R]].
    apply Forall_app. split; [|exact F2]. apply Forall_map. eapply Forall_impl; [|exact F].
    intros c Hc. destruct c as [|t sp| |]; try (cbn in Hc; contradiction). destruct sp; [contradiction|exact I].
  Qed.
End Live.

(** Thread 0 has checked and is about to reset, thread 1 is in the slow path. *)
Definition gbusy : list mchoice := [MBlink; MReset 0; MAlloc 1 (La 16 8) true] ++ mtimes 3 1.
