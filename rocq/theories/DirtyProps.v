(** Proxies and global allocators on dirty memory. *)
From Verif Require Import Base BaseFacts Alloc AllocFacts Arena ArenaFacts BlinkAlloc BlinkFacts History HistoryFacts
  Setup SetupFacts Proxy ProxyFacts ProxyProps Global GlobalFacts GlobalProps Param Dirty DirtyFacts.

Definition wipe : AW (W := bworld) -> Z -> cell := fun _ _ => Undef.

Section Proxies.
  Variable su : setup.
  Variable psmax nmax : Z.
  Hypothesis Hok : proxies_ok su psmax nmax.
  Notation R := (both_arenas same_base).

  Lemma dirty_alike low high : alike R (dirty_ba su blank wipe) (dirty_ba su low high).
  Proof.
    apply soil_alike; [exact (blink_alike _ _ _ (base_alike (su_bmax su) (su_strat su) low) (su_dbg su))|].
    exact (blink_forgiving _ _ _ (base_forgiving (su_bmax su) (su_strat su) low) (su_dbg su)).
  Qed.
  Lemma wiped_alike : alike R (dirty_ba su blank wipe) (ba su).
  Proof.
    apply clean_alike; [exact (blink_alike _ _ _ (base_alike (su_bmax su) (su_strat su) blank) (su_dbg su))|].
    exact (blink_forgiving _ _ _ (base_forgiving (su_bmax su) (su_strat su) blank) (su_dbg su)).
  Qed.
  Lemma dirty_reset_like low keep : like R (dirty_reset su blank keep) (dirty_reset su low keep).
  Proof. unfold dirty_reset. destruct keep; exact (la_reset same_base _ _ (base_alike (su_bmax su) (su_strat su) low) _). Qed.
  Lemma wiped_reset_like keep : like R (dirty_reset su blank keep) (do_reset su keep).
  Proof. unfold dirty_reset, do_reset. destruct keep; exact (la_reset same_base _ _ (base_alike (su_bmax su) (su_strat su) blank) _). Qed.

  Definition alike_proxies (s0 s : pst (W := AW (W := bworld))) : Prop :=
    ps_max s = ps_max s0 /\ ps_prox s = ps_prox s0 /\ ps_tab s = ps_tab s0 /\ fst (ps_w s) = fst (ps_w s0) /\ same_base (snd (ps_w s0)) (snd (ps_w s)).
  Lemma wiped_run os : exists rs s0, dirty_proxies su blank wipe psmax nmax os (dirty_proxies_start su (fun _ => Undef)) = ORet rs s0.
  Proof.
    pose proof (soil_contract (su_amax su) (su_smax su) _ _ wipe (ba_contract su (psu su psmax nmax Hok))) as Hct.
    pose proof (prun_ok (su_amax su) (su_smax su) psmax nmax _ (sown su) Hct (pamax su psmax nmax Hok) (su_dbg su) (do_reset su)
      (ba_reset su (psu su psmax nmax Hok)) (ptop su psmax nmax Hok) (pcfg su psmax nmax Hok) os (proxy_start su) (mkSp [] [])) as Hr.
    assert (P : pinv (su_amax su) nmax (soil (ba su) wipe) (sown su) (proxy_start su) (mkSp [] [])).
    { apply pstart_inv; [|pose proof (pamax su psmax nmax Hok); lia]. destruct (start_inv su (psu su psmax nmax Hok)) as [H _]. exact H. }
    specialize (Hr P). apply wp_inv in Hr. destruct Hr as (rs & s0 & E & _). exists rs, s0. exact E.
  Qed.
  Theorem proxies_same os : exists rs s0,
    dirty_proxies su blank wipe psmax nmax os (dirty_proxies_start su (fun _ => Undef)) = ORet rs s0 /\
    (exists s, proxy_run su psmax nmax os (proxy_start su) = ORet rs s /\ alike_proxies s0 s) /\
    forall low high m, exists s,
      dirty_proxies su low high psmax nmax os (dirty_proxies_start su m) = ORet rs s /\ alike_proxies s0 s.
  Proof.
    destruct (wiped_run os) as (rs & s0 & E). exists rs, s0. split; [exact E|]. split.
    - assert (P : both_shared R (dirty_proxies_start su (fun _ => Undef)) (proxy_start su)) by (repeat split; apply agree_undef).
      pose proof (lp_run R _ _ wiped_alike (su_dbg su) _ _ wiped_reset_like (su_smax su) psmax nmax os _ _ P) as L.
      unfold dirty_proxies in E. rewrite E in L. destruct L as (s & E' & L1 & L2 & L3 & L4 & L5). exists s. split; [exact E'|]. repeat split; auto; apply L5.
    - intros low high m.
      assert (P : both_shared R (dirty_proxies_start su (fun _ => Undef)) (dirty_proxies_start su m)) by (repeat split; apply agree_undef).
      pose proof (lp_run R _ _ (dirty_alike low high) (su_dbg su) _ _ (dirty_reset_like low) (su_smax su) psmax nmax os _ _ P) as L.
      unfold dirty_proxies in E. rewrite E in L. destruct L as (s & E' & L1 & L2 & L3 & L4 & L5). exists s. split; [exact E'|]. repeat split; auto; apply L5.
  Qed.
End Proxies.

Section Globals.
  Variable su : setup.
  Hypothesis Hok : setup_ok su.

  Lemma lenient_alike {W1 W2} (R : W1 -> W2 -> Prop) A1 A2 : alike R A1 A2 -> alike R (lenient A1) (lenient A2).
  Proof. intros H. constructor; intros; try apply H; cbn; destruct (_ <=? _); apply H. Qed.

  Definition alike_global (c0 c : gcst (W := bworld)) : Prop :=
    gc_tab c = gc_tab c0 /\ g_on (gc_st c) = g_on (gc_st c0) /\ g_count (gc_st c) = g_count (gc_st c0) /\
    fst (g_aw (gc_st c)) = fst (g_aw (gc_st c0)) /\ same_base (snd (g_aw (gc_st c0))) (snd (g_aw (gc_st c))).
  Lemma start_users m : both_users same_base (gstart su) (dirty_gstart su m).
  Proof. repeat split; apply agree_undef. Qed.
  Theorem strict_same sync os : exists rs c0, strict_run su sync os (gstart su) = ORet rs c0 /\
    forall low m, exists c, dirty_strict su low sync os (dirty_gstart su m) = ORet rs c /\ alike_global c0 c.
  Proof.
    destruct (strict_well su Hok sync os) as (rs & c0 & E & _). exists rs, c0. split; [exact E|]. intros low m.
    pose proof (lu_run same_base _ _ (base_alike (su_bmax su) (su_strat su) low) (su_dbg su) sync (su_smax su) Z.eqb os _ _ (start_users m)) as L.
    unfold strict_run, bot in E. rewrite E in L. destruct L as (c & E' & L1 & L2 & L3 & L4 & L5). exists c. split; [exact E'|]. repeat split; auto; apply L5.
  Qed.
  Theorem lenient_same sync os : exists rs c0, lenient_run su sync os (gstart su) = ORet rs c0 /\
    forall low m, exists c, dirty_lenient su low sync os (dirty_gstart su m) = ORet rs c /\ alike_global c0 c.
  Proof.
    destruct (lenient_well su Hok sync os) as (rs & c0 & E & _). exists rs, c0. split; [exact E|]. intros low m.
    pose proof (lu_run same_base _ _ (lenient_alike _ _ _ (base_alike (su_bmax su) (su_strat su) low)) (su_dbg su) sync (su_smax su) (fun _ _ => true) os _ _ (start_users m)) as L.
    unfold lenient_run, bot in E. rewrite E in L. destruct L as (c & E' & L1 & L2 & L3 & L4 & L5). exists c. split; [exact E'|]. repeat split; auto; apply L5.
  Qed.
End Globals.
