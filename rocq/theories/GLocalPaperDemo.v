(** Consequences of C93 and a worked case. *)
From Verif Require Import Base BaseFacts Alloc AllocFacts Arena ArenaFacts BlinkAlloc History HistoryFacts Setup SetupFacts Concrete BlinkDemo
  Proxy ProxyFacts ProxyProps ProxyDemo Global GlobalFacts GlobalProps GLocal GLocalFacts GLocalProps GLocalDemo
  Paper PaperFacts ProxyPaper GlobalPaper GLocalPaper GLocalPaperFacts.

Section Paper.
  Variable min : Z.
  Variable S : strategy.
  Variable dbg : bool.
  Variable smax : Z.
  Variable may : Z -> Z -> bool.
  Variables psmax nmax : Z.
  Notation stp := (lg_step min S dbg smax may psmax nmax).
  Notation rn := (lg_run min S dbg smax may psmax nmax).

  Lemma lg_run_app a b : forall q, rn (a ++ b) q = (fst (rn a q) ++ fst (rn b (snd (rn a q))), snd (rn b (snd (rn a q)))).
  Proof.
    induction a as [|o a IH]; intros q; cbn [app lg_run].
    - cbn [fst snd app]. destruct (rn b q). reflexivity.
    - destruct (stp o q) as [r q1]. rewrite IH. destruct (rn a q1). reflexivity.
  Qed.

  (** Only what the proxies see matters to them. *)
  Lemma proxies_see ps : forall q1 q2, for_proxies q1 = for_proxies q2 ->
    fst (rn (map LProxy ps) q1) = fst (rn (map LProxy ps) q2) /\
    for_proxies (snd (rn (map LProxy ps) q1)) = for_proxies (snd (rn (map LProxy ps) q2)) /\
    gp_tab (lp_g (snd (rn (map LProxy ps) q1))) = gp_tab (lp_g q1).
  Proof.
    induction ps as [|o ps IH]; intros q1 q2 E; cbn [map lg_run]; [auto|].
    assert (H : exists r q1' q2', stp (LProxy o) q1 = (r, q1') /\ stp (LProxy o) q2 = (r, q2') /\ for_proxies q1' = for_proxies q2' /\
      gp_tab (lp_g q1') = gp_tab (lp_g q1)).
    { destruct o as [|k|k|n|[k|] o]; cbn [lg_step]; rewrite <- ?E; try (destruct (pp_step _ _ _ _ _ _ _ (for_proxies q1)) as [r x];
        do 3 eexists; split; [reflexivity|]; split; [reflexivity|]; split; reflexivity).
      do 3 eexists. split; [reflexivity|]. split; [reflexivity|]. auto. }
    destruct H as (r & q1' & q2' & -> & -> & E' & Et). destruct (IH _ _ E') as (I1 & I2 & I3).
    destruct (rn (map LProxy ps) q1') as [rs1 q1''], (rn (map LProxy ps) q2') as [rs2 q2'']. cbn [fst snd] in *.
    split; [congruence|]. split; [exact I2|congruence].
  Qed.

  Lemma blink_unseen q : for_proxies (snd (stp (LGlobal GBlink) q)) = for_proxies q /\ fst (stp (LGlobal GBlink) q) = RGlobal GDone.
  Proof. split; reflexivity. Qed.
End Paper.

(** The blocks of the proxies' clients. *)
Definition proxy_blocks {W} (s : lst (W := W)) : list (option (list (option ublock))) := map (option_map px_tab) (l_prox s).

Lemma drawn_blocks m l ql : Forall2 (drawn m) l ql -> map (option_map px_tab) l = map (option_map pp_tab) ql.
Proof.
  intros D. induction D as [|p q l ql D1 D IH]; [reflexivity|]. cbn [map]. rewrite IH. f_equal.
  destruct p as [p|], q as [q|]; try contradiction; [|reflexivity]. destruct D1 as (_ & D1 & _). cbn [option_map]. rewrite D1. reflexivity.
Qed.

Lemma mode_unseen su psmax nmax lax os ps : proxies_ok su psmax nmax ->
  exists rs rs' s s', both_run su psmax nmax lax true (os ++ map LProxy ps) (both_start su) = ORet (rs ++ rs') s /\
    both_run su psmax nmax lax true (os ++ LGlobal GBlink :: map LProxy ps) (both_start su) = ORet (rs ++ RGlobal GDone :: rs') s' /\
    length rs = length os /\ proxy_blocks s = proxy_blocks s' /\ l_max s = l_max s' /\
    bw_trace (snd (g_aw (gc_st (l_g s)))) = bw_trace (snd (g_aw (gc_st (l_g s')))).
Proof.
  intros H. destruct (both_on_paper su psmax nmax lax H (os ++ map LProxy ps)) as (r1 & s1 & q1 & E1 & Q1 & ((_ & _ & _ & P4) & P5 & P6)).
  destruct (both_on_paper su psmax nmax lax H (os ++ LGlobal GBlink :: map LProxy ps)) as (r2 & s2 & q2 & E2 & Q2 & ((_ & _ & _ & P4') & P5' & P6')).
  rewrite lg_run_app in Q1, Q2. set (q := snd (lg_run (su_min su) (su_strat su) (su_dbg su) (su_smax su) (whichever lax) psmax nmax os lp0)) in *.
  set (rs := fst (lg_run (su_min su) (su_strat su) (su_dbg su) (su_smax su) (whichever lax) psmax nmax os lp0)) in *.
  cbn [lg_run] in Q2. destruct (blink_unseen (su_min su) (su_strat su) (su_dbg su) (su_smax su) (whichever lax) psmax nmax q) as [B1 B2].
  destruct (lg_step (su_min su) (su_strat su) (su_dbg su) (su_smax su) (whichever lax) psmax nmax (LGlobal GBlink) q) as [r q']. cbn [fst snd] in B1, B2. subst r.
  destruct (proxies_see (su_min su) (su_strat su) (su_dbg su) (su_smax su) (whichever lax) psmax nmax ps q q' (eq_sym B1)) as (I1 & I2 & _).
  destruct (lg_run _ _ _ _ _ _ _ (map LProxy ps) q) as [ra qa], (lg_run _ _ _ _ _ _ _ (map LProxy ps) q') as [rb qb]. cbn [fst snd] in *. subst rb.
  injection Q1 as <- <-. injection Q2 as <- <-. exists rs, ra, s1, s2. split; [exact E1|]. split; [exact E2|].
  injection I2 as Em Ep Ek Ec. split.
  - destruct (both_on_paper su psmax nmax lax H os) as (r3 & s3 & q3 & E3 & Q3 & _).
    destruct (both_run_ok su psmax nmax lax H os _ _ (both_start_inv su psmax nmax lax H)) as (r4 & s4 & E4 & L & _).
    rewrite E3 in E4. injection E4 as <- <-. unfold rs. rewrite Q3. exact L.
  - split; [|split; congruence]. unfold proxy_blocks. rewrite (drawn_blocks _ _ _ P6), (drawn_blocks _ _ _ P6'), Ep. reflexivity.
Qed.

(** ** A case *)
Definition tour_paper : lpaper :=
  mkLP (mkGP false [mkP 3145728 8192 3149856] [None; None]
          [EvDealloc 1048576 (L 16 8); EvDealloc 2097152 (L 512 8); EvAlloc (L 8192 8) (Some (mkBlock 3145728 8192));
           EvAlloc (L 512 8) (Some (mkBlock 2097152 512)); EvAlloc (L 16 8) (Some (mkBlock 1048576 16))])
    4064 [None; None; Some (mkPP 4064 [mkP 3145760 4096 3145800] [Some (mkU 3145792 8 (L 8 8))])].
Lemma tour_on_paper : exists rs s, both_run (big megabytes) (2 ^ 40) (2 ^ 20) false true ltour (both_start (big megabytes)) = ORet rs s /\
  lshows s tour_paper /\
  firstn 7 rs = [RGlobal (GPtr 1048576); RProxy PDone; RGlobal GDone; RProxy (PBlock (Some (mkBlock 2097216 100)));
                 RProxy (PBlock None); RGlobal GDone; RGlobal (GPtr 2097440)] /\
  nth_error rs 15 = Some (RGlobal GPanicked) /\ nth_error rs 19 = Some (RProxy (PBlock (Some (mkBlock 3145792 8)))).
Proof.
  destruct (both_on_paper (big megabytes) (2 ^ 40) (2 ^ 20) false (big_proxies _) ltour) as (rs & s & q & E & Q & P).
  vm_compute in Q. injection Q as <- <-. eexists. exists s. split; [exact E|]. split; [exact P|]. repeat split.
Qed.
Lemma tour_mode : exists rs rs' s s',
  both_run (big megabytes) (2 ^ 40) (2 ^ 20) false true (firstn 4 ltour ++ map LProxy [PUse (Some 0%nat) (OpAlloc (L 600 16) false)]) (both_start (big megabytes)) = ORet (rs ++ rs') s /\
  both_run (big megabytes) (2 ^ 40) (2 ^ 20) false true (firstn 4 ltour ++ LGlobal GBlink :: map LProxy [PUse (Some 0%nat) (OpAlloc (L 600 16) false)])
    (both_start (big megabytes)) = ORet (rs ++ RGlobal GDone :: rs') s' /\
  rs' = [RProxy (PBlock (Some (mkBlock 3145792 600)))] /\ g_on (gc_st (l_g s)) = false /\ g_on (gc_st (l_g s')) = true.
Proof.
  destruct (both_on_paper (big megabytes) (2 ^ 40) (2 ^ 20) false (big_proxies _)
    (firstn 4 ltour ++ map LProxy [PUse (Some 0%nat) (OpAlloc (L 600 16) false)])) as (r1 & s1 & q1 & E1 & Q1 & ((P1 & _) & _)).
  destruct (both_on_paper (big megabytes) (2 ^ 40) (2 ^ 20) false (big_proxies _)
    (firstn 4 ltour ++ LGlobal GBlink :: map LProxy [PUse (Some 0%nat) (OpAlloc (L 600 16) false)])) as (r2 & s2 & q2 & E2 & Q2 & ((P2 & _) & _)).
  vm_compute in Q1. injection Q1 as <- <-. vm_compute in Q2. injection Q2 as <- <-.
  exists [RGlobal (GPtr 1048576); RProxy PDone; RGlobal GDone; RProxy (PBlock (Some (mkBlock 2097216 100)))]. eexists. exists s1, s2.
  split; [exact E1|]. split; [exact E2|]. split; [reflexivity|]. split; [exact P1|exact P2].
Qed.
