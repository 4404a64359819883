(** Proxies over a shared allocator over the adversarial bottom allocator. *)
From Coq Require Import Permutation.
From Verif Require Import Base BaseFacts Alloc AllocFacts Arena ArenaFacts ArenaInv ArenaOps BlinkAlloc BlinkFacts
  History HistoryFacts Setup SetupFacts Frame Proxy ProxyFacts.

(** [A], except that it is undefined behaviour to ask it for less than [n] bytes. *)
Definition wary {W} (n : Z) (A : Allocator W) : Allocator W :=
  mkAllocator W (al_mem A) (al_set_mem A)
    (fun l => if l_size l <? n then (fun _ => OUB) else al_allocate A l) (al_deallocate A) (al_grow A) (al_shrink A).

Section Wary.
  Context {W : Type} (A : Allocator W) (dbg : bool) (psmax n : Z).

  Lemma blink_allocate_wary l ar w : ar_root ar = None -> 0 <= ar_min ar -> n <= HDR + ar_min ar -> req_ok psmax l ->
    blink_allocate (wary n A) dbg l (ar, w) = blink_allocate A dbg l (ar, w).
  Proof.
    intros Er Hm Hn Hl. unfold blink_allocate, bind, alloc_fast, arena_alloc_slow, with_aw. cbn [fst snd]. rewrite Er. cbn [ret].
    unfold alloc_slow, bind. cbn [fst snd]. rewrite Er. cbn [ret].
    pose proof (fun lay => slow_req_min psmax [] (ar_min ar) l lay Hm (Z.le_refl 0) Hl) as Hs. unfold slow_req in Hs. cbn [cum_of] in Hs.
    destruct (next_chunk_size None (ar_min ar) l) as [s|]; [|reflexivity].
    unfold debug_assert. destruct (dbg && negb (s mod HDR_ALIGN =? 0)); [reflexivity|]. cbn [ret].
    unfold alloc_chunk. destruct (align_up s HDR_ALIGN) as [s'|]; [|reflexivity]. unfold bind. cbn [wary al_allocate l_size].
    specialize (Hs _ eq_refl). cbn [l_size] in Hs. replace (s' <? n) with false by lia. reflexivity.
  Qed.
End Wary.

Section Statements.
  Variable su : setup.
  Variable psmax nmax : Z.

  (** [psmax]: the largest request to a proxy; [nmax]: the largest argument of
      [update_max_local_alloc].  In a debug build (or with a bounded bottom allocator) the
      chunks of the proxies must be requests the shared allocator can be asked for. *)
  Definition proxies_ok : Prop :=
    setup_ok su /\ psmax <= USIZE_MAX /\ 0 <= Z.max (su_amax su) nmax <= USIZE_MAX /\
    ((su_dbg su = false /\ su_smax su = USIZE_MAX) \/ Z.max (su_amax su) nmax + psmax + 2 ^ 15 <= su_smax su).

  Definition proxy_run (os : list pop) := prun (ba su) (su_dbg su) (do_reset su) (su_smax su) psmax nmax os.
  Definition proxy_start : pst (W := AW (W := bworld)) := pstart (c_w (start su)).

  (** What all the clients may count on: the blocks behave as independent buffers, are
      well-formed, and never overlap. *)
  Definition separate (os : list pop) (rs : list pres) (s : pst (W := AW (W := bworld))) : Prop :=
    length rs = length os /\
    pagree (al_mem (ba su) (ps_w s)) s (pspecs os rs (mkSp [] [])) /\
    (forall who h u, owns s who h u -> u_ok (su_amax su) u) /\
    (forall who1 h1 u1 who2 h2 u2, owns s who1 h1 u1 -> owns s who2 h2 u2 -> (who1, h1) <> (who2, h2) -> disjoint_u u1 u2).

  Hypothesis Hok : proxies_ok.
  Lemma psu : setup_ok su.
  Proof. apply Hok. Qed.
  Lemma pamax : 0 <= su_amax su <= USIZE_MAX.
  Proof. apply psu. Qed.
  Notation Hct := (ba_contract su psu).

  Lemma pcfg : cfg_lax (su_dbg su) (su_amax su) psmax (Z.max (su_amax su) nmax) (su_smax su).
  Proof.
    pose proof Hok as (H1 & H2 & H3 & H4). pose proof H1 as (_ & _ & _ & Hs & _). split; [exact H2|]. split; [exact Hs|].
    destruct H4 as [H4|H4]; [left; exact H4|right; lia].
  Qed.
  Lemma ptop : Z.max (su_amax su) nmax <= USIZE_MAX.
  Proof. apply Hok. Qed.
  Notation pinv := (pinv (su_amax su) nmax (ba su) (sown su)).

  Lemma proxy_run_inv os s b : pinv s b -> exists rs s', proxy_run os s = ORet rs s' /\
    length rs = length os /\ pinv s' (pspecs os rs b) /\ grows s s' /\
    (In PPanicked rs -> su_dbg su = true /\ exists o, In o os /\ small o).
  Proof.
    intros H. pose proof (prun_ok (su_amax su) (su_smax su) psmax nmax (ba su) (sown su) Hct pamax (su_dbg su) (do_reset su)
      (ba_reset su psu) ptop pcfg os s b H) as Hr. apply wp_inv in Hr. exact Hr.
  Qed.
  Lemma proxy_start_inv : pinv proxy_start (mkSp [] []).
  Proof. apply pstart_inv; [|pose proof pamax; lia]. destruct (start_inv su psu) as [H _]. exact H. Qed.

  Theorem proxies_apart os : exists rs s, proxy_run os proxy_start = ORet rs s /\ separate os rs s.
  Proof.
    destruct (proxy_run_inv os _ _ proxy_start_inv) as (rs & s & E & L & H & _). exists rs, s. split; [exact E|].
    split; [exact L|]. split; [apply (pinv_agree _ _ _ _ pamax _ _ H)|]. split.
    - intros who h u. apply (pinv_ok (su_amax su) (su_smax su) nmax (ba su) (sown su) Hct s _ who h u H).
    - intros who1 h1 u1 who2 h2 u2. apply (pinv_disjoint (su_amax su) (su_smax su) nmax (ba su) (sown su) Hct s _ who1 h1 u1 who2 h2 u2 H).
  Qed.

  (** No operation panics, but one in debug builds: the allocation of a zero-sized block of
      a small alignment on a proxy. *)
  Theorem proxies_panic os rs s : proxy_run os proxy_start = ORet rs s -> In PPanicked rs ->
    su_dbg su = true /\ exists o, In o os /\ exists k l z, o = PUse (Some k) (OpAlloc l z) /\ l_size l = 0 /\ l_align l <= 8.
  Proof.
    destruct (proxy_run_inv os _ _ proxy_start_inv) as (rs' & s' & E & _ & _ & _ & P). rewrite E. intros X. injection X as <- <-. exact P.
  Qed.

  (** With no proxy left, [reset_final] of the shared allocator returns every byte to the
      underlying allocator. *)
  Theorem proxies_reclaimed os rs s : proxy_run os proxy_start = ORet rs s -> forallb is_none (ps_prox s) = true ->
    exists s', proxy_run [PUse None (OpReset false)] s = ORet [PBlock None] s' /\ outstanding (bw_trace (snd (ps_w s'))) = [].
  Proof.
    destruct (proxy_run_inv os _ _ proxy_start_inv) as (rs' & s' & E & _ & H & _). rewrite E. intros X Hn. injection X as <- <-.
    destruct H as [_ _ (P & leak & (cs & R & _ & _) & _)]. destruct (ps_w s') as [ar w] eqn:Ew.
    pose proof (reset_final_ok su psu cs ar w _ R) as Hr. apply wp_inv in Hr. destruct Hr as ([] & aw' & Er & _ & Ho & _).
    unfold proxy_run. cbn [prun]. unfold bind, pstep. cbn [pstep_at]. rewrite Hn. unfold caught, on_shared. rewrite Ew.
    unfold step, step_at, bind, call. cbn [c_w c_tab]. rewrite Er. cbn [ret].
    eexists. split; [reflexivity|]. exact Ho.
  Qed.

  (** ** The size of the first chunk *)

  Theorem recorded_grows os1 rs1 s1 os2 rs2 s2 : proxy_run os1 proxy_start = ORet rs1 s1 -> proxy_run os2 s1 = ORet rs2 s2 ->
    ps_max s1 <= ps_max s2.
  Proof.
    destruct (proxy_run_inv os1 _ _ proxy_start_inv) as (rs' & s' & E & _ & H & _). rewrite E. intros X. injection X as <- <-.
    destruct (proxy_run_inv os2 _ _ H) as (rs3 & s3 & E3 & _ & _ & G & _). rewrite E3. intros X. injection X as <- <-. apply G.
  Qed.

  Lemma run_cons o os s rs s' : proxy_run (o :: os) s = ORet rs s' ->
    exists r rs' s1, pstep (ba su) (su_dbg su) (do_reset su) (su_smax su) psmax nmax o s = ORet r s1 /\
      proxy_run os s1 = ORet rs' s' /\ rs = r :: rs'.
  Proof.
    unfold proxy_run. cbn [prun]. unfold bind. destruct (pstep _ _ _ _ _ _ o s) as [r s1| | |]; try discriminate.
    destruct (prun _ _ _ _ _ _ os s1) as [rs' s2| | |] eqn:E; try discriminate. cbn [ret]. intros X. injection X as <- <-.
    exists r, rs', s1. auto.
  Qed.

  Lemma warm_min os1 rs1 s1 k n fin os2 rs2 s2 os3 rs3 s3 :
    proxy_run os1 proxy_start = ORet rs1 s1 -> last_capacity (ba su) s1 k = Some n ->
    fin = PDrop k \/ fin = PReset k -> proxy_run (fin :: os2) s1 = ORet rs2 s2 ->
    proxy_run (PLocal :: os3) s2 = ORet rs3 s3 ->
    exists b, pinv s3 b /\
    forall p, get (length (ps_prox s2)) (ps_prox s3) = Some p -> n <= ar_min (px_arena p).
  Proof.
    intros E1 Hn Hf E2 E3.
    destruct (proxy_run_inv os1 _ _ proxy_start_inv) as (rs' & s' & E & _ & I1 & _). rewrite E in E1. injection E1 as -> ->.
    pose proof (fun o s b => pstep_ok (su_amax su) (su_smax su) psmax nmax (ba su) (sown su) Hct pamax (su_dbg su) (do_reset su)
      (ba_reset su psu) ptop pcfg o s b) as Hstep.
    apply run_cons in E2. destruct E2 as (r1 & rs2' & s1' & F1 & F2 & _).
    pose proof (Hstep fin _ _ I1) as H1. unfold wp in H1. rewrite F1 in H1. destruct H1 as (I1' & _ & Hc & _ & _).
    specialize (Hc k n Hf Hn).
    destruct (proxy_run_inv os2 _ _ I1') as (rs'' & s'' & E2 & _ & I2 & G2 & _). rewrite F2 in E2. injection E2 as <- <-.
    apply run_cons in E3. destruct E3 as (r3 & rs3' & s2' & F3 & F4 & _).
    pose proof (Hstep PLocal _ _ I2) as H3. unfold wp in H3. rewrite F3 in H3. destruct H3 as (I2' & _ & _ & Hl & _).
    destruct (Hl eq_refl) as (p0 & Ep & Em).
    destruct (proxy_run_inv os3 _ _ I2') as (rs4 & s4 & E4 & _ & I3 & G3 & _). rewrite F4 in E4. injection E4 as <- <-.
    eexists. split; [exact I3|]. intros p Gp.
    destruct G3 as (_ & _ & G3). specialize (G3 (length (ps_prox s2))). rewrite Gp, Ep, app_length in G3. cbn [length] in G3.
    destruct (G3 ltac:(lia)) as (p1 & Gp1 & Mp). rewrite get_mid in Gp1. injection Gp1 as <-. destruct G2 as [G2 _]. lia.
  Qed.

  (** Every proxy made after proxy [k] was reset or dropped has chunks at least as large as
      the last chunk of [k] was. *)
  Theorem warm_up os1 rs1 s1 k n fin os2 rs2 s2 os3 rs3 s3 c :
    proxy_run os1 proxy_start = ORet rs1 s1 -> last_capacity (ba su) s1 k = Some n ->
    fin = PDrop k \/ fin = PReset k -> proxy_run (fin :: os2) s1 = ORet rs2 s2 ->
    proxy_run (PLocal :: os3) s2 = ORet rs3 s3 ->
    last_capacity (ba su) s3 (length (ps_prox s2)) = Some c -> n <= c.
  Proof.
    intros E1 Hn Hf E2 E3 Hc. destruct (warm_min _ _ _ _ _ _ _ _ _ _ _ _ E1 Hn Hf E2 E3) as (b & I & Hm).
    unfold last_capacity in Hc. destruct (get (length (ps_prox s2)) (ps_prox s3)) as [p|] eqn:G; [|discriminate].
    specialize (Hm p eq_refl).
    pose proof (pinv_capacity (su_amax su) (su_smax su) nmax (ba su) (sown su) Hct s3 b _ p c I G) as Hp.
    unfold last_capacity in Hp. rewrite G in Hp. specialize (Hp Hc). lia.
  Qed.

  (** And what its first allocation asks the shared allocator for has room for the header
      and that capacity. *)
  Theorem warm_request os1 rs1 s1 k n fin os2 rs2 s2 os3 rs3 s3 p l z :
    proxy_run os1 proxy_start = ORet rs1 s1 -> last_capacity (ba su) s1 k = Some n ->
    fin = PDrop k \/ fin = PReset k -> proxy_run (fin :: os2) s1 = ORet rs2 s2 ->
    proxy_run (PLocal :: os3) s2 = ORet rs3 s3 ->
    get (length (ps_prox s2)) (ps_prox s3) = Some p -> ar_root (px_arena p) = None ->
    let first A := on_proxy (length (ps_prox s2)) (step psmax (blink A (su_dbg su)) (fun _ => blink_reset A) (OpAlloc l z)) s3 in
    first (wary (32 + n) (ba su)) = first (ba su).
  Proof.
    intros E1 Hn Hf E2 E3 Hg Hr. destruct (warm_min _ _ _ _ _ _ _ _ _ _ _ _ E1 Hn Hf E2 E3) as (b & I & Hm).
    specialize (Hm p Hg). cbv zeta. unfold on_proxy. rewrite Hg. unfold step, step_at. cbn [c_tab].
    destruct (req_okb psmax l) eqn:El; [|reflexivity]. unfold call. cbn [c_w c_tab].
    destruct (focus (su_amax su) (su_smax su) nmax (ba su) (sown su) Hct s3 b _ p I Hg) as
      (P1 & cs & P2 & l1 & l2 & S1 & t & S2 & leak & _ & _ & _ & _ & _ & _ & L & _). pose proof (lr_min _ _ _ _ _ _ L) as [Hmin _].
    assert (Hw : blink_allocate (wary (32 + n) (ba su)) (su_dbg su) l (px_arena p, ps_w s3) = blink_allocate (ba su) (su_dbg su) l (px_arena p, ps_w s3)).
    { apply (blink_allocate_wary (ba su) (su_dbg su) psmax (32 + n) l); auto. unfold HDR. lia. }
    destruct z; [|cbn [blink al_allocate]; rewrite Hw; reflexivity].
    unfold al_allocate_zeroed, bind. cbn [blink al_allocate]. rewrite Hw. reflexivity.
  Qed.

  (** ** [update_max_local_alloc] *)

  (** One call with more than the address space holds, and no later proxy ever has a block. *)
  Theorem poisoned os1 rs1 s1 n os2 rs2 s2 os3 rs3 s3 h u :
    proxy_run os1 proxy_start = ORet rs1 s1 -> 0 <= n <= nmax -> su_amax su < 32 + n ->
    proxy_run (PUpdate n :: os2) s1 = ORet rs2 s2 -> proxy_run (PLocal :: os3) s2 = ORet rs3 s3 ->
    ~ owns s3 (Some (length (ps_prox s2))) h u.
  Proof.
    intros E1 Hn Hbig E2 E3.
    destruct (proxy_run_inv os1 _ _ proxy_start_inv) as (rs' & s' & E & _ & I1 & _). rewrite E in E1. injection E1 as -> ->.
    pose proof (fun o s b => pstep_ok (su_amax su) (su_smax su) psmax nmax (ba su) (sown su) Hct pamax (su_dbg su) (do_reset su)
      (ba_reset su psu) ptop pcfg o s b) as Hstep.
    apply run_cons in E2. destruct E2 as (r1 & rs2' & s1' & F1 & F2 & _).
    pose proof (Hstep (PUpdate n) _ _ I1) as H1. unfold wp in H1. rewrite F1 in H1. destruct H1 as (I1' & _ & _ & _ & _).
    assert (Hm1 : n <= ps_max s1').
    { unfold pstep, pstep_at in F1. replace ((0 <=? n) && (n <=? nmax)) with true in F1 by lia.
      unfold caught, p_update in F1. injection F1 as _ <-. cbn [ps_max]. lia. }
    destruct (proxy_run_inv os2 _ _ I1') as (rs'' & s'' & E2 & _ & I2 & G2 & _). rewrite F2 in E2. injection E2 as <- <-.
    apply run_cons in E3. destruct E3 as (r3 & rs3' & s2' & F3 & F4 & _).
    pose proof (Hstep PLocal _ _ I2) as H3. unfold wp in H3. rewrite F3 in H3. destruct H3 as (I2' & _ & _ & Hl & _).
    destruct (Hl eq_refl) as (p0 & Ep & Em).
    destruct (proxy_run_inv os3 _ _ I2') as (rs4 & s4 & E4 & _ & I3 & G3 & _). rewrite F4 in E4. injection E4 as <- <-.
    intros (p & Gp & Gh).
    destruct G3 as (_ & _ & G3). specialize (G3 (length (ps_prox s2))). rewrite Gp, Ep, app_length in G3. cbn [length] in G3.
    destruct (G3 ltac:(lia)) as (p1 & Gp1 & Mp). rewrite get_mid in Gp1. injection Gp1 as <-. destruct G2 as [G2 _].
    destruct (focus (su_amax su) (su_smax su) nmax (ba su) (sown su) Hct s3 _ _ p I3 Gp) as
      (P1 & cs & P2 & l1 & l2 & S1 & t & S2 & leak & _ & _ & _ & _ & _ & _ & L & _ & Ho).
    destruct cs as [|c cs].
    - pose proof (placed_nil _ (lr_placed _ _ _ _ _ _ L)) as X. rewrite (live_nil_get _ h X) in Gh. discriminate.
    - destruct (ct_wf _ _ _ _ Hct _ _ Ho) as [O _]. cbn [map app] in O. inversion O as [|? ? ((X1 & _ & _ & X4) & _) _]; subst.
      pose proof (Forall_inv (lr_caps _ _ _ _ _ _ L)) as Hc. cbn beta in Hc. unfold HDR in Hc. unfold ublk in *. cbn [b_ptr b_len] in *. lia.
  Qed.
End Statements.
