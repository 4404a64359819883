(** Global allocators with proxies: every history keeps the invariant. *)
From Coq Require Import Permutation.
From Verif Require Import Base BaseFacts Alloc AllocFacts Arena ArenaFacts ArenaInv ArenaOps BlinkAlloc BlinkFacts
  History HistoryFacts Frame Proxy ProxyFacts Global GlobalFacts GlobalProps GLocal.

(** ** Proxies do not look at the blocks allocated from the shared allocator itself *)

Definition retab {W} (t : list (option ublock)) (s : pst (W := W)) : pst := mkPst (ps_max s) (ps_prox s) t (ps_w s).
Definition retabbed {W B} (t : list (option ublock)) (o : outcome (pst (W := W)) B) : outcome (pst (W := W)) B :=
  match o with ORet b s => ORet b (retab t s) | OPanic s => OPanic (retab t s) | OAbort => OAbort | OUB => OUB end.

Section Retab.
  Context {W : Type} (A : Allocator W) (dbg : bool) (reset : bool -> M W unit) (smax psmax nmax : Z) (t : list (option ublock)).
  Definition blind {B} (m : M (pst (W := W)) B) : Prop := forall s, m (retab t s) = retabbed t (m s).

  Lemma blind_bind {B C} (m : M (pst (W := W)) B) (f : B -> M pst C) : blind m -> (forall b, blind (f b)) -> blind (bind m f).
  Proof. intros H1 H2 s. unfold bind. rewrite H1. destruct (m s); cbn [retabbed]; auto. apply H2. Qed.
  Lemma blind_on_proxy {B} k (m : M (cst (AW (W := W))) B) : blind (on_proxy k m).
  Proof. intros s. unfold on_proxy, retab. cbn [ps_prox ps_w]. destruct (get k (ps_prox s)) as [p|]; [|reflexivity]. destruct (m _); reflexivity. Qed.
  Lemma blind_caught {B} (m : M (pst (W := W)) B) res : blind m -> blind (caught m res).
  Proof. intros H s. unfold caught. rewrite H. destruct (m s); reflexivity. Qed.
  Lemma blind_update n : blind (p_update (W := W) n).
  Proof. intros s. reflexivity. Qed.

  Lemma blind_pstep o : (forall o', o <> PUse None o') -> blind (pstep A dbg reset smax psmax nmax o).
  Proof.
    intros Hn s. unfold pstep. cbn [retab ps_prox]. fold (retab t s).
    assert (Hskip : retabbed t (@ret (pst (W := W)) pres PSkipped s) = ret PSkipped (retab t s)) by reflexivity.
    destruct o as [|k|k|n|[k|] o]; cbn [pstep_at].
    - reflexivity.
    - destruct (alive k (ps_prox s)); [|reflexivity]. apply blind_caught. unfold p_drop.
      apply blind_bind; [apply blind_on_proxy|]. intros n. apply blind_bind; [apply blind_update|]. intros _.
      apply blind_bind; [apply blind_on_proxy|]. intros _. apply blind_bind; [apply blind_on_proxy|]. intros _ s'. reflexivity.
    - destruct (alive k (ps_prox s)); [|reflexivity]. apply blind_caught. unfold p_reset.
      apply blind_bind; [apply blind_on_proxy|]. intros n. apply blind_bind; [apply blind_update|]. intros _. apply blind_on_proxy.
    - destruct ((0 <=? n) && (n <=? nmax)); reflexivity.
    - destruct (alive k (ps_prox s)); [|reflexivity]. apply blind_caught, blind_on_proxy.
    - destruct (Hn o eq_refl).
  Qed.
End Retab.

(** The buffers of the shared allocator's own client do not change either. *)
Lemma pspec_blind o r x t : (forall o', o <> PUse None o') ->
  pspec_step o r (mkSp x t) = mkSp (sp_prox (pspec_step o r (mkSp x []))) t.
Proof.
  intros Hn. destruct o as [|k|k|n|[k|] o]; [..|destruct (Hn o eq_refl)]; destruct r; cbn [pspec_step sp_prox sp_tab]; try reflexivity;
    destruct (get k x); reflexivity.
Qed.

(** ** Blocks and what they contain *)

(** The buffers that pin down the contents of the blocks [us] in [m]. *)
Definition pinned (m : mem) (us : list ublock) : list (option sbuf) :=
  map (fun u => Some (mkS (u_layout u) (u_len u) (fun i => Some (m (u_ptr u + i))))) us.
Lemma pinned_agrees m us : agrees m (map Some us) (pinned m us).
Proof.
  induction us as [|u us IH]; cbn; constructor; [|exact IH]. cbn. split; [reflexivity|]. split; [reflexivity|].
  intros i c _ E. injection E as <-. reflexivity.
Qed.
Lemma pinned_same m m' us : agrees m' (map Some us) (pinned m us) -> same_on us m m'.
Proof.
  unfold agrees, pinned. induction us as [|u us IH]; cbn [map]; intros H v x Hv Hx; [destruct Hv|].
  inversion H as [|? ? ? ? Hu Hr]; subst. destruct Hv as [<-|Hv]; [|apply (IH Hr v x Hv Hx)].
  destruct Hu as (_ & _ & Hu). cbn [s_len s_at] in Hu. unfold in_u in Hx.
  specialize (Hu (x - u_ptr u) (m x)). replace (u_ptr u + (x - u_ptr u)) with x in Hu by lia. apply Hu; [lia|reflexivity].
Qed.
Lemma live_some {T} (l : list T) : live (map Some l) = l.
Proof. induction l; cbn; congruence. Qed.

(** ** Invariant *)

Definition leads {W B} (o : outcome W B) (Q : W -> Prop) : Prop :=
  match o with ORet _ w | OPanic w => Q w | _ => True end.

(** Blink-mode blocks [F] that are not the client's. *)
Definition tag (F : list ublock) : gtab := map (fun u => Some (true, u)) F.
Lemma part_tag_true F : part true (tag F) = F.
Proof. induction F as [|u F IH]; [reflexivity|]. unfold part, tag in *. cbn [map live filter fst Bool.eqb snd]. f_equal. exact IH. Qed.
Lemma part_tag_false F : part false (tag F) = [].
Proof. induction F as [|u F IH]; [reflexivity|]. unfold part, tag in *. cbn [map live filter fst Bool.eqb]. exact IH. Qed.

Section GLocal.
  Context {W : Type} (amax smax smax' : Z) (A : Allocator W) (own : W -> list ublock -> Prop).
  Hypothesis Hct : contract amax smax' A own.
  Hypothesis Hamax : 0 <= amax <= USIZE_MAX.
  Variable dbg : bool.
  Variable min : Z.
  Hypothesis Hmin : 0 <= min <= USIZE_MAX.
  Hypothesis Hcfg : cfg_ok dbg amax smax min smax'.
  Hypothesis Hss : smax <= smax'.
  Variable may : Z -> Z -> bool.
  Hypothesis Hmay : forall u old new, fits old u -> req_ok smax' new -> may (l_size old) (l_size new) = true ->
    resizes amax A own (if l_size new <=? l_size old then al_grow A (u_ptr u) old new else al_shrink A (u_ptr u) old new) u old new.
  Variable psmax nmax : Z.
  Notation top := (Z.max amax nmax).
  Hypothesis Htop : top <= USIZE_MAX.
  Hypothesis Hpcfg : cfg_lax dbg amax psmax top smax.

  Notation amem aw := (al_mem A (snd aw)).
  Notation has := (has amax A own min).
  Notation serves := (serves amax A own min).

  Lemma has_tag F t aw : has (tag F ++ t) aw <-> serves (part false t) aw (F ++ part true t).
  Proof. unfold GlobalFacts.has. rewrite !part_app, part_tag_true, part_tag_false. reflexivity. Qed.
  Lemma both_tag F t u : In u F -> In u (both (tag F ++ t)).
  Proof. intros H. unfold both. rewrite part_app, part_tag_true. apply in_or_app. left. apply in_or_app. left. exact H. Qed.
  Lemma same_tag F t m m' : same_on (both (tag F ++ t)) m m' -> same_on F m m'.
  Proof. intros S u x Hu. apply S. apply both_tag. exact Hu. Qed.
  Lemma has_untag F t aw : has (tag F ++ t) aw -> has t aw.
  Proof.
    rewrite has_tag. unfold GlobalFacts.has. intros (cs & R & Hm). exists cs. split; [|exact Hm].
    induction F as [|u F IH]; [exact R|]. apply IH. apply (arep_drop _ _ _ _ _ _ _ _ _ R).
  Qed.

  (** Operations on the global allocator leave the others' blocks alone, unless they reset it. *)
  Lemma gstep_with F o c : has (tag F ++ gc_tab c) (g_aw (gc_st c)) -> resets o = false ->
    leads (gstep A dbg true smax may o c) (fun c' =>
      has (tag F ++ gc_tab c') (g_aw (gc_st c')) /\ same_on F (amem (g_aw (gc_st c))) (amem (g_aw (gc_st c')))).
  Proof.
    intros H Hr. unfold gstep.
    assert (Hskip : leads (@ret (gcst (W := W)) gres GSkipped c) (fun c' =>
      has (tag F ++ gc_tab c') (g_aw (gc_st c')) /\ same_on F (amem (g_aw (gc_st c))) (amem (g_aw (gc_st c'))))).
    { split; [exact H|apply same_on_refl]. }
    destruct o as [l z|h|h n|h off cs| | |]; try discriminate Hr; cbn [gstep_at].
    - destruct (layout_okb l && req_okb smax l && (1 <=? l_size l)) eqn:El; [|exact Hskip].
      apply andb_true_iff in El. destruct El as [El _]. apply andb_true_iff in El. destruct El as [_ El].
      pose proof (st_alloc_ok amax smax smax' A own Hct Hamax dbg min Hcfg Hss (g_on (gc_st c)) _ _ l z H El) as X.
      apply wp_inv in X. destruct X as (r & aw & E & S1 & R). apply same_tag in S1.
      unfold gcall, g_alloc, bind, on_aw. rewrite E. destruct r as [b|].
      + destruct R as (_ & R & _). rewrite <- app_assoc in R. unfold count_up, ret. cbn [g_on g_count g_aw].
        destruct (dbg && g_on (gc_st c)); [|split; [exact R|exact S1]].
        split; [exact R|exact S1].
      + cbn [ret leads gc_tab gc_st g_aw]. split; [exact R|exact S1].
    - destruct (get h (gc_tab c)) as [[bk u]|] eqn:G; [|exact Hskip].
      destruct (Bool.eqb bk (g_on (gc_st c))) eqn:Eb; [|exact Hskip]. apply eqb_prop in Eb.
      destruct (get_split _ _ _ G) as (t1 & t2 & Et & L). rewrite Et in H. rewrite app_assoc, Eb in H.
      pose proof (st_dealloc_ok amax smax' A own Hct Hamax min (g_on (gc_st c)) u _ t2 _ H) as X.
      apply wp_inv in X. destruct X as (r & aw & E & S1 & R). rewrite <- app_assoc in S1, R. apply same_tag in S1.
      unfold gcall, g_dealloc, bind, on_aw. rewrite E. rewrite Et, <- L. unfold count_down. cbn [g_on g_count g_aw].
      destruct (dbg && g_on (gc_st c)); cbn [leads gc_tab gc_st g_aw]; rewrite set_nth_split; (split; [exact R|exact S1]).
    - destruct (get h (gc_tab c)) as [[bk u]|] eqn:G; [|exact Hskip]. cbv zeta.
      destruct (Bool.eqb bk (g_on (gc_st c)) && (1 <=? n) && (n <=? USIZE_MAX) &&
        (req_okb smax (mkLayout n (l_align (u_layout u))) || negb (layout_okb (mkLayout n (l_align (u_layout u)))))
        && (g_on (gc_st c) || may (l_size (u_layout u)) n)) eqn:Eb; [|exact Hskip].
      apply andb_true_iff in Eb. destruct Eb as [Eb Em]. apply andb_true_iff in Eb. destruct Eb as [Eb Er].
      apply andb_true_iff in Eb. destruct Eb as [Eb _]. apply andb_true_iff in Eb. destruct Eb as [Eb _]. apply eqb_prop in Eb.
      unfold gcall, g_realloc. remember (mkLayout n (l_align (u_layout u))) as new eqn:En.
      destruct (layout_okb new) eqn:El0; [|split; [exact H|apply same_on_refl]].
      assert (El : req_okb smax new = true) by (destruct (req_okb smax new); [reflexivity|discriminate Er]).
      assert (Hp : u_ptr u =? 0 = false).
      { destruct (has_block amax smax' A own Hct min _ _ _ _ _ (has_untag _ _ _ H) G) as ((G1 & _) & _). unfold ublk in G1. cbn in G1. lia. }
      rewrite Hp. destruct (get_split _ _ _ G) as (t1 & t2 & Et & L). rewrite Et in H |- *. rewrite app_assoc, Eb in H.
      assert (Em' : g_on (gc_st c) || may (l_size (u_layout u)) (l_size new) = true) by (rewrite En; exact Em).
      pose proof (st_resize_ok amax smax smax' A own Hct Hamax dbg min Hcfg Hss may Hmay (g_on (gc_st c)) u _ t2 _ new H El Em') as X.
      apply wp_inv in X. destruct X as (r & aw & E & S1 & R). rewrite <- app_assoc in S1. apply same_tag in S1.
      unfold on_aw. rewrite E. destruct r as [b|]; cbn [leads gc_tab gc_st g_aw].
      + destruct R as (_ & R & _). rewrite <- app_assoc in R. rewrite <- L, set_nth_split. split; [exact R|exact S1].
      + destruct R as (_ & R). rewrite <- app_assoc in R. rewrite Eb. split; [exact R|exact S1].
    - destruct (get h (gc_tab c)) as [[bk u]|] eqn:G; [|exact Hskip].
      destruct ((0 <=? off) && (off + Z.of_nat (length cs) <=? l_size (u_layout u))) eqn:Eb; [|exact Hskip].
      apply andb_true_iff in Eb. destruct Eb as [Eb1 Eb2].
      assert (Hu : l_size (u_layout u) <= u_len u) by apply (has_in amax smax' A own Hct min _ _ (has_untag _ _ _ H) _ _ _ G).
      destruct (get_split _ _ _ G) as (t1 & t2 & Et & L). rewrite Et in H. rewrite app_assoc in H.
      destruct (has_write amax smax' A own Hct min bk u _ t2 _ (write_cells (amem (g_aw (gc_st c))) (u_ptr u + off) cs) H) as [H' S1].
      { intros x Hx. apply write_cells_other. unfold in_u in Hx. lia. }
      rewrite <- app_assoc in S1, H'. apply same_tag in S1. cbn [leads gc_tab gc_st g_aw snd]. rewrite (ct_mem _ _ _ _ Hct), Et.
      split; [exact H'|exact S1].
    - split; [exact H|apply same_on_refl].
  Qed.

  (** *** What the proxies take their chunks from *)

  (** The shared allocator, while the direct-mode blocks [ext] keep the contents [m0]. *)
  Definition shared (ext : list ublock) (m0 : mem) : AW (W := W) -> list ublock -> Prop :=
    blink_own amax A (framed A own ext m0) (fun _ _ => True) [] min.

  Lemma shared_contract ext m0 : contract amax smax (blink A dbg) (shared ext m0).
  Proof.
    apply (blink_contract amax smax smax' A _ (contract_framed amax smax' A own ext m0 Hct) Hamax dbg).
    - apply jinv_true.
    - exact Hcfg.
  Qed.
  Lemma shared_reset ext m0 k aw us : shared ext m0 aw us -> wp (arena_reset A k) aw (fun _ aw' => shared ext m0 aw' []).
  Proof.
    intros (cs & R & _ & Hm).
    eapply wp_mono; [apply (serves_reset amax smax' A _ (contract_framed amax smax' A own ext m0 Hct) min [] aw us k)|].
    - exists cs. split; [exact R|exact Hm].
    - intros _ aw' [_ (cs' & R' & Hm')]. exists cs'. auto.
  Qed.
  Lemma shared_serves ext m0 aw us : shared ext m0 aw us <-> serves ext aw us /\ same_on ext m0 (amem aw).
  Proof.
    split.
    - intros (cs & R & _ & Hm). destruct R as [R1 R2 R3 R4 [R5 R5'] R6 R7 R8]. split; [|exact R5'].
      exists cs. split; [|exact Hm]. rewrite app_nil_r in R5. constructor; assumption.
    - intros ((cs & R & Hm) & S). exists cs. split; [|auto]. destruct R as [R1 R2 R3 R4 R5 R6 R7 R8].
      constructor; auto. split; [rewrite app_nil_r; exact R5|exact S].
  Qed.

  (** *** The invariant *)

  Record linv (s : lst (W := W)) (b : lspec) : Prop := mkLinv {
    li_g : ginv amax A own dbg min (l_g s) (ls_on b) (ls_tab b);
    li_max : 0 <= l_max s <= top;
    li_prox : exists P leak, has (tag (allc P ++ leak) ++ gc_tab (l_g s)) (g_aw (gc_st (l_g s))) /\
      each amax nmax (amem (g_aw (gc_st (l_g s)))) P (l_prox s) (ls_prox b)
  }.

  Lemma each_unused m P l S : each amax nmax m P l S -> forallb unused l = true -> allc P = [].
  Proof.
    intros E. induction E as [|cs p t P l S Ho E IH]; intros H; [reflexivity|]. cbn [forallb] in H. apply andb_true_iff in H. destruct H as [Hp H].
    rewrite allc_cons, (IH H), app_nil_r. destruct p as [p|], t as [t|]; try contradiction Ho.
    - destruct Ho as [L _]. pose proof (lr_head _ _ _ _ _ _ L) as Hh. cbn [unused] in Hp. destruct cs; [reflexivity|].
      rewrite Hh in Hp. discriminate Hp.
    - cbn in Ho. rewrite Ho. reflexivity.
  Qed.

  Lemma on_global_ok o s b : linv s b -> resets o = false \/ forallb unused (l_prox s) = true ->
    wp (on_global A dbg smax may o) s (fun r s' => exists r', r = RGlobal r' /\
      linv s' (lspec_step (LGlobal o) r b) /\
      (r' = GPanicked <-> (o = GReset \/ o = GDirect) /\ dbg = true /\ part true (gc_tab (l_g s)) <> []) /\
      (r' = GPanicked -> s' = s)).
  Proof.
    intros [Hg Hmax (P & leak & Hh & He)] Hr.
    pose proof (gstep_ok amax smax smax' A own Hct Hamax dbg true min Hcfg Hss may Hmay o _ _ _ Hg) as X.
    apply wp_inv in X. destruct X as (r & c & E & Hg' & Hp & Hp').
    unfold wp, on_global. rewrite E. exists r. split; [reflexivity|]. split.
    2:{ split; [exact Hp|]. intros Er. rewrite (Hp' Er). destruct s; reflexivity. }
    cbn [lspec_step]. constructor; cbn [l_g l_max l_prox ls_on ls_tab ls_prox]; [exact Hg'|exact Hmax|].
    destruct (resets o) eqn:Eo.
    - destruct Hr as [Hr|Hr]; [discriminate Hr|].
      pose proof (each_unused _ _ _ _ He Hr) as E1.
      exists P, []. rewrite E1. cbn [tag map app]. split; [apply (gi_has _ _ _ _ _ _ _ _ Hg')|].
      apply (each_same amax nmax (amem (g_aw (gc_st (l_g s))))); [|exact He]. rewrite E1. intros u x [].
    - pose proof (gstep_with (allc P ++ leak) o (l_g s) Hh Eo) as Y. rewrite E in Y. destruct Y as [Y1 Y2].
      exists P, leak. split; [exact Y1|]. apply (each_same amax nmax (amem (g_aw (gc_st (l_g s))))); [|exact He].
      apply same_on_app in Y2. apply Y2.
  Qed.

  (** What an operation of the proxies does to the sizes recorded, and when it panics. *)
  Definition idle (o : pop) : Prop := exists k l z, o = PUse (Some k) (OpAlloc l z) /\ l_size l = 0 /\ l_align l <= 8.

  Lemma on_proxies_ok o s b : linv s b -> (forall o', o <> PUse None o') ->
    wp (on_proxies A dbg smax psmax nmax o) s (fun r s' => exists r', r = RProxy r' /\
      linv s' (lspec_step (LProxy o) r b) /\ l_max s <= l_max s' /\
      gc_tab (l_g s') = gc_tab (l_g s) /\ g_count (gc_st (l_g s')) = g_count (gc_st (l_g s)) /\
      (r' = PPanicked -> dbg = true /\ idle o)).
  Proof.
    intros [Hg Hmax (P & leak & Hh & He)] Hn. set (aw := g_aw (gc_st (l_g s))) in *. set (t := gc_tab (l_g s)) in *.
    set (ext := part false t). set (us := part true t). set (m0 := amem aw) in *.
    set (p0 := mkPst (l_max s) (l_prox s) [] aw).
    assert (Hp : pinv amax nmax (blink A dbg) (shared ext m0) (retab (map Some us) p0) (mkSp (ls_prox b) (pinned m0 us))).
    { constructor; cbn [retab p0 ps_max ps_prox ps_tab ps_w sp_tab sp_prox].
      - exact Hmax.
      - apply pinned_agrees.
      - exists P, leak. split; [|exact He]. rewrite live_some. apply shared_serves. split; [|apply same_on_refl].
        apply has_tag in Hh. rewrite <- app_assoc in Hh. exact Hh. }
    pose proof (pstep_ok amax smax psmax nmax (blink A dbg) (shared ext m0) (shared_contract ext m0) Hamax dbg (arena_reset A)
      (shared_reset ext m0) Htop Hpcfg o _ _ Hp) as X.
    apply wp_inv in X. destruct X as (r & s' & E & Hp' & Hgr & _ & _ & Hpan).
    rewrite (blind_pstep (blink A dbg) dbg (arena_reset A) smax psmax nmax (map Some us) o Hn p0) in E.
    unfold wp, on_proxies. fold aw. fold p0. destruct (pstep (blink A dbg) dbg (arena_reset A) smax psmax nmax o p0) as [r0 s0| | |];
      cbn [retabbed] in E; try discriminate E. injection E as -> <-.
    exists r. split; [reflexivity|].
    rewrite (pspec_blind o r (ls_prox b) (pinned m0 us) Hn) in Hp'.
    destruct Hp' as [Q1 Q2 (P' & leak' & Q3 & Q4)]. cbn [retab ps_max ps_prox ps_tab ps_w sp_tab sp_prox] in Q1, Q2, Q3, Q4.
    change (al_mem (blink A dbg) (ps_w s0)) with (amem (ps_w s0)) in Q2, Q4.
    apply pinned_same in Q2. rewrite live_some in Q3. apply shared_serves in Q3. destruct Q3 as [Q3 Q5].
    assert (Hh' : has (tag (allc P' ++ leak') ++ t) (ps_w s0)) by (apply has_tag; rewrite <- app_assoc; exact Q3).
    assert (Eb : lspec_step (LProxy o) (RProxy r) b = mkLs (ls_on b) (ls_tab b) (sp_prox (pspec_step o r (mkSp (ls_prox b) [])))).
    { destruct o as [|k|k|n|[k|] o]; [..|destruct (Hn o eq_refl)]; reflexivity. }
    rewrite Eb. split; [|split; [|split; [reflexivity|split; [reflexivity|exact Hpan]]]].
    - destruct Hg as [G1 G2 G3 G4 G5 G6]. constructor; cbn [with_proxies l_g l_max l_prox gc_tab gc_st g_aw ls_on ls_tab ls_prox].
      + constructor; cbn [gc_tab gc_st g_aw g_on g_count]; auto.
        * apply (has_untag _ _ _ Hh').
        * apply (agree_same (both t) m0); [|apply (has_in amax smax' A own Hct min _ _ G2)|exact G3].
          apply same_on_app. split; [exact Q2|exact Q5].
      + exact Q1.
      + exists P', leak'. split; [exact Hh'|exact Q4].
    - destruct Hgr as [Hgr _]. exact Hgr.
  Qed.

  Lemma lstep_ok o s b : linv s b ->
    wp (lstep A dbg true smax may psmax nmax o) s (fun r s' =>
      linv s' (lspec_step o r b) /\ l_max s <= l_max s' /\
      (r = RGlobal GPanicked <-> (o = LGlobal GReset \/ o = LGlobal GDirect) /\ forallb unused (l_prox s) = true /\
                                 dbg = true /\ part true (gc_tab (l_g s)) <> []) /\
      (r = RGlobal GPanicked -> s' = s) /\
      (r = RProxy PPanicked -> dbg = true /\ exists o', o = LProxy o' /\ idle o')).
  Proof.
    intros H. destruct o as [o|o].
    - unfold lstep, wp. destruct (resets o && negb (may_reset true (l_prox s))) eqn:Er.
      + apply andb_true_iff in Er. destruct Er as [Er1 Er2].
        split; [destruct o, b; exact H|]. split; [lia|]. split; [|split; discriminate].
        split; [discriminate|]. intros (_ & E & _). cbn [may_reset] in Er2. rewrite E in Er2. discriminate Er2.
      + assert (Hr : resets o = false \/ forallb unused (l_prox s) = true).
        { destruct (resets o); [right|left; reflexivity]. cbn [andb may_reset] in Er. destruct (forallb unused (l_prox s)); [reflexivity|discriminate Er]. }
        pose proof (on_global_ok o s b H Hr) as X. apply wp_inv in X. destruct X as (r & s' & E & r' & -> & H' & Hp & Hp').
        rewrite E. split; [exact H'|]. split.
        { unfold on_global in E. destruct (gstep A dbg true smax may o (l_g s)); try discriminate E. injection E as E1 E2. rewrite <- E2. cbn [l_max]. lia. }
        split; [|split; [intros X; injection X as ->; auto|discriminate]].
        split.
        * intros X. injection X as ->. destruct (proj1 Hp eq_refl) as (Ho & Ed & Hne).
          split; [destruct Ho as [-> | ->]; auto|]. split; [|auto].
          destruct Hr as [Hr|Hr]; [|exact Hr]. destruct Ho as [-> | ->]; discriminate Hr.
        * intros (Ho & _ & Ed & Hne). f_equal. apply Hp. split; [|auto]. destruct Ho as [X|X]; injection X as ->; auto.
    - assert (Hd : (exists o', o = PUse None o') \/ (forall o', o <> PUse None o')).
      { destruct o as [|k|k|n|[k|] o]; [right; discriminate..|left; eauto]. }
      destruct Hd as [(o' & ->)|Hn].
      + unfold lstep. apply wp_ret. split; [exact H|]. split; [lia|]. split; [|split; discriminate].
        split; [discriminate|]. intros ([E|E] & _); discriminate E.
      + assert (El : lstep A dbg true smax may psmax nmax (LProxy o) = on_proxies A dbg smax psmax nmax o).
        { destruct o as [|k|k|n|[k|] o]; [..|destruct (Hn o eq_refl)]; reflexivity. }
        rewrite El. eapply wp_mono; [apply (on_proxies_ok o s b H Hn)|]. intros r s' (r' & -> & H' & Hm & _ & _ & Hp).
        split; [exact H'|]. split; [exact Hm|]. split; [|split; [discriminate|]].
        * split; [discriminate|]. intros ([E|E] & _); discriminate E.
        * intros X. injection X as ->. destruct (Hp eq_refl) as [Hd Hi]. split; [exact Hd|]. exists o. auto.
  Qed.

  Lemma lrun_ok os : forall s b, linv s b ->
    wp (lrun A dbg true smax may psmax nmax os) s (fun rs s' =>
      length rs = length os /\ linv s' (lspecs os rs b) /\ l_max s <= l_max s' /\
      (In (RProxy PPanicked) rs -> dbg = true /\ exists o, In (LProxy o) os /\ idle o)).
  Proof.
    induction os as [|o os IH]; intros s b H; cbn [lrun].
    - apply wp_ret. split; [reflexivity|]. split; [exact H|]. split; [lia|intros []].
    - apply wp_bind. eapply wp_mono; [apply (lstep_ok o s b H)|]. intros r s1 (H1 & M1 & _ & _ & P1).
      apply wp_bind. eapply wp_mono; [apply (IH _ _ H1)|]. intros rs s2 (L2 & H2 & M2 & P2). apply wp_ret.
      cbn [length lspecs]. split; [lia|]. split; [exact H2|]. split; [lia|]. intros [E|E].
      + destruct (P1 E) as (Hd & o' & -> & Hi). split; [exact Hd|]. exists o'. split; [left; reflexivity|exact Hi].
      + destruct (P2 E) as (Hd & o' & Ho & Hi). split; [exact Hd|]. exists o'. split; [right; exact Ho|exact Hi].
  Qed.

  Lemma lstart_inv w : own w [] -> 0 <= top -> linv (l_new min w) (mkLs false [] []).
  Proof.
    intros Ho Ht. pose proof (gstart_inv amax smax smax' A own Hct dbg min Hmin Hcfg w Ho) as G.
    constructor; cbn [l_new l_g l_max l_prox ls_on ls_tab ls_prox]; [exact G|lia|].
    exists [], []. split; [apply (gi_has _ _ _ _ _ _ _ _ G)|constructor].
  Qed.

  (** *** What it means *)

  Lemma linv_pinv s b : linv s b -> exists own' us S,
    contract amax smax (blink A dbg) own' /\
    pinv amax nmax (blink A dbg) own' (mkPst (l_max s) (l_prox s) us (g_aw (gc_st (l_g s)))) (mkSp (ls_prox b) S).
  Proof.
    intros [Hg Hmax (P & leak & Hh & He)]. set (aw := g_aw (gc_st (l_g s))) in *. set (t := gc_tab (l_g s)) in *.
    exists (shared (part false t) (amem aw)), (map Some (part true t)), (pinned (amem aw) (part true t)).
    split; [apply shared_contract|]. constructor; cbn [ps_max ps_prox ps_tab ps_w sp_tab sp_prox].
    - exact Hmax.
    - apply pinned_agrees.
    - exists P, leak. split; [|exact He]. rewrite live_some. apply shared_serves. split; [|apply same_on_refl].
      apply has_tag in Hh. rewrite <- app_assoc in Hh. exact Hh.
  Qed.

  Lemma linv_contents s b : linv s b ->
    Forall2 (gagree (amem (g_aw (gc_st (l_g s))))) (gc_tab (l_g s)) (ls_tab b) /\
    Forall2 (fun p t => match p, t with
                        | Some p, Some t => agrees (amem (g_aw (gc_st (l_g s)))) (px_tab p) t
                        | None, None => True
                        | _, _ => False
                        end) (l_prox s) (ls_prox b).
  Proof.
    intros H. split; [apply H|]. destruct (linv_pinv s b H) as (own' & us & S & _ & Hp).
    apply (pinv_agree _ _ _ _ Hamax _ _ Hp).
  Qed.

  Lemma linv_ok s b who h u : linv s b -> lowns s who h u -> u_ok amax u.
  Proof.
    intros H. destruct who as [k|].
    - destruct (linv_pinv s b H) as (own' & us & S & Hc & Hp). intros Ho.
      apply (pinv_ok amax smax nmax (blink A dbg) own' Hc _ _ (Some k) h u Hp). exact Ho.
    - intros (bk & G). destruct H as [Hg _ _].
      apply (has_block amax smax' A own Hct min _ _ _ _ _ (gi_has _ _ _ _ _ _ _ _ Hg) G).
  Qed.

  (** A proxy's block lies in a block the shared allocator serves. *)
  Lemma linv_owner s b k h u : linv s b -> lowns s (Some k) h u ->
    exists F v, serves (part false (gc_tab (l_g s))) (g_aw (gc_st (l_g s))) (F ++ part true (gc_tab (l_g s))) /\
      In v F /\ forall x, in_u x u -> in_u x v.
  Proof.
    intros [_ _ (P & leak & Hh & He)] (p & G & Gh).
    destruct (each_owner amax nmax _ _ _ _ _ _ _ _ He G Gh) as (P1 & cs & P2 & c & EP & _ & Hc & _ & Hin & _).
    exists (allc P ++ leak), (c_u c). apply has_tag in Hh. split; [exact Hh|]. split; [|exact Hin].
    apply in_or_app. left. rewrite EP. unfold allc. apply in_map. apply concat_in. exact Hc.
  Qed.

  Lemma linv_disjoint s b who1 h1 u1 who2 h2 u2 : linv s b -> lowns s who1 h1 u1 -> lowns s who2 h2 u2 ->
    (who1, h1) <> (who2, h2) -> disjoint_u u1 u2.
  Proof.
    intros H.
    assert (Hmix : forall k h h' u u', lowns s (Some k) h u -> lowns s None h' u' -> disjoint_u u u').
    { intros k h h' u u' Ho (bk & G). destruct (linv_owner s b k h u H Ho) as (F & v & Hs & Hv & Hin).
      destruct (serves_wf amax smax' A own Hct _ _ _ _ Hs) as [_ D]. rewrite <- app_assoc in D.
      apply AllocFacts.pairwise_app in D. destruct D as (_ & _ & D).
      intros x Hx Hx'. apply (D v u' Hv) with (x := x); [|apply Hin; exact Hx|exact Hx'].
      change (In u' (both (gc_tab (l_g s)))). apply both_in. eauto. }
    intros H1 H2 Hne. destruct who1 as [k1|], who2 as [k2|].
    - destruct (linv_pinv s b H) as (own' & us & S & Hc & Hp).
      apply (pinv_disjoint amax smax nmax (blink A dbg) own' Hc _ _ (Some k1) h1 u1 (Some k2) h2 u2 Hp H1 H2 Hne).
    - apply (Hmix k1 h1 h2); assumption.
    - apply disjoint_u_sym. apply (Hmix k2 h2 h1); assumption.
    - destruct H1 as (bk1 & G1), H2 as (bk2 & G2). destruct H as [Hg _ _].
      destruct (serves_wf amax smax' A own Hct _ _ _ _ (gi_has _ _ _ _ _ _ _ _ Hg)) as [_ D].
      assert (D' : pairwise disjoint_u (map snd (live (gc_tab (l_g s))))).
      { exact (pairwise_perm _ disjoint_u_sym _ _ (part_perm _) D). }
      apply pairwise_map in D'.
      apply (get_pairwise (fun x y => disjoint_u (snd x) (snd y)) (fun x y => disjoint_u_sym _ _) _ h1 h2 (bk1, u1) (bk2, u2) D');
        [congruence|exact G1|exact G2].
  Qed.
End GLocal.
