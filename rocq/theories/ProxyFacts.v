(** Proxies: every history keeps the invariant. *)
From Coq Require Import Permutation.
From Verif Require Import Base BaseFacts Alloc AllocFacts Arena ArenaFacts ArenaInv ArenaOps BlinkAlloc BlinkFacts
  History HistoryFacts Frame Proxy.

(** An allocator some of whose blocks, [F], belong to others and keep the contents [m0]. *)
Definition framed {W} (A : Allocator W) (own : W -> list ublock -> Prop) (F : list ublock) (m0 : mem)
  (w : W) (us : list ublock) : Prop := own w (us ++ F) /\ same_on F m0 (al_mem A w).

Lemma contract_framed {W} amax smax (A : Allocator W) own F m0 :
  contract amax smax A own -> contract amax smax A (framed A own F m0).
Proof.
  intros C. constructor.
  - intros w us us' [H S] P. split; [|exact S]. apply (ct_perm _ _ _ _ C _ _ _ H). apply Permutation_app_tail. exact P.
  - intros w us [H _]. destruct (ct_wf _ _ _ _ C _ _ H) as [O D]. apply Forall_app in O. apply pairwise_app in D. tauto.
  - apply (ct_mem _ _ _ _ C).
  - intros w us m [H S] Hm. destruct (ct_wf _ _ _ _ C _ _ H) as [_ D]. apply pairwise_app in D. destruct D as (_ & _ & D).
    split.
    + apply (ct_write _ _ _ _ C); [exact H|]. intros x Hx. apply Hm. intros u Hu. apply Hx. apply in_or_app. left; exact Hu.
    + rewrite (ct_mem _ _ _ _ C). intros u x Hu Hx. rewrite <- (S u x Hu Hx). apply Hm. intros v Hv Hv'. apply (D v u Hv Hu x Hv' Hx).
  - intros w us l [H S] Hl. eapply wp_mono; [apply (ct_allocate _ _ _ _ C w _ l H Hl)|].
    intros r w' [S1 R]. apply same_on_app in S1. destruct S1 as [S1 S2]. split; [exact S1|].
    assert (S3 : same_on F m0 (al_mem A w')) by (eapply same_on_trans; eassumption).
    destruct r as [b|]; [|split; assumption]. destruct R as [G R]. split; [exact G|]. split; assumption.
  - intros w us u l [H S] Hf. eapply wp_mono; [apply (ct_deallocate _ _ _ _ C w (us ++ F) u l H Hf)|].
    intros _ w' [S1 R]. apply same_on_app in S1. destruct S1 as [S1 S2]. split; [exact S1|]. split; [exact R|].
    eapply same_on_trans; eassumption.
  - intros w us u old new [H S] Hf Hn Hle. eapply wp_mono; [apply (ct_grow _ _ _ _ C w (us ++ F) u old new H Hf Hn Hle)|].
    intros r w' [S1 R]. apply same_on_app in S1. destruct S1 as [S1 S2]. split; [exact S1|].
    assert (S3 : same_on F m0 (al_mem A w')) by (eapply same_on_trans; eassumption).
    destruct r as [b|]; [destruct R as (G & R & X)|destruct R as (G & R)]; (split; [exact G|]).
    + split; [split; assumption|exact X].
    + split; assumption.
  - intros w us u old new [H S] Hf Hn Hle. eapply wp_mono; [apply (ct_shrink _ _ _ _ C w (us ++ F) u old new H Hf Hn Hle)|].
    intros r w' [S1 R]. apply same_on_app in S1. destruct S1 as [S1 S2]. split; [exact S1|].
    assert (S3 : same_on F m0 (al_mem A w')) by (eapply same_on_trans; eassumption).
    destruct r as [b|]; [destruct R as (G & R & X)|destruct R as (G & R)]; (split; [exact G|]).
    + split; [split; assumption|exact X].
    + split; assumption.
Qed.

Lemma placed_nil us : placed [] us -> us = [].
Proof. unfold placed. destruct us; [reflexivity|]. intros H. inversion H as [|? ? (c & [] & _)]. Qed.
Lemma live_nil_get {T} (t : list (option T)) h : live t = [] -> get h t = None.
Proof. intros E. destruct (get h t) as [x|] eqn:G; [|reflexivity]. assert (In x (live t)) by (apply live_in; eauto). rewrite E in H. destruct H. Qed.

Section Proxies.
  Context {W : Type} (amax smax psmax nmax : Z) (A : Allocator W) (own : W -> list ublock -> Prop).
  Hypothesis Hct : contract amax smax A own.
  Hypothesis Hamax : 0 <= amax <= USIZE_MAX.
  Variable dbg : bool.
  Variable reset : bool -> M W unit.
  Hypothesis Hreset : forall k w us, own w us -> wp (reset k) w (fun _ w' => own w' []).
  Notation top := (Z.max amax nmax).
  Hypothesis Htop : top <= USIZE_MAX.
  Hypothesis Hcfg : cfg_lax dbg amax psmax top smax.

  Lemma cfg_of min : min <= top -> cfg_lax dbg amax psmax min smax.
  Proof. intros H. destruct Hcfg as (H1 & H2 & [H3|H3]); (split; [exact H1|]; split; [exact H2|]); [left; exact H3|right; lia]. Qed.

  (** ** One proxy *)

  Record lrep (cs : list chunk) (ar : Arena) (m : mem) (us : list ublock) : Prop := mkLrep {
    lr_head : ar_root ar = head_ptr cs;
    lr_count : ar_depth ar = length cs;
    lr_min : 0 <= ar_min ar <= top;
    lr_chain : chain m cs;
    lr_placed : placed cs us;
    lr_ok : Forall (u_ok amax) us;
    lr_disj : pairwise disjoint_u us;
    lr_caps : Forall (fun c => HDR + ar_min ar <= u_len (c_u c)) cs
  }.

  Lemma lrep_arep cs ar w us F : lrep cs ar (al_mem A w) us -> own w (map c_u cs ++ F) ->
    arep amax A (framed A own F (al_mem A w)) [] cs ar w us.
  Proof.
    intros [L1 L2 L3 L4 L5 L6 L7 L8] H. constructor; auto; [lia|]. split; [|apply same_on_refl].
    rewrite app_nil_r. exact H.
  Qed.
  Lemma arep_lrep own' cs ar w us : arep amax A own' [] cs ar w us -> ar_min ar <= top ->
    Forall (fun u => HDR + ar_min ar <= u_len u) (map c_u cs) -> lrep cs ar (al_mem A w) us.
  Proof.
    intros [R1 R2 R3 R4 R5 R6 R7 R8] Hm Hc. constructor; auto; [lia|]. rewrite Forall_forall in Hc |- *. intros c Hi. apply (Hc (c_u c)). apply in_map. exact Hi.
  Qed.

  Lemma lrep_same cs ar m m' us : same_on (map c_u cs) m m' -> lrep cs ar m us -> lrep cs ar m' us.
  Proof.
    intros S [L1 L2 L3 L4 L5 L6 L7 L8]. constructor; auto.
    apply (chain_same_on m _ _ []); [rewrite app_nil_r; exact S| |exact L4].
    rewrite Forall_forall in L8. intros c Hc. specialize (L8 c Hc). lia.
  Qed.
  Lemma lrep_blocks cs ar m m' us : same_on (map c_u cs) m m' -> lrep cs ar m us -> same_on us m m'.
  Proof.
    intros S L u x Hu Hx. pose proof (lr_placed _ _ _ _ L) as P. unfold placed in P. rewrite Forall_forall in P.
    destruct (P u Hu) as (c & Hc & P1 & P2). pose proof (chain_cwf _ _ _ (lr_chain _ _ _ _ L) Hc) as (_ & _ & W1).
    apply (S (c_u c)); [apply in_map; exact Hc|]. unfold in_u in *. unfold c_base, c_end, c_ptr, HDR in *. lia.
  Qed.

  (** ** All of them *)

  Definition one (m : mem) (cs : list chunk) (p : option proxy) (t : option (list (option sbuf))) : Prop :=
    match p, t with
    | Some p, Some t => lrep cs (px_arena p) m (live (px_tab p)) /\ agrees m (px_tab p) t
    | None, None => cs = []
    | _, _ => False
    end.
  Inductive each (m : mem) : list (list chunk) -> list (option proxy) -> list (option (list (option sbuf))) -> Prop :=
  | each_nil : each m [] [] []
  | each_cons cs p t P l S : one m cs p t -> each m P l S -> each m (cs :: P) (p :: l) (t :: S).

  Definition allc (P : list (list chunk)) : list ublock := map c_u (concat P).
  Lemma allc_app P P' : allc (P ++ P') = allc P ++ allc P'.
  Proof. unfold allc. rewrite concat_app, map_app. reflexivity. Qed.
  Lemma allc_cons cs P : allc (cs :: P) = map c_u cs ++ allc P.
  Proof. unfold allc. cbn [concat]. apply map_app. Qed.

  Lemma one_same m m' cs p t : same_on (map c_u cs) m m' -> one m cs p t -> one m' cs p t.
  Proof.
    intros S. destruct p as [p|], t as [t|]; cbn; auto. intros [L G].
    split; [apply (lrep_same _ _ m); assumption|].
    apply (agrees_same m _ _ _ (live (px_tab p))); [apply incl_refl| |exact G]. apply (lrep_blocks _ _ _ _ _ S L).
  Qed.
  Lemma each_same m m' P l S : same_on (allc P) m m' -> each m P l S -> each m' P l S.
  Proof.
    intros H E. induction E as [|cs p t P l S Ho E IH]; constructor; rewrite allc_cons in H; apply same_on_app in H; destruct H as [H1 H2].
    - apply (one_same m); assumption.
    - apply IH. exact H2.
  Qed.
  Lemma each_app m P1 l1 S1 P2 l2 S2 : each m P1 l1 S1 -> each m P2 l2 S2 -> each m (P1 ++ P2) (l1 ++ l2) (S1 ++ S2).
  Proof. intros H1 H2. induction H1; cbn; [exact H2|constructor; assumption]. Qed.
  Lemma each_len m P l S : each m P l S -> length P = length l /\ length S = length l.
  Proof. intros E. induction E; cbn; [auto|lia]. Qed.
  Lemma each_at m P l S k p : each m P l S -> get k l = Some p ->
    exists P1 cs P2 l1 l2 S1 t S2, P = P1 ++ cs :: P2 /\ l = l1 ++ Some p :: l2 /\ S = S1 ++ Some t :: S2 /\
      length l1 = k /\ length S1 = k /\
      each m P1 l1 S1 /\ each m P2 l2 S2 /\ lrep cs (px_arena p) m (live (px_tab p)) /\ agrees m (px_tab p) t.
  Proof.
    intros E. revert k. induction E as [|cs q t P l S Ho E IH]; intros k G; [destruct k; discriminate|].
    destruct k as [|k].
    - cbn in G. destruct q as [q|]; [|discriminate]. injection G as ->. destruct t as [t|]; [|destruct Ho]. destruct Ho as [Ho1 Ho2].
      exists [], cs, P, [], l, [], t, S. repeat (split; [reflexivity|]). split; [constructor|]. auto.
    - destruct (IH k G) as (P1 & cs' & P2 & l1 & l2 & S1 & t' & S2 & -> & -> & -> & L1 & L2 & E1 & E2 & X1 & X2).
      exists (cs :: P1), cs', P2, (q :: l1), l2, (t :: S1), t', S2. cbn [app length].
      repeat (split; [reflexivity|]). split; [lia|]. split; [lia|]. split; [constructor; assumption|]. auto.
  Qed.
  Lemma each_none m P l S : each m P l S -> forallb is_none l = true -> allc P = [] /\ l = map (fun _ => None) l /\ S = map (fun _ => None) S.
  Proof.
    intros E. induction E as [|cs p t P l S Ho E IH]; intros H; [auto|]. cbn in H. apply andb_true_iff in H. destruct H as [Hp H].
    destruct p as [p|]; [discriminate|]. destruct t as [t|]; [destruct Ho|]. cbn in Ho. subst cs.
    destruct (IH H) as (H1 & H2 & H3). rewrite allc_cons. cbn [map app]. split; [exact H1|]. split; f_equal; assumption.
  Qed.

  Record pinv (s : pst (W := W)) (b : pspec) : Prop := mkPinv {
    pi_max : 0 <= ps_max s <= top;
    pi_tab : agrees (al_mem A (ps_w s)) (ps_tab s) (sp_tab b);
    pi_own : exists P leak, own (ps_w s) (allc P ++ leak ++ live (ps_tab s)) /\
               each (al_mem A (ps_w s)) P (ps_prox s) (sp_prox b)
  }.

  (** One proxy has changed from [cs] to [cs'], and [leak] is lost to the shared allocator. *)
  Lemma refocus mx m w' P1 P2 l1 l2 S1 S2 cs' p' t' leak tab stab :
    0 <= mx <= top -> each m P1 l1 S1 -> each m P2 l2 S2 -> agrees m tab stab ->
    own w' (map c_u cs' ++ allc P1 ++ allc P2 ++ leak ++ live tab) ->
    same_on (allc P1 ++ allc P2 ++ live tab) m (al_mem A w') ->
    one (al_mem A w') cs' p' t' ->
    pinv (mkPst mx (l1 ++ p' :: l2) tab w') (mkSp (S1 ++ t' :: S2) stab).
  Proof.
    intros Hx E1 E2 Ht Ho Hs H1. apply same_on_app in Hs. destruct Hs as [Hs1 Hs]. apply same_on_app in Hs. destruct Hs as [Hs2 Hs].
    constructor; cbn [ps_max ps_prox ps_tab ps_w sp_tab sp_prox].
    - exact Hx.
    - apply (agrees_same m _ _ _ (live tab)); [apply incl_refl|exact Hs|exact Ht].
    - exists (P1 ++ cs' :: P2), leak. split.
      + apply (ct_perm _ _ _ _ Hct _ _ _ Ho). rewrite allc_app, allc_cons.
        rewrite <- !app_assoc. apply Permutation_app_swap_app.
      + apply each_app; [apply (each_same m); assumption|]. constructor; [exact H1|apply (each_same m); assumption].
  Qed.

  (** The view of proxy [k]. *)
  Lemma focus s b k p : pinv s b -> get k (ps_prox s) = Some p ->
    exists P1 cs P2 l1 l2 S1 t S2 leak,
      ps_prox s = l1 ++ Some p :: l2 /\ sp_prox b = S1 ++ Some t :: S2 /\ length l1 = k /\ length S1 = k /\
      each (al_mem A (ps_w s)) P1 l1 S1 /\ each (al_mem A (ps_w s)) P2 l2 S2 /\
      lrep cs (px_arena p) (al_mem A (ps_w s)) (live (px_tab p)) /\ agrees (al_mem A (ps_w s)) (px_tab p) t /\
      own (ps_w s) (map c_u cs ++ allc P1 ++ allc P2 ++ leak ++ live (ps_tab s)).
  Proof.
    intros [_ _ (P & leak & Ho & E)] G.
    destruct (each_at _ _ _ _ _ _ E G) as (P1 & cs & P2 & l1 & l2 & S1 & t & S2 & -> & E2 & E3 & L1 & L2 & X1 & X2 & X3 & X4).
    exists P1, cs, P2, l1, l2, S1, t, S2, leak. repeat (split; [assumption|]).
    apply (ct_perm _ _ _ _ Hct _ _ _ Ho). rewrite allc_app, allc_cons, <- !app_assoc.
    apply Permutation_app_swap_app.
  Qed.

  Lemma wp_on_proxy {B} k (m : M (cst (AW (W := W))) B) s p (Q : B -> pst (W := W) -> Prop) :
    get k (ps_prox s) = Some p ->
    wp m (mkCst (px_tab p) (px_arena p, ps_w s)) (fun b c => Q b (put k s c)) -> wp (on_proxy k m) s Q.
  Proof. intros G. unfold wp, on_proxy. rewrite G. destruct (m _); auto. Qed.

  Lemma put_split k (s : pst (W := W)) l1 l2 q (c : cst (AW (W := W))) : ps_prox s = l1 ++ q :: l2 -> length l1 = k ->
    put k s c = mkPst (ps_max s) (l1 ++ Some (mkProxy (fst (c_w c)) (c_tab c)) :: l2) (ps_tab s) (snd (c_w c)).
  Proof. intros E <-. unfold put. rewrite E, set_nth_split. reflexivity. Qed.

  (** [last_chunk_size] of a proxy: 0, or the capacity of its last chunk. *)
  Definition last_cap (cs : list chunk) : Z := match cs with [] => 0 | c :: _ => c_cap c end.
  Lemma last_size_ok cs ar w us : lrep cs ar (al_mem A w) us -> last_chunk_size A (ar, w) = ORet (last_cap cs) (ar, w).
  Proof.
    intros [L1 L2 L3 L4 _ _ _ _]. unfold last_chunk_size, with_aw. cbn [fst snd]. rewrite L1.
    destruct cs as [|c cs]; cbn [head_ptr last_cap]; [reflexivity|].
    cbn [chain] in L4. destruct L4 as (_ & (X1 & X2 & X3 & X4) & _).
    unfold chunk_cap, bind. rewrite (mload_eq A _ _ _ _ X2). cbn. reflexivity.
  Qed.
  Lemma last_cap_ok cs ar m us w F : lrep cs ar m us -> own w (map c_u cs ++ F) -> 0 <= last_cap cs <= amax.
  Proof.
    intros L Ho. destruct cs as [|c cs]; cbn [last_cap]; [lia|].
    destruct (ct_wf _ _ _ _ Hct _ _ Ho) as [O _]. cbn [map app] in O. inversion O as [|? ? ((G1 & _ & _ & G4) & _) _]; subst.
    pose proof (lr_caps _ _ _ _ L) as Hc. inversion Hc as [|? ? Hc1 _]; subst. pose proof (lr_min _ _ _ _ L).
    unfold c_cap, c_base, c_end, c_ptr, HDR in *. unfold ublk in *. cbn [b_ptr b_len] in *. lia.
  Qed.

  Definition grows (s s' : pst (W := W)) : Prop :=
    ps_max s <= ps_max s' /\ (length (ps_prox s) <= length (ps_prox s'))%nat /\
    forall j, (j < length (ps_prox s))%nat ->
      match get j (ps_prox s') with
      | Some p' => exists p, get j (ps_prox s) = Some p /\ ar_min (px_arena p') = ar_min (px_arena p)
      | None => True
      end.
  Lemma grows_refl s : grows s s.
  Proof. split; [lia|]. split; [lia|]. intros j _. destruct (get j (ps_prox s)) as [p|]; eauto. Qed.
  Lemma grows_trans s1 s2 s3 : grows s1 s2 -> grows s2 s3 -> grows s1 s3.
  Proof.
    intros (A1 & A2 & A3) (B1 & B2 & B3). split; [lia|]. split; [lia|]. intros j Hj.
    specialize (B3 j ltac:(lia)). destruct (get j (ps_prox s3)) as [p3|]; [|exact I]. destruct B3 as (p2 & G2 & M2).
    specialize (A3 j Hj). rewrite G2 in A3. destruct A3 as (p1 & G1 & M1). exists p1. split; [exact G1|congruence].
  Qed.
  Lemma grows_at mx s l1 l2 q q' tab w' : ps_prox s = l1 ++ q :: l2 -> ps_max s <= mx ->
    match q' with Some p' => exists p, q = Some p /\ ar_min (px_arena p') = ar_min (px_arena p) | None => True end ->
    grows s (mkPst mx (l1 ++ q' :: l2) tab w').
  Proof.
    intros E Hm Hq. split; [exact Hm|]. cbn [ps_prox ps_max]. rewrite E, !app_length. cbn [length]. split; [lia|]. intros j _.
    destruct (Nat.lt_total j (length l1)) as [L|[->|L]].
    - unfold get. rewrite !nth_error_app1 by lia. destruct (nth_error l1 j) as [[p|]|]; eauto.
    - unfold get. rewrite !nth_error_app2 by lia. replace (length l1 - length l1)%nat with O by lia. cbn.
      destruct q' as [p'|]; [|exact I]. destruct Hq as (p & -> & Hq). eauto.
    - unfold get. rewrite !nth_error_app2 by lia. destruct (j - length l1)%nat as [|i] eqn:Ei; [lia|]. cbn.
      destruct (nth_error l2 i) as [[p|]|]; eauto.
  Qed.

  (** [reset] and the drop of a proxy. *)
  Lemma finish_ok (keep : bool) s b k p : pinv s b -> get k (ps_prox s) = Some p ->
    wp (n <- on_proxy k (call (last_chunk_size A) (fun _ t => t)) ;; p_update n ;;;
        on_proxy k (call (arena_reset_leak A keep) (fun _ => map (fun _ => None)))) s
      (fun _ s' => exists l1 q t l2 S1 S2, length l1 = k /\ length S1 = k /\ ps_prox s' = l1 ++ Some q :: l2 /\
         sp_prox b = S1 ++ Some t :: S2 /\ (keep = false -> ar_root (px_arena q) = None) /\
         (forall c, last_capacity A s k = Some c -> c <= ps_max s') /\
         pinv s' (mkSp (S1 ++ Some (map (fun _ => None) t) :: S2) (sp_tab b)) /\
         (keep = false -> pinv (mkPst (ps_max s') (l1 ++ None :: l2) (ps_tab s') (ps_w s')) (mkSp (S1 ++ None :: S2) (sp_tab b))) /\
         grows s s' /\ grows s (mkPst (ps_max s') (l1 ++ None :: l2) (ps_tab s') (ps_w s'))).
  Proof.
    intros H G. pose proof H as [Hx Ht _].
    destruct (focus s b k p H G) as (P1 & cs & P2 & l1 & l2 & S1 & t & S2 & leak & E1 & E2 & L1 & L2 & X1 & X2 & L & At & Ho).
    pose proof (last_cap_ok _ _ _ _ _ _ L Ho) as Hc.
    apply wp_bind. apply (wp_on_proxy _ _ _ _ _ G). unfold wp, call. cbn [c_w c_tab].
    rewrite (last_size_ok _ _ _ _ L). rewrite (put_split _ _ _ _ _ _ E1 L1). cbn [c_w c_tab fst snd].
    apply wp_bind. unfold p_update, wp. cbn [ps_max ps_prox ps_tab ps_w].
    set (mx := Z.max (ps_max s) (last_cap cs)).
    set (s1 := mkPst mx (l1 ++ Some (mkProxy (px_arena p) (px_tab p)) :: l2) (ps_tab s) (ps_w s)).
    assert (Hmx : 0 <= mx <= top) by (unfold mx; lia).
    assert (Hcap : forall c, last_capacity A s k = Some c -> c <= mx).
    { unfold last_capacity. rewrite G, (lr_head _ _ _ _ L). destruct cs as [|c0 cs0]; cbn [head_ptr]; [discriminate|].
      pose proof (lr_chain _ _ _ _ L) as Hch. cbn [chain] in Hch. destruct Hch as (_ & (_ & X & _) & _).
      unfold END in X. rewrite X. intros c Ec. injection Ec as <-. unfold mx, last_cap, c_cap, c_base, HDR. lia. }
    assert (G1 : get k (ps_prox s1) = Some (mkProxy (px_arena p) (px_tab p))).
    { cbn [s1 ps_prox]. rewrite <- L1. apply get_mid. }
    fold s1. change (match on_proxy k (call (arena_reset_leak A keep) (fun _ => map (fun _ => None))) s1 with
      | ORet _ s' => _ s' | _ => False end) with
      (wp (on_proxy k (call (arena_reset_leak A keep) (fun _ => map (fun _ => None)))) s1 
       (fun _ s' => exists l1 q t l2 S1 S2, length l1 = k /\ length S1 = k /\ ps_prox s' = l1 ++ Some q :: l2 /\
         sp_prox b = S1 ++ Some t :: S2 /\ (keep = false -> ar_root (px_arena q) = None) /\
         (forall c, last_capacity A s k = Some c -> c <= ps_max s') /\
         pinv s' (mkSp (S1 ++ Some (map (fun _ => None) t) :: S2) (sp_tab b)) /\
         (keep = false -> pinv (mkPst (ps_max s') (l1 ++ None :: l2) (ps_tab s') (ps_w s')) (mkSp (S1 ++ None :: S2) (sp_tab b))) /\
         grows s s' /\ grows s (mkPst (ps_max s') (l1 ++ None :: l2) (ps_tab s') (ps_w s')))).
    apply (wp_on_proxy _ _ _ _ _ G1). cbn [px_tab px_arena s1 ps_w]. apply call_ok. cbn [c_w c_tab].
    set (F := allc P1 ++ allc P2 ++ leak ++ live (ps_tab s)) in *.
    pose proof (lrep_arep _ _ _ _ _ L Ho) as R.
    eapply wp_mono; [apply (arena_reset_leak_ok amax smax A _ (contract_framed _ _ _ _ F (al_mem A (ps_w s)) Hct) keep [] cs (px_arena p) (ps_w s) _ R)|].
    intros _ [ar' w'] (_ & M1 & H1). cbn [fst snd] in *.
    rewrite (put_split _ s1 l1 l2 _ _ eq_refl L1). cbn [c_w c_tab fst snd s1 ps_max ps_tab].
    assert (Hrest : exists cs' leak', lrep cs' ar' (al_mem A w') [] /\ (keep = false -> cs' = []) /\
              own w' (map c_u cs' ++ allc P1 ++ allc P2 ++ leak' ++ live (ps_tab s)) /\
              same_on (allc P1 ++ allc P2 ++ leak' ++ live (ps_tab s)) (al_mem A (ps_w s)) (al_mem A w')).
    { destruct keep.
      - destruct cs as [|c cs].
        + injection H1 as -> ->. exists [], leak. split; [|split; [reflexivity|split; [exact Ho|apply same_on_refl]]].
          destruct L as [? ? ? ? ? ? ? ?]. constructor; auto; constructor.
        + destruct H1 as [S3 R3]. rewrite app_nil_r in *. exists [set_cur c (c_base c)], (map c_u cs ++ leak).
          destruct (ar_own _ _ _ _ _ _ _ _ R3) as [O3 S4]. split; [|split; [discriminate|]].
          { constructor; try (apply R3).
            - rewrite M1. apply L.
            - constructor; [|constructor]. rewrite M1. apply (Forall_inv (lr_caps _ _ _ _ L)). }
          split.
          * apply (ct_perm _ _ _ _ Hct _ _ _ O3). cbn [map app]. apply perm_skip. unfold F.
            rewrite <- !app_assoc. rewrite (Permutation_app_swap_app (map c_u cs)). apply Permutation_app_head.
            rewrite (Permutation_app_swap_app (map c_u cs)). reflexivity.
          * unfold F in S4. rewrite !same_on_app in *. tauto.
      - destruct H1 as [-> R3]. rewrite app_nil_r in *. exists [], (map c_u cs ++ leak). split; [|split; [reflexivity|]].
        { constructor; try (apply R3); [rewrite M1; apply L|constructor]. }
        split; [|apply same_on_refl].
        apply (ct_perm _ _ _ _ Hct _ _ _ Ho). unfold F. cbn [map app]. rewrite <- !app_assoc.
        rewrite (Permutation_app_swap_app (map c_u cs)). apply Permutation_app_head.
        rewrite (Permutation_app_swap_app (map c_u cs)). reflexivity. }
    destruct Hrest as (cs' & leak' & L' & Hk & O' & S').
    assert (Hone : one (al_mem A w') cs' (Some (mkProxy ar' (map (fun _ => None) (px_tab p)))) (Some (map (fun _ => None) t))).
    { pose proof (live_none (S := ublock) (px_tab p)) as En. split; [|apply (agrees_none _ _ _ _ At)].
      change (px_tab (mkProxy ar' (map (fun _ => None) (px_tab p)))) with (map (fun _ => @None ublock) (px_tab p)).
      rewrite En. exact L'. }
    assert (Hgr : forall q', match q' with Some p' => exists p0, Some p = Some p0 /\ ar_min (px_arena p') = ar_min (px_arena p0) | None => True end ->
      grows s (mkPst mx (l1 ++ q' :: l2) (ps_tab s) w')).
    { intros q' Hq. apply (grows_at mx s l1 l2 (Some p)); [exact E1|unfold mx; lia|exact Hq]. }
    exists l1, (mkProxy ar' (map (fun _ => None) (px_tab p))), t, l2, S1, S2.
    split; [exact L1|]. split; [exact L2|]. cbn [ps_prox ps_max ps_tab ps_w].
    split; [reflexivity|]. split; [exact E2|]. split; [|split; [exact Hcap|split; [|split; [|split]]]].
    - intros Ek. cbn [px_arena]. rewrite (lr_head _ _ _ _ L'), (Hk Ek). reflexivity.
    - apply (refocus mx (al_mem A (ps_w s)) w' P1 P2 l1 l2 S1 S2 cs' _ _ leak'); auto. rewrite !same_on_app in *. tauto.
    - intros Ek. apply (refocus mx (al_mem A (ps_w s)) w' P1 P2 l1 l2 S1 S2 cs' _ _ leak'); auto; [rewrite !same_on_app in *; tauto|]. cbn [one]. apply Hk. exact Ek.
    - apply Hgr. exists p. split; [reflexivity|]. cbn [px_arena]. exact M1.
    - apply Hgr. exact I.
  Qed.

  (** ** The first allocation of a proxy, with a minimum of 0, in a debug build *)

  Lemma fresh_alloc own' ar w l : contract amax smax A own' -> arep amax A own' [] [] ar w [] -> ar_min ar = 0 -> dbg = true ->
    req_ok psmax l ->
    match blink_allocate A dbg l (ar, w) with
    | ORet r aw' => ar_min (fst aw') = 0 /\
        match r with
        | None => arep amax A own' [] [] (fst aw') (snd aw') []
        | Some b => good_block amax l b /\ b_len b = l_size l /\
            exists c, HDR <= u_len (c_u c) /\ arep amax A own' [] [c] (fst aw') (snd aw') [mku b l]
        end
    | OPanic aw' => fst aw' = ar /\ l_size l = 0 /\ l_align l <= 8 /\ exists b, own' (snd aw') [b]
    | _ => False
    end.
  Proof.
    intros Hct' R Hm Ed Hl. pose proof R as [R1 R2 R3 R4 R5 R6 R7 R8]. cbn [head_ptr] in R1.
    pose proof (cfg_of (ar_min ar) ltac:(lia)) as Hlax.
    unfold blink_allocate. unfold bind. unfold alloc_fast at 1, with_aw at 1. cbn [fst snd]. rewrite R1. cbn [ret].
    unfold arena_alloc_slow, with_aw. cbn [fst snd].
    assert (Hdec : (forall lay b w1, slow_req [] (ar_min ar) l = Some lay -> al_allocate A lay w = ORet (Some b) w1 -> dbg = true -> HDR < b_len b) \/
      exists lay b w1, slow_req [] (ar_min ar) l = Some lay /\ al_allocate A lay w = ORet (Some b) w1 /\ b_len b <= HDR).
    { destruct (slow_req [] (ar_min ar) l) as [lay|]; [|left; discriminate].
      destruct (al_allocate A lay w) as [[b|] w1|w1| |] eqn:Eal; try (left; intros lay' b' w' E1 E2 _; congruence).
      destruct (Z_le_gt_dec (b_len b) HDR) as [L|G].
      - right. exists lay, b, w1. auto.
      - left. intros lay' b' w' E1 E2 _. injection E1 as <-. rewrite Eal in E2. injection E2 as <- <-. lia. }
    destruct Hdec as [Hlen|(lay & b & w1 & Er & Eal & Hb)].
    - pose proof (alloc_slow_gen amax psmax smax A own' Hct' Hamax dbg [] [] ar w [] l R Hl Hlax Hlen) as H.
      apply wp_inv in H. destruct H as (r & w' & E & _ & H). unfold bind. rewrite E.
      destruct r as [[b q]|]; cbn.
      + destruct H as (G & Hb & c & _ & Ec & _ & _ & R').
        split; [exact Hm|]. split; [exact G|]. split; [exact Hb|]. exists c. split; [|exact R'].
        apply (arep_chunk_ok _ _ _ _ Hct' _ _ _ _ _ c R'). left; reflexivity.
      + split; [exact Hm|]. apply H.
    - destruct (slow_req_spec [] (ar_min ar) l psmax smax lay dbg amax) as (Q1 & _ & _ & _ & Q5); auto; try (cbn; lia).
      pose proof (ct_allocate _ _ _ _ Hct' w _ lay R5 Q1) as Hal. unfold wp in Hal. rewrite Eal in Hal.
      destruct Hal as (_ & (G1 & G2 & G3 & G4) & O1). cbn [map app] in O1.
      destruct (req_ok_facts _ _ Hl) as (_ & _ & _ & _ & Hsz & _).
      assert (Hs : l_size l = 0 /\ l_align l <= 8).
      { pose proof (chunk_raw_more [] (ar_min ar) l psmax (proj1 R3) ltac:(cbn; lia) Hl) as X.
        destruct (Z_le_gt_dec 1 (l_size l)); [specialize (X ltac:(auto)); lia|].
        destruct (Z_le_gt_dec (l_align l) 8); [lia|].
        assert (HDR < chunk_raw (cum_of []) (ar_min ar) l) by (apply X; right; right; left; unfold HDR_ALIGN; lia). lia. }
      pose proof Er as Er'. unfold slow_req in Er'. cbn [cum_of] in *.
      destruct (next_chunk_size None (ar_min ar) l) as [n|] eqn:En; [|discriminate].
      destruct (align_up n HDR_ALIGN) as [n'|] eqn:Eu; [|discriminate]. injection Er' as <-.
      destruct (slow_assert [] (ar_min ar) l psmax smax dbg amax n) as [_ Has]; auto; try (cbn; lia).
      unfold alloc_slow, bind. rewrite R1. cbn [ret]. rewrite En. unfold debug_assert. rewrite (Has Ed), Ed. cbn [andb negb ret].
      unfold alloc_chunk. rewrite Eu. unfold bind. rewrite Eal. unfold init_chunk, bind, debug_assert.
      cbn [l_align] in G2. unfold HDR_ALIGN in *. change 8 with (2 ^ 3) at 1. rewrite is_aligned_to_mod by lia. change (2 ^ 3) with 8. rewrite G2.
      cbn [Z.eqb andb negb ret]. replace (HDR <? b_len b) with false by lia. cbn [andb negb panic fst snd].
      split; [reflexivity|]. split; [apply Hs|]. split; [apply Hs|]. eexists. exact O1.
  Qed.

  Lemma fresh_any own' ar w l (z : bool) : contract amax smax A own' -> arep amax A own' [] [] ar w [] -> ar_min ar = 0 ->
    dbg = true -> req_ok psmax l ->
    match (if z then al_allocate_zeroed (blink A dbg) l else al_allocate (blink A dbg) l) (ar, w) with
    | ORet r aw' => ar_min (fst aw') = 0 /\
        match r with
        | None => arep amax A own' [] [] (fst aw') (snd aw') []
        | Some b => (exists c, HDR <= u_len (c_u c) /\ arep amax A own' [] [c] (fst aw') (snd aw') [mku b l]) /\
            (z = true -> forall i, 0 <= i < b_len b -> al_mem A (snd aw') (b_ptr b + i) = Byte 0)
        end
    | OPanic aw' => fst aw' = ar /\ l_size l = 0 /\ l_align l <= 8 /\ exists b, own' (snd aw') [b]
    | _ => False
    end.
  Proof.
    intros Hct' R Hm Ed Hl. pose proof (fresh_alloc own' ar w l Hct' R Hm Ed Hl) as H. destruct z.
    - unfold al_allocate_zeroed, bind. cbn [blink al_allocate]. destruct (blink_allocate A dbg l (ar, w)) as [r [ar' w']|aw'| |]; auto.
      destruct H as [M1 H]. destruct r as [b|]; cbn [fst snd] in *.
      + destruct H as (_ & _ & c & Hc & R'). unfold mfill. cbn [blink al_set_mem al_mem fst snd ret]. split; [exact M1|]. split.
        * exists c. split; [exact Hc|].
          apply (arep_own_write amax smax A own' Hct' [c] ar' w' [] [] (mku b l)); [exact R'|].
          intros x Hx. apply fill_other. unfold in_u, mku in Hx. cbn in Hx. lia.
        * intros _ i Hi. rewrite (ct_mem _ _ _ _ Hct'). apply fill_in. lia.
      + cbn [ret]. split; [exact M1|exact H].
    - cbn [blink al_allocate]. destruct (blink_allocate A dbg l (ar, w)) as [r [ar' w']|aw'| |]; auto.
      destruct H as [M1 H]. split; [exact M1|]. destruct r as [b|]; [|exact H].
      destruct H as (_ & _ & H). split; [exact H|discriminate].
  Qed.

  (** ** An operation of a proxy's client *)

  Definition fine own' min (c : cst (AW (W := W))) t : Prop :=
    exists cs, arep amax A own' [] cs (fst (c_w c)) (snd (c_w c)) (live (c_tab c)) /\ ar_min (fst (c_w c)) = min /\
      Forall (fun u => HDR + min <= u_len u) (map c_u cs) /\ agrees (al_mem A (snd (c_w c))) (c_tab c) t.

  Lemma use_ok own' min o c t : contract amax smax A own' -> 0 <= min <= top -> fine own' min c t ->
    match step psmax (blink A dbg) (fun _ => blink_reset A) o c with
    | ORet r c' => fine own' min c' (sstep o (option_map b_len r) t)
    | OPanic c' => dbg = true /\ (exists l z, o = OpAlloc l z /\ l_size l = 0 /\ l_align l <= 8) /\
        c_tab c' = c_tab c /\ fst (c_w c') = fst (c_w c) /\ ar_root (fst (c_w c)) = None /\ live (c_tab c) = [] /\
        exists b, own' (snd (c_w c')) [b]
    | _ => False
    end.
  Proof.
    intros Hct' Hmin (cs & R & Hm & Hc & At). destruct c as [tab [ar w]]. cbn [c_w c_tab fst snd] in *.
    pose proof (cfg_of min ltac:(lia)) as Hlax.
    destruct (Bool.bool_dec (negb dbg || (1 <=? min) || negb (is_none (ar_root ar))) true) as [Hn|Hn].
    - (* not the first allocation, or a minimum, or a release build *)
      assert (Hcs : dbg = true -> 1 <= min \/ map c_u cs <> []).
      { intros ->. cbn in Hn. destruct (Z.leb_spec 1 min); [left; assumption|right]. cbn in Hn.
        rewrite (ar_head _ _ _ _ _ _ _ _ R) in Hn. destruct cs; cbn in *; discriminate. }
      set (J := fun (us : list ublock) (_ : W) => Forall (fun u => HDR + min <= u_len u) us /\ (dbg = true -> 1 <= min \/ us <> [])).
      assert (HJ : jfor A min J).
      { constructor.
        - intros us w1 w2 H _. exact H.
        - intros us w1 w2 l r [J1 J2] Hl _ Hr. destruct r as [b|]; [|split; assumption]. split.
          + constructor; [|exact J1]. cbn [mku u_len]. specialize (Hr b eq_refl). lia.
          + intros _. right. discriminate. }
      assert (Hct1 : contract amax psmax (blink A dbg) (blink_own amax A own' J [] min)).
      { apply (blink_contract_lax amax psmax smax A own' Hct' Hamax dbg J [] min HJ Hlax). intros us w1 [_ H]. exact H. }
      pose proof (step_any amax psmax (blink A dbg) (blink_own amax A own' J [] min) (fun _ => blink_reset A) Hct1 o
        (mkCst tab (ar, w)) t) as H.
      assert (Hw : wp (step psmax (blink A dbg) (fun _ => blink_reset A) o) (mkCst tab (ar, w))
        (fun r st' => hinv (blink A dbg) (blink_own amax A own' J [] min) st' (sstep o (option_map b_len r) t))).
      { apply H.
        - intros _ _ [ar1 w1] us (cs1 & R1 & [J1 J2] & M1). cbn [fst snd] in *.
          eapply wp_mono; [apply (arena_reset_keep_ok amax smax A own' Hct' [] cs1 ar1 w1 us R1)|].
          intros _ [ar2 w2] (_ & M2 & H2). cbn [fst snd] in *. destruct cs1 as [|c1 cs1].
          + injection H2 as -> ->. exists []. split; [|split; [split; assumption|exact M1]].
            destruct R1 as [? ? ? ? ? ? ? ?]. constructor; auto; constructor.
          + exists [set_cur c1 (c_base c1)]. split; [exact H2|]. cbn [fst snd]. split; [|congruence].
            split; [|intros _; right; discriminate]. cbn [map] in *. constructor; [apply (Forall_inv J1)|constructor].
        - split; [|exact At]. exists cs. split; [exact R|]. split; [split; assumption|exact Hm]. }
      apply wp_inv in Hw. destruct Hw as (r & c' & E & Hw).
      match goal with |- match ?X with ORet _ _ => _ | _ => _ end => assert (E' : X = ORet r c') by exact E; rewrite E' end.
      destruct Hw as [Hw Ag']. destruct Hw as (cs' & R' & J' & M'). destruct J' as [J1 _]. exists cs'. auto.
    - (* the first allocation in a debug build with no minimum *)
      apply Bool.not_true_is_false in Hn. apply orb_false_iff in Hn. destruct Hn as [Hn Hr]. apply orb_false_iff in Hn. destruct Hn as [Hd H1].
      assert (Ed : dbg = true) by (destruct dbg; [reflexivity|discriminate]).
      assert (min = 0) as -> by lia. clear H1 Hd.
      assert (Er : ar_root ar = None) by (destruct (ar_root ar); [discriminate|reflexivity]). clear Hr.
      assert (cs = []) as -> by (pose proof (ar_head _ _ _ _ _ _ _ _ R) as X; rewrite Er in X; destruct cs; [reflexivity|discriminate]).
      pose proof (placed_nil _ (ar_placed _ _ _ _ _ _ _ _ R)) as El.
      assert (Hno : forall h, get h tab = None) by (intros h; apply live_nil_get; exact El).
      assert (Hno' : forall h, get h t = None) by (intros h; apply (agrees_get_none _ _ _ _ At); apply Hno).
      assert (Hsame : fine own' 0 (mkCst tab (ar, w)) t) by (exists []; auto).
      unfold step. cbn [c_tab]. unfold step_at, skip, ret. destruct o as [l z|h off cells|h l|h old new|h old new|keep]; cbn [sstep option_map].
      2-5: rewrite ?Hno, ?Hno'; exact Hsame.
      2:{ unfold bind, call. cbn [c_w c_tab]. unfold blink_reset, arena_reset, with_aw, bind. cbn [fst snd]. rewrite Er. cbn.
          exists []. cbn [c_w c_tab fst snd]. rewrite El in R. pose proof (live_none (S := ublock) tab) as En.
          change (live (map (fun _ => None) tab)) with (live (map (fun _ => @None ublock) tab)). rewrite En.
          split; [exact R|]. split; [exact Hm|]. split; [exact Hc|]. apply (agrees_none _ _ _ _ At). }
      destruct (req_okb psmax l) eqn:Eo; [|exact Hsame].
      rewrite El in R. pose proof (fresh_any own' ar w l z Hct' R Hm Ed Eo) as H.
      unfold call. cbn [c_w c_tab].
      destruct ((if z then al_allocate_zeroed (blink A dbg) l else al_allocate (blink A dbg) l) (ar, w)) as [r [ar' w']|[ar' w']| |]; auto.
      + destruct H as [M1 H]. cbn [fst snd] in *.
        assert (Ag : forall m, agrees m tab t).
        { intros m. apply (agrees_same (al_mem A w) _ _ _ []); [rewrite El; apply incl_refl|intros u x []|exact At]. }
        destruct r as [b|]; cbn [on_ok option_map].
        * destruct H as [(c & Hc1 & R') Hz]. exists [c]. cbn [c_w c_tab fst snd]. rewrite live_app, El. cbn [app live].
          split; [exact R'|]. split; [exact M1|]. split; [constructor; [lia|constructor]|].
          apply Forall2_app; [apply Ag|]. constructor; [|constructor]. split; [reflexivity|]. split; [reflexivity|]. cbn.
          intros i x Hi Hx. destruct z; [|discriminate]. injection Hx as <-. apply Hz; auto.
        * exists []. cbn [c_w c_tab fst snd]. rewrite El. auto.
      + destruct H as (H1 & H2 & H3 & H4). cbn [fst snd c_tab c_w] in *. split; [exact Ed|]. split; [exists l, z; auto|]. auto.
  Qed.

  Lemma use_proxy_ok o s b k p : pinv s b -> get k (ps_prox s) = Some p ->
    match on_proxy k (step psmax (blink A dbg) (fun _ => blink_reset A) o) s with
    | ORet r s' => pinv s' (pspec_step (PUse (Some k) o) (PBlock r) b) /\ grows s s'
    | OPanic s' => pinv s' b /\ grows s s' /\ dbg = true /\ exists l z, o = OpAlloc l z /\ l_size l = 0 /\ l_align l <= 8
    | _ => False
    end.
  Proof.
    intros H G. pose proof H as [Hx Ht _].
    destruct (focus s b k p H G) as (P1 & cs & P2 & l1 & l2 & S1 & t & S2 & leak & E1 & E2 & L1 & L2 & X1 & X2 & L & At & Ho).
    set (F := allc P1 ++ allc P2 ++ leak ++ live (ps_tab s)) in *.
    pose proof (lrep_arep _ _ _ _ _ L Ho) as R.
    pose proof (contract_framed _ _ _ _ F (al_mem A (ps_w s)) Hct) as Hct'.
    unfold on_proxy. rewrite G.
    pose proof (use_ok _ (ar_min (px_arena p)) o (mkCst (px_tab p) (px_arena p, ps_w s)) t Hct' (lr_min _ _ _ _ L)) as U.
    assert (Hf : fine (framed A own F (al_mem A (ps_w s))) (ar_min (px_arena p)) (mkCst (px_tab p) (px_arena p, ps_w s)) t).
    { exists cs. split; [exact R|]. split; [reflexivity|]. split; [|exact At].
      pose proof (lr_caps _ _ _ _ L) as Hc. rewrite Forall_forall in Hc |- *. intros u Hu. apply in_map_iff in Hu.
      destruct Hu as (c & <- & Hi). apply (Hc c Hi). }
    specialize (U Hf).
    assert (Gb : get k (sp_prox b) = Some t) by (rewrite E2, <- L2; apply get_mid).
    destruct (step psmax (blink A dbg) (fun _ => blink_reset A) o (mkCst (px_tab p) (px_arena p, ps_w s))) as [r c'|c'| |]; auto.
    - destruct U as (cs' & R' & M' & Hc' & At'). cbn [pspec_step]. rewrite Gb, E2, <- L2, set_nth_split, L2.
      rewrite (put_split _ _ _ _ _ _ E1 L1).
      destruct (ar_own _ _ _ _ _ _ _ _ R') as [O' S']. rewrite app_nil_r in O'. split.
      + apply (refocus _ (al_mem A (ps_w s)) _ P1 P2 l1 l2 S1 S2 cs' _ _ leak); auto; [unfold F in S'; rewrite !same_on_app in *; tauto|].
        split; [|exact At']. cbn [px_arena px_tab]. pose proof (lr_min _ _ _ _ L). apply (arep_lrep _ _ _ _ _ R'); rewrite M'; [lia|exact Hc'].
      + apply (grows_at _ s l1 l2 (Some p)); [exact E1|lia|]. exists p. split; [reflexivity|]. exact M'.
    - destruct U as (Ed & Hl & Et & Ea & Er & El & b1 & O' & S'). cbn [c_w c_tab fst snd] in *.
      rewrite (put_split _ _ _ _ _ _ E1 L1), Et, Ea.
      assert (cs = []) as -> by (pose proof (lr_head _ _ _ _ L) as X; rewrite Er in X; destruct cs; [reflexivity|discriminate]).
      split; [|split; [|split; [exact Ed|exact Hl]]].
      + destruct b as [bp bt]. cbn [sp_prox sp_tab] in *. subst bp.
        apply (refocus _ (al_mem A (ps_w s)) _ P1 P2 l1 l2 S1 S2 [] _ _ (b1 :: leak)); auto.
        * apply (ct_perm _ _ _ _ Hct _ _ _ O'). unfold F. cbn [map app].
          change (b1 :: allc P1 ++ allc P2 ++ leak ++ live (ps_tab s)) with ([b1] ++ allc P1 ++ allc P2 ++ leak ++ live (ps_tab s)).
          rewrite (Permutation_app_swap_app [b1]). apply Permutation_app_head.
          rewrite (Permutation_app_swap_app [b1]). apply Permutation_app_head. reflexivity.
        * unfold F in S'. rewrite !same_on_app in *. tauto.
        * cbn [one px_tab px_arena]. split.
          -- destruct L as [? ? ? ? ? ? ? ?]. constructor; auto.
          -- apply (agrees_same (al_mem A (ps_w s)) _ _ _ []); [rewrite El; apply incl_refl|intros u x []|exact At].
      + apply (grows_at _ s l1 l2 (Some p)); [exact E1|lia|]. exists p. split; reflexivity.
  Qed.

  (** ** An operation on the shared allocator itself *)

  Lemma use_shared_ok o s b : pinv s b -> (forall k, o = OpReset k -> forallb is_none (ps_prox s) = true) ->
    wp (on_shared (step smax A reset o)) s (fun r s' => pinv s' (pspec_step (PUse None o) (PBlock r) b) /\ grows s s').
  Proof.
    intros [Hx Ht (P & leak & Ho & E)] Hno. set (F := allc P ++ leak).
    assert (Hg : forall tab w', grows s (mkPst (ps_max s) (ps_prox s) tab w')).
    { intros tab w'. split; [cbn; lia|]. split; [cbn; lia|]. apply grows_refl. }
    assert (Hd : (exists k, o = OpReset k) \/ forall k, o <> OpReset k).
    { destruct o; try (right; discriminate). left. eauto. }
    unfold wp, on_shared. destruct Hd as [[k Ek]|Hd].
    - destruct (each_none _ _ _ _ E (Hno k Ek)) as (Ep & El & Es). rewrite Ek. unfold step, step_at. unfold bind, call. cbn [c_w c_tab].
      pose proof (Hreset k _ _ Ho) as Hr. unfold wp in Hr. destruct (reset k (ps_w s)) as [[] w'| | |]; try contradiction.
      cbn [ret c_tab c_w]. split; [|apply Hg]. cbn [pspec_step sstep]. constructor; cbn [ps_max ps_prox ps_tab ps_w sp_tab sp_prox].
      + exact Hx.
      + apply (agrees_none _ _ _ _ Ht).
      + exists P, []. pose proof (live_none (S := ublock) (ps_tab s)) as En.
        change (live (map (fun _ => None) (ps_tab s))) with (live (map (fun _ => @None ublock) (ps_tab s))). rewrite En, Ep.
        split; [exact Hr|]. apply (each_same (al_mem A (ps_w s))); [rewrite Ep; intros u x []|exact E].
    - pose proof (step_any amax smax A _ reset (contract_framed _ _ _ _ F (al_mem A (ps_w s)) Hct) o (mkCst (ps_tab s) (ps_w s)) (sp_tab b)) as Hw.
      assert (Hw' : wp (step smax A reset o) (mkCst (ps_tab s) (ps_w s))
        (fun r st' => hinv A (framed A own F (al_mem A (ps_w s))) st' (sstep o (option_map b_len r) (sp_tab b)))).
      { apply Hw; [intros k Ek; destruct (Hd k Ek)|]. split; [|exact Ht]. split; [|apply same_on_refl]. cbn [c_w c_tab].
        apply (ct_perm _ _ _ _ Hct _ _ _ Ho). unfold F. rewrite app_assoc. apply Permutation_app_comm. }
      unfold wp in Hw'. destruct (step smax A reset o (mkCst (ps_tab s) (ps_w s))) as [r c'| | |]; try contradiction.
      destruct Hw' as [[O' S'] At']. split; [|apply Hg]. cbn [pspec_step]. constructor; cbn [ps_max ps_prox ps_tab ps_w sp_tab sp_prox].
      + exact Hx.
      + exact At'.
      + unfold F in S'. apply same_on_app in S'. exists P, leak. split; [|apply (each_same (al_mem A (ps_w s))); [apply (proj1 S')|exact E]].
        apply (ct_perm _ _ _ _ Hct _ _ _ O'). unfold F. rewrite (app_assoc (allc P) leak (live _)). apply Permutation_app_comm.
  Qed.

  (** ** One operation, and histories *)

  Definition small (o : pop) : Prop := exists k l z, o = PUse (Some k) (OpAlloc l z) /\ l_size l = 0 /\ l_align l <= 8.

  Lemma set_nth_same {T} k (x : option T) t l1 l2 : t = l1 ++ x :: l2 -> length l1 = k -> set_nth k x t = t.
  Proof. intros -> <-. apply set_nth_split. Qed.

  Lemma pstep_ok o s b : pinv s b ->
    wp (pstep A dbg reset smax psmax nmax o) s (fun r s' =>
      pinv s' (pspec_step o r b) /\ grows s s' /\
      (forall k c, (o = PDrop k \/ o = PReset k) -> last_capacity A s k = Some c -> c <= ps_max s') /\
      (o = PLocal -> exists p, ps_prox s' = ps_prox s ++ [Some p] /\ ar_min (px_arena p) = ps_max s) /\
      (r = PPanicked -> dbg = true /\ small o)).
  Proof.
    intros H. match goal with |- wp _ _ ?Q => change (wp (pstep_at A dbg reset smax psmax nmax o (ps_prox s)) s Q) end. unfold pstep_at.
    assert (Hskip : forall o', (forall k, o' = PDrop k \/ o' = PReset k -> get k (ps_prox s) = None) -> o' <> PLocal ->
      wp (@ret (pst (W := W)) pres PSkipped) s (fun r s' =>
      pinv s' (pspec_step o' r b) /\ grows s s' /\
      (forall k c, (o' = PDrop k \/ o' = PReset k) -> last_capacity A s k = Some c -> c <= ps_max s') /\
      (o' = PLocal -> exists p, ps_prox s' = ps_prox s ++ [Some p] /\ ar_min (px_arena p) = ps_max s) /\
      (r = PPanicked -> dbg = true /\ small o'))).
    { intros o' Hd Hl. apply wp_ret. split; [|split; [apply grows_refl|split; [|split; [intros E; destruct (Hl E)|discriminate]]]].
      - destruct o' as [|k|k|n|[k|] o']; exact H.
      - intros k c Hk. unfold last_capacity. rewrite (Hd k Hk). discriminate. }
    destruct o as [|k|k|n|[k|] o].
    - (* local *)
      clear Hskip. unfold wp, caught, p_local. cbn [pspec_step]. split; [|split; [|split; [|split; [|discriminate]]]].
      + destruct H as [Hx Ht (P & leak & Ho & E)]. constructor; cbn [ps_max ps_prox ps_tab ps_w sp_tab sp_prox]; auto.
        exists (P ++ [[]]), leak. split; [rewrite allc_app, allc_cons; cbn [map app]; unfold allc at 2; cbn [concat map app]; rewrite app_nil_r; exact Ho|].
        apply each_app; [exact E|]. constructor; [|constructor]. split; [|constructor]. cbn [px_arena px_tab live].
        constructor; cbn; auto; constructor.
      + split; [cbn; lia|]. cbn [ps_prox]. rewrite app_length. split; [lia|]. intros j Hj. unfold get. rewrite nth_error_app1 by lia.
        destruct (nth_error (ps_prox s) j) as [[p|]|]; eauto.
      + intros k c [E|E]; discriminate.
      + intros _. eexists. split; [reflexivity|]. reflexivity.
    - (* drop *)
      unfold alive. destruct (get k (ps_prox s)) as [p|] eqn:G.
      2:{ apply Hskip; [|discriminate]. intros k' [E|E]; congruence. }
      clear Hskip. unfold wp, caught.
      pose proof (finish_ok false s b k p H G) as Hf. apply wp_inv in Hf.
      destruct Hf as (u & s' & Ef & l1 & q & t & l2 & S1 & S2 & L1 & L2 & E1 & E2 & Hroot & Hc & _ & Hp & _ & Hgr).
      assert (Ed : p_drop A dbg k s = ORet tt (mkPst (ps_max s') (l1 ++ None :: l2) (ps_tab s') (ps_w s'))).
      { unfold p_drop, bind in *. destruct (on_proxy k (call (last_chunk_size A) (fun _ t => t)) s) as [n s1| | |]; try discriminate Ef.
        unfold p_update in *. 
        destruct (on_proxy k (call (arena_reset_leak A false) (fun _ => map (fun _ => None)))
          (mkPst (Z.max (ps_max s1) n) (ps_prox s1) (ps_tab s1) (ps_w s1))) as [u' s2| | |]; try discriminate Ef.
        injection Ef as -> ->. unfold on_proxy. rewrite E1, <- L1, get_mid. unfold call. cbn [c_w c_tab fst snd].
        rewrite (Hroot eq_refl). unfold debug_assert. rewrite andb_false_r. cbn [ret fst snd].
        unfold put. cbn [ps_max ps_prox ps_tab ps_w fst snd c_w c_tab]. rewrite E1, !set_nth_split. reflexivity. }
      rewrite Ed. cbn [pspec_step]. rewrite E2, <- L2, set_nth_split.
      split; [apply Hp; reflexivity|]. split; [exact Hgr|]. split; [|split; discriminate].
      intros k' c [E|E] Hl; [|discriminate]. injection E as <-. rewrite L2 in Hl. cbn [ps_max]. apply Hc; exact Hl.
    - (* reset *)
      unfold alive. destruct (get k (ps_prox s)) as [p|] eqn:G.
      2:{ apply Hskip; [|discriminate]. intros k' [E|E]; congruence. }
      clear Hskip. unfold wp, caught.
      pose proof (finish_ok true s b k p H G) as Hf. apply wp_inv in Hf.
      destruct Hf as (u & s' & Ef & l1 & q & t & l2 & S1 & S2 & L1 & L2 & E1 & E2 & _ & Hc & Hp & _ & Hgr & _).
      unfold p_reset. rewrite Ef. cbn [pspec_step]. rewrite E2, <- L2, get_mid, set_nth_split.
      split; [exact Hp|]. split; [exact Hgr|]. split; [|split; discriminate].
      intros k' c [E|E] Hl; [discriminate|]. injection E as <-. rewrite L2 in Hl. apply Hc; exact Hl.
    - (* update *)
      destruct ((0 <=? n) && (n <=? nmax)) eqn:En; [|apply Hskip; [intros k [E|E]|]; discriminate].
      clear Hskip. unfold wp, caught, p_update. cbn [pspec_step]. apply andb_true_iff in En. split; [|split; [|split; [|split; discriminate]]].
      + destruct H as [Hx Ht Ho]. constructor; cbn [ps_max ps_prox ps_tab ps_w]; auto. lia.
      + split; [cbn [ps_max]; lia|]. apply (proj2 (grows_refl s)).
      + intros k c [E|E]; discriminate.
    - (* an operation of a proxy *)
      unfold alive. destruct (get k (ps_prox s)) as [p|] eqn:G.
      2:{ apply Hskip; [|discriminate]. intros k' [E|E]; discriminate. }
      clear Hskip. pose proof (use_proxy_ok o s b k p H G) as U. unfold wp, caught.
      destruct (on_proxy k (step psmax (blink A dbg) (fun _ => blink_reset A) o) s) as [r s'|s'| |]; try contradiction.
      + destruct U as [U1 U2]. split; [exact U1|]. split; [exact U2|]. split; [intros k' c [E|E]; discriminate|]. split; discriminate.
      + destruct U as (U1 & U2 & Ed & l & z & -> & U3 & U4). cbn [pspec_step]. split; [exact U1|]. split; [exact U2|].
        split; [intros k' c [E|E]; discriminate|]. split; [discriminate|]. intros _. split; [exact Ed|]. exists k, l, z. auto.
    - (* an operation on the shared allocator *)
      destruct (match o with OpReset _ => forallb is_none (ps_prox s) | _ => true end) eqn:En;
        [|apply Hskip; [intros k [E|E]|]; discriminate].
      clear Hskip. pose proof (use_shared_ok o s b H) as U. unfold wp, caught.
      assert (Hno : forall k, o = OpReset k -> forallb is_none (ps_prox s) = true) by (intros k ->; exact En).
      apply U in Hno. apply wp_inv in Hno. destruct Hno as (r & s' & -> & U1 & U2).
      split; [exact U1|]. split; [exact U2|]. split; [intros k' c [E|E]; discriminate|]. split; discriminate.
  Qed.

  Lemma prun_ok os : forall s b, pinv s b ->
    wp (prun A dbg reset smax psmax nmax os) s (fun rs s' =>
      length rs = length os /\ pinv s' (pspecs os rs b) /\ grows s s' /\
      (In PPanicked rs -> dbg = true /\ exists o, In o os /\ small o)).
  Proof.
    induction os as [|o os IH]; intros s b H; cbn [prun pspecs].
    - apply wp_ret. split; [reflexivity|]. split; [exact H|]. split; [apply grows_refl|intros []].
    - apply wp_bind. eapply wp_mono; [apply (pstep_ok o s b H)|]. intros r s1 (H1 & G1 & _ & _ & P1).
      apply wp_bind. eapply wp_mono; [apply (IH s1 _ H1)|]. intros rs s2 (Hl & H2 & G2 & P2).
      apply wp_ret. cbn [length pspecs]. split; [lia|]. split; [exact H2|]. split; [eapply grows_trans; eassumption|].
      intros [E|E].
      + destruct (P1 E) as [Ed Hs]. split; [exact Ed|]. exists o. split; [left; reflexivity|exact Hs].
      + destruct (P2 E) as (Ed & o' & Hi & Hs). split; [exact Ed|]. exists o'. split; [right; exact Hi|exact Hs].
  Qed.

  Lemma pstart_inv w : own w [] -> 0 <= top -> pinv (pstart w) (mkSp [] []).
  Proof.
    intros Ho Ht. constructor; cbn [pstart ps_max ps_tab ps_w ps_prox sp_tab sp_prox]; [lia|constructor|].
    exists [], []. split; [exact Ho|constructor].
  Qed.

  Lemma pinv_agree s b : pinv s b -> pagree (al_mem A (ps_w s)) s b.
  Proof.
    intros [_ Ht (P & leak & _ & E)]. split; [exact Ht|]. clear Ht leak. induction E as [|cs p t P l S Ho E IH]; constructor; [|exact IH].
    destruct p, t; cbn in *; tauto.
  Qed.

  (** The blocks of the clients lie in their chunks. *)
  Lemma each_owner m P l S k p h u : each m P l S -> get k l = Some p -> get h (px_tab p) = Some u ->
    exists P1 cs P2 c, P = P1 ++ cs :: P2 /\ length P1 = k /\ In c cs /\ u_ok amax u /\
      (forall x, in_u x u -> in_u x (c_u c)) /\ lrep cs (px_arena p) m (live (px_tab p)).
  Proof.
    intros E G Gh.
    destruct (each_at _ _ _ _ _ _ E G) as (P1 & cs & P2 & l1 & l2 & S1 & t & S2 & -> & E2 & E3 & L1 & L2 & X1 & X2 & L & X4).
    assert (Hu : In u (live (px_tab p))) by (apply live_in; eauto).
    pose proof (lr_placed _ _ _ _ L) as Pl. unfold placed in Pl. rewrite Forall_forall in Pl.
    destruct (Pl u Hu) as (c & Hc & Q1 & Q2).
    pose proof (lr_ok _ _ _ _ L) as Ok. rewrite Forall_forall in Ok.
    exists P1, cs, P2, c. split; [reflexivity|]. split; [rewrite (proj1 (each_len _ _ _ _ X1)); exact L1|]. split; [exact Hc|].
    split; [apply Ok; exact Hu|]. split; [|exact L].
    pose proof (chain_cwf _ _ _ (lr_chain _ _ _ _ L) Hc) as (_ & _ & W1).
    intros x Hx. unfold in_u in *. unfold c_base, c_end, c_ptr, HDR in *. lia.
  Qed.

  Lemma pinv_ok s b who h u : pinv s b -> owns s who h u -> u_ok amax u.
  Proof.
    intros [_ _ (P & leak & Ho & E)] H. destruct who as [k|].
    - destruct H as (p & G & Gh). destruct (each_owner _ _ _ _ _ _ _ _ E G Gh) as (? & ? & ? & ? & _ & _ & _ & H & _). exact H.
    - cbn in H. destruct (ct_wf _ _ _ _ Hct _ _ Ho) as [O _]. rewrite Forall_forall in O. apply O. apply in_or_app. right.
      apply in_or_app. right. apply live_in. eauto.
  Qed.

  Lemma concat_in {T} (x : T) ys P1 P2 : In x ys -> In x (concat (P1 ++ ys :: P2)).
  Proof. intros H. rewrite concat_app. apply in_or_app. right. cbn. apply in_or_app. left. exact H. Qed.

  Lemma pinv_disjoint s b who1 h1 u1 who2 h2 u2 : pinv s b -> owns s who1 h1 u1 -> owns s who2 h2 u2 ->
    (who1, h1) <> (who2, h2) -> disjoint_u u1 u2.
  Proof.
    intros [_ _ (P & leak & Ho & E)]. destruct (ct_wf _ _ _ _ Hct _ _ Ho) as [_ D].
    apply pairwise_app in D. destruct D as (D1 & D2 & D3). apply pairwise_app in D2. destruct D2 as (_ & D2 & _).
    assert (Hmix : forall k h h' u u', owns s (Some k) h u -> owns s None h' u' -> disjoint_u u u').
    { intros k h h' u u' (p & G & Gh) H'. cbn in H'.
      destruct (each_owner _ _ _ _ _ _ _ _ E G Gh) as (P1 & cs & P2 & c & -> & _ & Hc & _ & Hin & _).
      intros x Hx Hx'. apply (D3 (c_u c) u') with (x := x); [|apply in_or_app; right; apply live_in; eauto|apply Hin; exact Hx|exact Hx'].
      unfold allc. apply in_map. apply concat_in. exact Hc. }
    assert (Hsym : forall x y, disjoint_u x y -> disjoint_u y x) by (intros a c Hd x Hx Hx'; apply (Hd x Hx' Hx)).
    intros H1 H2 Hne. destruct who1 as [k1|], who2 as [k2|].
    - destruct H1 as (p1 & G1 & Gh1), H2 as (p2 & G2 & Gh2).
      destruct (each_owner _ _ _ _ _ _ _ _ E G1 Gh1) as (P1 & cs1 & P2 & c1 & E1 & L1 & Hc1 & _ & Hin1 & Lr1).
      destruct (each_owner _ _ _ _ _ _ _ _ E G2 Gh2) as (P1' & cs2 & P2' & c2 & E2 & L2 & Hc2 & _ & Hin2 & _).
      destruct (Nat.eq_dec k1 k2) as [<-|Hk].
      + rewrite G1 in G2. injection G2 as <-.
        apply (get_pairwise disjoint_u Hsym (px_tab p1) h1 h2 u1 u2); auto; first [apply Lr1|congruence].
      + intros x Hx Hx'. apply Hin1 in Hx. apply Hin2 in Hx'.
        assert (Hsplit : forall A1 a A2 B1 b' B2 (ca cb : chunk), P = A1 ++ a :: A2 -> P = B1 ++ b' :: B2 -> (length A1 < length B1)%nat ->
          In ca a -> In cb b' -> in_u x (c_u ca) -> in_u x (c_u cb) -> False).
        { intros A1 a A2 B1 b' B2 ca cb EA EB Hlt Ha Hb Xa Xb. rewrite EA in D1. rewrite allc_app, allc_cons in D1.
          apply pairwise_app in D1. destruct D1 as (_ & D1 & _). apply pairwise_app in D1. destruct D1 as (_ & _ & D1).
          apply (D1 (c_u ca) (c_u cb)) with (x := x); auto; [apply in_map; exact Ha|].
          assert (Hb2 : In b' A2).
          { assert (N : nth_error P (length B1) = Some b') by (rewrite EB, nth_error_app2 by lia; rewrite Nat.sub_diag; reflexivity).
            rewrite EA, nth_error_app2 in N by lia. destruct (length B1 - length A1)%nat as [|i] eqn:Ei; [lia|]. cbn in N.
            apply nth_error_In in N. exact N. }
          unfold allc. apply in_map. apply in_concat. exists b'. auto. }
        destruct (Nat.lt_total k1 k2) as [Hl|[Hl|Hl]]; [|contradiction|].
        * apply (Hsplit P1 cs1 P2 P1' cs2 P2' c1 c2); auto; lia.
        * apply (Hsplit P1' cs2 P2' P1 cs1 P2 c2 c1); auto; lia.
    - apply (Hmix k1 h1 h2); assumption.
    - intros x Hx Hx'. apply (Hmix k2 h2 h1 u2 u1 H2 H1 x Hx' Hx).
    - cbn in H1, H2. apply (get_pairwise disjoint_u Hsym (ps_tab s) h1 h2 u1 u2); auto.
  Qed.

  (** The last chunk of a proxy is at least as large as the minimum it was created with. *)
  Lemma pinv_capacity s b k p c : pinv s b -> get k (ps_prox s) = Some p -> last_capacity A s k = Some c ->
    ar_min (px_arena p) <= c.
  Proof.
    intros H G. destruct (focus s b k p H G) as (P1 & cs & P2 & l1 & l2 & S1 & t & S2 & leak & E1 & E2 & L1 & L2 & X1 & X2 & L & _).
    unfold last_capacity. rewrite G, (lr_head _ _ _ _ L). destruct cs as [|c0 cs0]; cbn [head_ptr]; [discriminate|].
    pose proof (lr_chain _ _ _ _ L) as Hch. cbn [chain] in Hch. destruct Hch as (_ & (_ & X & _) & _).
    unfold END in X. rewrite X. intros Ec. injection Ec as <-. pose proof (Forall_inv (lr_caps _ _ _ _ L)) as Hc. cbn beta in Hc.
    unfold c_end, c_ptr, HDR in *. lia.
  Qed.
End Proxies.
