(** Global allocators with proxies over the adversarial bottom allocator. *)
From Coq Require Import Permutation.
From Verif Require Import Base BaseFacts Alloc AllocFacts Arena ArenaFacts ArenaInv ArenaOps BlinkAlloc BlinkFacts
  History HistoryFacts Setup SetupFacts Frame Proxy ProxyFacts ProxyProps Global GlobalFacts GlobalProps GLocal GLocalFacts.

Section Statements.
  Variable su : setup.
  Variable psmax nmax : Z.
  (** [lax = true]: the underlying allocator takes any sizes in [grow] and [shrink], and the
      client passes what it wants to [realloc] in direct mode.  [lax = false]: any underlying
      allocator; the client never changes the size of a block in direct mode (C45). *)
  Variable lax : bool.

  Definition under : Allocator bworld := if lax then lenient (bot su) else bot su.
  Definition whichever : Z -> Z -> bool := if lax then fun _ _ => true else Z.eqb.
  Definition both_step (careful : bool) (o : lop) := lstep under (su_dbg su) careful (su_smax su) whichever psmax nmax o.
  Definition both_run (careful : bool) (os : list lop) := lrun under (su_dbg su) careful (su_smax su) whichever psmax nmax os.
  Definition both_start : lst (W := bworld) := l_new (su_min su) bworld0.
  Notation aw_of s := (g_aw (gc_st (l_g s))).

  (** The state [s] is what the clients expect after [os], answered [rs]: *)
  Record together (os : list lop) (rs : list lres) (s : lst (W := bworld)) : Prop := mkTogether {
    (* one answer per operation; the mode is the one switched to *)
    to_length : length rs = length os;
    to_mode : g_on (gc_st (l_g s)) = ls_on (lspecs os rs (mkLs false [] []));
    (* every live block of every client has the contents of the independent buffer it stands for *)
    to_global : Forall2 (gagree (bw_mem (snd (aw_of s)))) (gc_tab (l_g s)) (ls_tab (lspecs os rs (mkLs false [] [])));
    to_proxies : Forall2 (fun p t => match p, t with
                                     | Some p, Some t => agrees (bw_mem (snd (aw_of s))) (px_tab p) t
                                     | None, None => True
                                     | _, _ => False
                                     end) (l_prox s) (ls_prox (lspecs os rs (mkLs false [] [])));
    (* live blocks are where their layouts allow them to be, and disjoint *)
    to_blocks : forall who h u, lowns s who h u ->
      0 < u_ptr u /\ u_ptr u mod l_align (u_layout u) = 0 /\ l_size (u_layout u) <= u_len u /\ u_ptr u + u_len u <= su_amax su;
    to_disjoint : forall who1 h1 u1 who2 h2 u2, lowns s who1 h1 u1 -> lowns s who2 h2 u2 ->
      (who1, h1) <> (who2, h2) -> disjoint_u u1 u2;
    (* what the underlying allocator has handed out is the chunks and the blocks allocated in
       direct mode; the blocks of the proxies and those allocated in blink mode are in chunks *)
    to_origin : exists ks, Permutation (outstanding (bw_trace (snd (aw_of s)))) (ks ++ part false (gc_tab (l_g s))) /\
      (forall u, In u (part true (gc_tab (l_g s))) -> exists k, In k ks /\ inside u k) /\
      (forall k h u, lowns s (Some k) h u -> exists c, In c ks /\ inside u c);
    (* the debug counter counts the blink-mode blocks of the global allocator's client, and
       nothing that belongs to the proxies *)
    to_count : su_dbg su = true -> g_count (gc_st (l_g s)) = Z.of_nat (length (filter fst (live (gc_tab (l_g s)))))
  }.

  (** (Resets are not attempted while a proxy has a chunk.)  Exactly the resets of a debug build
      while a blink-mode block of the global allocator's client is alive panic, and then nothing has changed; an operation of a proxy panics only
      in a debug build, and only if it allocates no bytes at a small alignment. *)
  Definition panics_right (s : lst (W := bworld)) : Prop := forall o, exists r s', both_step true o s = ORet r s' /\
    (r = RGlobal GPanicked <-> (o = LGlobal GReset \/ o = LGlobal GDirect) /\ (forall k p, get k (l_prox s) = Some p -> ar_root (px_arena p) = None) /\
                               su_dbg su = true /\ exists h u, get h (gc_tab (l_g s)) = Some (true, u)) /\
    (r = RGlobal GPanicked -> s' = s) /\
    (r = RProxy PPanicked -> su_dbg su = true /\
       exists k l z, o = LProxy (PUse (Some k) (OpAlloc l z)) /\ l_size l = 0 /\ l_align l <= 8).

  Hypothesis Hok : proxies_ok su psmax nmax.
  Lemma lsu : setup_ok su.
  Proof. apply Hok. Qed.
  Notation bown := (base_own (su_amax su) (su_bmax su)).

  Lemma under_ct : contract (su_amax su) (su_bmax su) under bown.
  Proof. unfold under. destruct lax; [apply lenient_contract|]; apply (su_ct su lsu). Qed.
  Lemma under_may u old new : fits old u -> req_ok (su_bmax su) new -> whichever (l_size old) (l_size new) = true ->
    resizes (su_amax su) under bown
      (if l_size new <=? l_size old then al_grow under (u_ptr u) old new else al_shrink under (u_ptr u) old new) u old new.
  Proof. unfold under, whichever. destruct lax; [apply lenient_may|apply equal_may]; apply (su_ct su lsu). Qed.
  Lemma under_mem w : al_mem under w = bw_mem w.
  Proof. unfold under. destruct lax; reflexivity. Qed.
  Notation linv := (linv (su_amax su) under bown (su_dbg su) (su_min su) nmax).

  Lemma both_run_ok os s b : linv s b -> exists rs s', both_run true os s = ORet rs s' /\
    length rs = length os /\ linv s' (lspecs os rs b) /\ l_max s <= l_max s' /\
    (In (RProxy PPanicked) rs -> su_dbg su = true /\ exists o, In (LProxy o) os /\ idle o).
  Proof.
    intros H. apply (wp_inv (both_run true os) s).
    apply (lrun_ok (su_amax su) (su_smax su) (su_bmax su) under bown under_ct (su_amax_ok su lsu) (su_dbg su) (su_min su)
      (su_cfg su lsu) (su_ss su lsu) whichever under_may psmax nmax (ptop su psmax nmax Hok) (pcfg su psmax nmax Hok) os s b H).
  Qed.
  Lemma both_start_inv : linv both_start (mkLs false [] []).
  Proof.
    apply (lstart_inv (su_amax su) (su_smax su) (su_bmax su) under bown under_ct (su_dbg su) (su_min su) (su_min_ok su lsu) (su_cfg su lsu)).
    - apply bot_start.
    - pose proof (su_amax_ok su lsu). lia.
  Qed.

  Lemma linv_together os rs s : length rs = length os -> linv s (lspecs os rs (mkLs false [] [])) -> together os rs s.
  Proof.
    intros L H. pose proof (su_amax_ok su lsu) as Ha. pose proof (su_cfg su lsu) as Hc.
    destruct (linv_contents (su_amax su) (su_smax su) (su_bmax su) under bown under_ct Ha (su_dbg su) (su_min su) Hc nmax s _ H) as [C1 C2].
    constructor.
    - exact L.
    - destruct H as [Hg _ _]. apply (gi_mode _ _ _ _ _ _ _ _ Hg).
    - rewrite <- under_mem. exact C1.
    - rewrite <- under_mem. exact C2.
    - intros who h u Ho.
      apply (linv_ok (su_amax su) (su_smax su) (su_bmax su) under bown under_ct Ha (su_dbg su) (su_min su) Hc nmax s _ who h u H Ho).
    - intros who1 h1 u1 who2 h2 u2.
      apply (linv_disjoint (su_amax su) (su_smax su) (su_bmax su) under bown under_ct Ha (su_dbg su) (su_min su) Hc nmax s _ who1 h1 u1 who2 h2 u2 H).
    - pose proof H as [Hg _ (P & leak & Hh & He)]. apply has_tag in Hh. destruct Hh as (cs & R & _).
      assert (Hin : forall v, In v ((allc P ++ leak) ++ part true (gc_tab (l_g s))) -> exists k, In k (map c_u cs) /\ inside v k).
      { intros v Hv. pose proof (ar_placed _ _ _ _ _ _ _ _ R) as Q. unfold placed in Q. rewrite Forall_forall in Q.
        destruct (Q v Hv) as (k & Hk & P1 & P2). exists (c_u k). split; [apply in_map; exact Hk|].
        destruct (arep_chunk_ok _ _ _ _ under_ct _ _ _ _ _ k R Hk) as ((_ & _ & W1) & _).
        unfold inside, HEADER, c_base, c_end, c_ptr, HDR in *. lia. }
      exists (map c_u cs). split; [destruct (ar_own _ _ _ _ _ _ _ _ R) as [[_ Q] _]; symmetry; exact Q|]. split.
      + intros u Hu. apply Hin. apply in_or_app. right. exact Hu.
      + intros k h u (p & G & Gh).
        destruct (each_at _ _ _ _ _ _ _ _ He G) as (P1 & ks & P2 & l1 & l2 & S1 & t & S2 & EP & _ & _ & _ & _ & _ & _ & Lr & _).
        assert (Hu : In u (live (px_tab p))) by (apply live_in; eauto).
        pose proof (lr_placed _ _ _ _ _ _ Lr) as Pl. unfold placed in Pl. rewrite Forall_forall in Pl.
        destruct (Pl u Hu) as (c & Hcc & Q1 & Q2).
        destruct (Hin (c_u c)) as (d & Hd & I).
        { apply in_or_app. left. apply in_or_app. left. rewrite EP. unfold allc. apply in_map. apply concat_in. exact Hcc. }
        exists d. split; [exact Hd|].
        pose proof (chain_cwf _ _ _ (lr_chain _ _ _ _ _ _ Lr) Hcc) as (_ & _ & W1).
        unfold inside, HEADER, c_base, c_end, c_ptr, HDR in *. lia.
    - intros Hd. destruct H as [Hg _ _]. pose proof (gi_count _ _ _ _ _ _ _ _ Hg) as C. rewrite Hd in C. rewrite C. f_equal. apply part_blinks.
  Qed.

  Theorem both_together os : exists rs s, both_run true os both_start = ORet rs s /\ together os rs s.
  Proof.
    destruct (both_run_ok os _ _ both_start_inv) as (rs & s & E & L & H & _). exists rs, s. split; [exact E|].
    apply linv_together; assumption.
  Qed.

  Theorem both_apart os : exists rs s, both_run true os both_start = ORet rs s /\
    forall who1 h1 u1 who2 h2 u2, lowns s who1 h1 u1 -> lowns s who2 h2 u2 -> (who1, h1) <> (who2, h2) -> disjoint_u u1 u2.
  Proof. destruct (both_together os) as (rs & s & E & T). exists rs, s. split; [exact E|apply T]. Qed.

  Theorem both_panics os : exists rs s, both_run true os both_start = ORet rs s /\ panics_right s.
  Proof.
    destruct (both_run_ok os _ _ both_start_inv) as (rs & s & E & L & H & _). exists rs, s. split; [exact E|].
    intros o.
    destruct (wp_inv _ _ _ (lstep_ok (su_amax su) (su_smax su) (su_bmax su) under bown under_ct (su_amax_ok su lsu) (su_dbg su) (su_min su)
      (su_cfg su lsu) (su_ss su lsu) whichever under_may psmax nmax (ptop su psmax nmax Hok) (pcfg su psmax nmax Hok) o s _ H))
      as (r & s' & E' & _ & _ & P1 & P2 & P3).
    exists r, s'. split; [exact E'|]. split; [|split; [exact P2|]].
    - rewrite P1. rewrite part_alive.
      assert (Hn : forallb unused (l_prox s) = true <-> (forall k p, get k (l_prox s) = Some p -> ar_root (px_arena p) = None)).
      { rewrite forallb_forall. split.
        - intros Hf k p G. destruct (get_split _ _ _ G) as (t1 & t2 & Et & _).
          specialize (Hf (Some p)). rewrite Et in Hf. cbn [unused] in Hf.
          destruct (ar_root (px_arena p)); [|reflexivity]. discriminate Hf. apply in_or_app. right; left; reflexivity.
        - intros Hf [p|] Hp; [|reflexivity]. apply In_nth_error in Hp. destruct Hp as [k Hk]. cbn [unused].
          rewrite (Hf k p); [reflexivity|]. unfold get. rewrite Hk. reflexivity. }
      rewrite Hn. reflexivity.
    - intros Ep. destruct (P3 Ep) as (Hd & o' & -> & k & l & z & -> & Hs & Hl). split; [exact Hd|]. exists k, l, z. auto.
  Qed.

  (** The size recorded for proxies only grows. *)
  Theorem both_recorded os1 rs1 s1 os2 rs2 s2 : both_run true os1 both_start = ORet rs1 s1 -> both_run true os2 s1 = ORet rs2 s2 ->
    l_max s1 <= l_max s2.
  Proof.
    destruct (both_run_ok os1 _ _ both_start_inv) as (rs & s & E & L & H & _). rewrite E. intros X. injection X as <- <-.
    destruct (both_run_ok os2 _ _ H) as (rs' & s' & E' & _ & _ & M & _). rewrite E'. intros X. injection X as <- <-. exact M.
  Qed.
End Statements.
