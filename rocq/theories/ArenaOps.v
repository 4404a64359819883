(** Every operation of the arena preserves the representation invariant, keeps
    all client data and all foreign blocks, and raises no panic and no UB. *)
From Coq Require Import Permutation.
From Verif Require Import Base BaseFacts Alloc AllocFacts Arena ArenaFacts ArenaInv.

(** [quiet A w w']: going from [w] to [w'] only the memory changed; in
    particular the underlying allocator was not called. *)
Definition quiet {W} (A : Allocator W) (w w' : W) : Prop :=
  forall (T : Type) (f : W -> T), (forall w m, f (al_set_mem A w m) = f w) -> f w' = f w.

Lemma quiet_refl {W} (A : Allocator W) w : quiet A w w.
Proof. intros T f _; reflexivity. Qed.
Lemma quiet_trans {W} (A : Allocator W) w1 w2 w3 :
  quiet A w1 w2 -> quiet A w2 w3 -> quiet A w1 w3.
Proof. intros H1 H2 T f Hf. rewrite (H2 T f Hf). apply (H1 T f Hf). Qed.
Lemma quiet_set {W} (A : Allocator W) w m : quiet A w (al_set_mem A w m).
Proof. intros T f Hf. apply Hf. Qed.

(** The room a fresh chunk offers. *)
Lemma fresh_room ptr len l smax s :
  req_ok smax l -> smax <= USIZE_MAX ->
  0 < ptr -> ptr mod 8 = 0 -> s mod 8 = 0 -> s <= len -> chunk_need l <= s ->
  ptr + len <= USIZE_MAX ->
  room (ptr + HDR) (ptr + len) l = true.
Proof.
  intros Hl Hsm Hp Hp8 Hs8 Hsl Hneed Hend.
  destruct (req_ok_facts _ _ Hl) as (k & Hk & Ea & Hpos & Hsz & Hsum).
  unfold room, chunk_need, HDR, HDR_ALIGN in *.
  destruct (round_up_spec (ptr + 32) (l_align l) Hpos) as [B Hm].
  destruct (Z.ltb_spec 8 (l_align l)) as [L|G].
  - lia.
  - assert (Hd : (ptr + 32) mod l_align l = 0).
    { apply Z.mod_divide; [lia|]. apply Z.divide_trans with 8.
      - assert (k <= 3) by (apply (Z.pow_le_mono_r_iff 2); lia).
        rewrite Ea. exists (2 ^ (3 - k)). rewrite <- Z.pow_add_r by lia.
        replace (3 - k + k) with 3 by lia. reflexivity.
      - apply Z.mod_divide; [lia|]. rewrite Z.add_mod, Hp8 by lia. reflexivity. }
    rewrite (round_up_id _ _ Hpos Hd).
    assert (E : (ptr + s) mod 8 = 0) by (rewrite Z.add_mod, Hp8, Hs8 by lia; reflexivity).
    apply Z.mod_divide in E; [|lia]. destruct E as [q E].
    assert (ptr + s <= USIZE_MAX - 7).
    { unfold USIZE_MAX in *. change (2 ^ 64) with (2305843009213693952 * 8) in *. lia. }
    lia.
Qed.

Lemma align_up8 s r : 0 <= s -> align_up s HDR_ALIGN = Some r ->
  s <= r < s + 8 /\ r mod 8 = 0 /\ r + 7 <= USIZE_MAX.
Proof.
  intros Hs. change HDR_ALIGN with (2 ^ 3). intros E.
  destruct (align_up_some s 3 r Hs ltac:(lia) E) as (B & M & U).
  change (2 ^ 3) with 8 in *. repeat split; try lia.
  apply Z.mod_divide in M; [|lia]. destruct M as [q ->].
  unfold USIZE_MAX in *. change (2 ^ 64) with (2305843009213693952 * 8) in *. lia.
Qed.

Lemma align_up8_id s : 0 <= s -> s mod 8 = 0 -> s <= USIZE_MAX -> align_up s HDR_ALIGN = Some s.
Proof.
  intros Hs M U. change HDR_ALIGN with (2 ^ 3). rewrite align_up_spec by lia.
  change (2 ^ 3) with 8. apply Z.mod_divide in M; [|lia]. destruct M as [q ->].
  assert (q * 8 + 7 <= USIZE_MAX).
  { unfold USIZE_MAX in *. change (2 ^ 64) with (2305843009213693952 * 8) in *. lia. }
  replace (q * 8 + (8 - 1) <=? USIZE_MAX) with true by lia. f_equal.
  replace (q * 8 + (8 - 1)) with (7 + q * 8) by lia. rewrite Z.mod_add by lia.
  change (7 mod 8) with 7. lia.
Qed.

(** ** The request for a new chunk *)

(** [cumulative_size] of the root: the capacity of all older chunks. *)
Definition cum_of (cs : list chunk) : option Z :=
  match cs with [] => None | _ :: cs' => Some (sum_caps cs') end.

(** The layout requested from the underlying allocator by the slow path. *)
Definition slow_req (cs : list chunk) (min : Z) (l : Layout) : option Layout :=
  match next_chunk_size (cum_of cs) min l with
  | None => None
  | Some s => match align_up s HDR_ALIGN with
              | None => None
              | Some s' => Some (mkLayout s' HDR_ALIGN)
              end
  end.

Lemma chunk_raw_facts cum min l smax :
  0 <= min -> (match cum with Some c => 0 <= c | None => True end) -> req_ok smax l ->
  chunk_need l <= chunk_raw cum min l /\ HDR + min <= chunk_raw cum min l /\
  (forall amax, match cum with Some c => c <= amax | None => 0 <= amax end ->
   chunk_raw cum min l <= Z.max amax min + smax + 128).
Proof.
  intros Hmin Hcum Hl. destruct (req_ok_facts _ _ Hl) as (k & _ & _ & Hpos & Hsz & Hsum).
  unfold chunk_raw, chunk_need, CHUNK_MIN_GROW_STEP, HDR.
  destruct (Z.ltb_spec HDR_ALIGN (l_align l)); destruct cum as [c|];
    (split; [lia|split; [lia|]]); intros amax Ha; lia.
Qed.

Lemma slow_req_spec cs min l smax smax' lay dbg amax :
  0 <= min -> 0 <= sum_caps cs <= amax -> 0 <= sum_caps (tl cs) <= amax ->
  req_ok smax l -> cfg_lax dbg amax smax min smax' ->
  slow_req cs min l = Some lay ->
  req_ok smax' lay /\ l_align lay = HDR_ALIGN /\ chunk_need l <= l_size lay /\
  l_size lay mod 8 = 0 /\ chunk_raw (cum_of cs) min l <= l_size lay.
Proof.
  intros Hmin Hsum Hsum' Hl Hcfg. unfold slow_req.
  assert (Hc : match cum_of cs with Some c => 0 <= c | None => True end) by (destruct cs; cbn in *; lia).
  assert (Hc2 : match cum_of cs with Some c => c <= amax | None => 0 <= amax end)
    by (destruct cs; cbn in *; lia).
  rewrite (next_chunk_size_raw _ _ _ smax Hmin Hc Hl).
  destruct (chunk_raw_facts (cum_of cs) min l smax Hmin Hc Hl) as (F1 & F2 & F3).
  specialize (F3 amax Hc2).
  set (raw := chunk_raw (cum_of cs) min l) in *.
  destruct (Z.leb_spec raw USIZE_MAX) as [L|]; [|discriminate].
  destruct (chunk_round_spec raw) as (R1 & R2 & R3); [unfold HDR in *; lia|].
  destruct (align_up (chunk_round raw) HDR_ALIGN) as [s'|] eqn:E; [|discriminate].
  intros E2; inversion E2; subst lay; cbn.
  assert (Hr0 : 0 <= chunk_round raw) by (unfold HDR in *; lia).
  destruct (align_up8 _ _ Hr0 E) as (B & M & U).
  unfold HDR, HDR_ALIGN in *. repeat split; try lia.
  apply req_ok_intro; cbn; [reflexivity|lia|].
  destruct Hcfg as (_ & _ & [[_ ->]|Hb]); lia.
Qed.

Lemma chunk_raw_min cum min l smax : 0 <= min -> (match cum with Some c => 0 <= c | None => True end) ->
  req_ok smax l -> HDR + min <= chunk_raw cum min l.
Proof. intros H1 H2 H3. apply (chunk_raw_facts cum min l smax H1 H2 H3). Qed.

(** The request is for more than the header. *)
Lemma chunk_raw_more cs min l smax : 0 <= min -> 0 <= sum_caps (tl cs) -> req_ok smax l ->
  1 <= min \/ 1 <= l_size l \/ HDR_ALIGN < l_align l \/ head_ptr cs <> None ->
  HDR < chunk_raw (cum_of cs) min l.
Proof.
  intros Hmin Hs Hl Hm. destruct (req_ok_facts _ _ Hl) as (_ & _ & _ & Hpos & Hsz & _).
  unfold chunk_raw, HDR, CHUNK_MIN_GROW_STEP in *.
  destruct (Z.ltb_spec HDR_ALIGN (l_align l)) as [L2|L2]; destruct cs as [|c0 cs0]; cbn [cum_of tl] in *;
    unfold HDR_ALIGN in *; try lia.
  destruct Hm as [Hm|[Hm|[Hm|Hm]]]; [lia|lia|lia|]. exfalso. apply Hm. reflexivity.
Qed.

(** With debug assertions on, the chunk size passed to [alloc_chunk] is a
    multiple of 8. *)
Lemma slow_assert cs min l smax smax' dbg amax s :
  0 <= min -> 0 <= sum_caps (tl cs) <= amax ->
  req_ok smax l -> cfg_lax dbg amax smax min smax' ->
  next_chunk_size (cum_of cs) min l = Some s ->
  0 <= s /\ (dbg = true -> s mod HDR_ALIGN =? 0 = true).
Proof.
  intros Hmin Hsum' Hl Hcfg.
  assert (Hc : match cum_of cs with Some c => 0 <= c | None => True end) by (destruct cs; cbn in *; lia).
  assert (Hc2 : match cum_of cs with Some c => c <= amax | None => 0 <= amax end)
    by (destruct cs; cbn in *; lia).
  rewrite (next_chunk_size_raw _ _ _ smax Hmin Hc Hl).
  destruct (chunk_raw_facts (cum_of cs) min l smax Hmin Hc Hl) as (F1 & F2 & F3).
  specialize (F3 amax Hc2).
  set (raw := chunk_raw (cum_of cs) min l) in *.
  destruct (Z.leb_spec raw USIZE_MAX) as [L|]; [|discriminate].
  destruct (chunk_round_spec raw) as (R1 & R2 & R3); [unfold HDR in *; lia|].
  intros E; inversion E; subst s. split; [unfold HDR in *; lia|].
  intros ->. destruct Hcfg as (_ & Hu & [[? _]|Hb]); [discriminate|].
  unfold HDR_ALIGN. rewrite R3 by lia. reflexivity.
Qed.

Section Ops.
  Context {W : Type} (amax smax smax' : Z) (A : Allocator W) (own : W -> list ublock -> Prop).
  Hypothesis Hct : contract amax smax' A own.
  Hypothesis Hamax : 0 <= amax <= USIZE_MAX.
  Variable dbg : bool.
  Notation arep := (arep amax A own).

  Definition mku (b : block) (l : Layout) : ublock := mkU (b_ptr b) (b_len b) l.

  (** ** Allocation inside the root chunk *)

  Lemma chunk_alloc_ok ext c cs ar w us l :
    arep ext (c :: cs) ar w us -> req_ok smax l -> smax <= USIZE_MAX ->
    let r := round_up (c_cur c) (l_align l) in
    let n := r + l_size l in
    let w' := al_set_mem A w (store (al_mem A w) (c_ptr c + CURSOR) 8 n) in
    if room (c_cur c) (c_end c) l
    then chunk_alloc A dbg (c_ptr c) l w = ORet (Some (mkBlock r (l_size l))) w' /\
         good_block amax l (mkBlock r (l_size l)) /\
         arep ext (set_cur c n :: cs) ar w' (mkU r (l_size l) l :: us) /\
         same_on (us ++ ext) (al_mem A w) (al_mem A w')
    else chunk_alloc A dbg (c_ptr c) l w = ORet None w.
  Proof.
    intros R Hl Hs r n w'.
    destruct (req_ok_facts _ _ Hl) as (k & Hk & Ea & Hpos & Hsz & Hsum).
    destruct (arep_chunk_ok _ _ _ _ Hct _ _ _ _ _ c R (or_introl eq_refl))
      as ((_ & _ & W1) & _ & P1 & P8 & L1 & E1).
    pose proof (ar_chain _ _ _ _ _ _ _ _ R) as Hch. cbn [chain] in Hch.
    destruct Hch as (_ & (H1 & H2 & _) & _).
    rewrite (chunk_alloc_eq A dbg (c_ptr c) l (c_cur c) (c_end c) smax w Hl Hs) by
      (auto; unfold c_base, HDR in *; lia).
    cbv zeta. fold r.
    destruct (room (c_cur c) (c_end c) l) eqn:Rm; [|reflexivity].
    destruct (round_up_spec (c_cur c) (l_align l) Hpos) as [B Hm]. fold r in B, Hm.
    unfold room in Rm. fold r in Rm.
    assert (Hn : c_cur c <= n <= c_end c) by (unfold n; lia).
    destruct (arep_bump _ _ _ _ Hct _ _ _ _ _ _ n R Hn) as [R2 Hsame].
    split; [reflexivity|].
    assert (Hg : good_block amax l (mkBlock r (l_size l))).
    { unfold good_block; cbn. unfold c_base, HDR in *. repeat split; auto; lia. }
    split; [exact Hg|]. split.
    - apply arep_add.
      + exact R2.
      + apply (mkU_ok amax smax l (mkBlock r (l_size l))); assumption.
      + cbn. lia.
      + cbn. fold n. lia.
      + apply (arep_free_disj _ _ _ _ Hct _ _ _ _ _ c (mkU r (l_size l) l) R (or_introl eq_refl));
          cbn; unfold n in *; lia.
    - unfold w'. rewrite (ct_mem _ _ _ _ Hct). exact Hsame.
  Qed.

  (** ** A new chunk *)

  Lemma wp_store_own w us u a n v (Q : unit -> W -> Prop) :
    own w us -> In u us -> u_ptr u <= a -> a + n <= u_ptr u + u_len u ->
    (forall w', own w' us -> al_mem A w' = store (al_mem A w) a n v -> quiet A w w' -> Q tt w') ->
    wp (mstore A a n v) w Q.
  Proof.
    intros Ho Hu H1 H2 HQ. apply wp_mstore. apply HQ.
    - apply (ct_write _ _ _ _ Hct); [exact Ho|]. intros x Hx. apply store_other.
      specialize (Hx u Hu). unfold in_u in Hx. lia.
    - apply (ct_mem _ _ _ _ Hct).
    - apply quiet_set.
  Qed.

  Lemma init_chunk_ok ext cs ar w us b lay :
    chain (al_mem A w) cs ->
    own w (mku b lay :: map c_u cs ++ ext) ->
    placed cs us -> Forall (u_ok amax) us -> pairwise disjoint_u us ->
    ar_root ar = head_ptr cs -> ar_depth ar = length cs -> 0 <= ar_min ar <= USIZE_MAX ->
    l_align lay = HDR_ALIGN -> HDR <= l_size lay -> (dbg = true -> HDR < b_len b) ->
    wp (init_chunk A dbg b (head_ptr cs)) w (fun p w' =>
      p = b_ptr b /\ quiet A w w' /\
      arep ext (mkChunk (mku b lay) (b_ptr b + HDR) :: cs)
           (mkArena (Some p) (ar_min ar) (S (ar_depth ar))) w' us /\
      same_on (us ++ ext) (al_mem A w) (al_mem A w')).
  Proof.
    intros Hch Ho Hpl Hok Hdj Hr Hd Hm Ha Hs Hdbg.
    (* the old chunks, with the new block as a foreign one *)
    assert (R0 : arep (mku b lay :: ext) cs ar w us).
    { constructor; auto.
      apply (ct_perm _ _ _ _ Hct _ _ _ Ho). apply Permutation_middle. }
    destruct (ct_wf _ _ _ _ Hct _ _ Ho) as [Hwf Hpw].
    inversion Hwf as [|? ? Hu Hwf']; subst.
    destruct Hu as ((G1 & G2 & G3 & G4) & _ & _). unfold ublk, mku in *. cbn [b_ptr b_len u_ptr u_len u_layout] in *.
    rewrite Ha in G2. unfold HDR_ALIGN in G2.
    pose proof (arep_sum_caps _ _ _ _ Hct Hamax _ _ _ _ _ R0) as Hsum.
    unfold init_chunk.
    apply wp_bind, wp_debug_assert.
    { intros _. change HDR_ALIGN with (2 ^ 3). rewrite is_aligned_to_mod by lia.
      change (2 ^ 3) with 8. rewrite G2. reflexivity. }
    apply wp_bind, wp_debug_assert; [intros E; specialize (Hdbg E); unfold HDR in *; lia|].
    apply wp_bind, wp_ptr_add; [lia|].
    apply wp_bind, wp_ptr_add; [unfold HDR in *; lia|].
    apply wp_bind.
    assert (Hcum : wp match head_ptr cs with
                      | Some p => c <- chunk_cap A p ;; s <- mload A (p + CUM) 8 ;; add_usize dbg c s
                      | None => ret 0
                      end w (fun v w' => v = sum_caps cs /\ w' = w)).
    { destruct cs as [|c cs']; cbn [head_ptr]; [split; reflexivity|].
      cbn [chain] in Hch. destruct Hch as (_ & (X1 & X2 & X3 & X4) & _).
      unfold chunk_cap. apply wp_bind, wp_bind. eapply wp_mload; [exact X2|]. apply wp_ret.
      apply wp_bind. eapply wp_mload; [exact X4|].
      cbn [sum_caps] in Hsum. unfold c_cap, c_base in Hsum.
      apply wp_add_usize; [unfold chunk_base; lia|]. split; reflexivity. }
    eapply wp_mono; [exact Hcum|]. cbv beta. intros v w0 [-> ->]. clear Hcum.
    set (u := mkU (b_ptr b) (b_len b) lay) in *.
    assert (Hin : In u (u :: map c_u cs ++ ext)) by (left; reflexivity).
    apply wp_bind. apply (wp_store_own w _ u _ _ _ _ Ho Hin);
      [cbn; unfold CURSOR; lia|cbn; unfold CURSOR, HDR in *; lia|].
    intros w1 Ho1 E1 Q1.
    apply wp_bind. apply (wp_store_own w1 _ u _ _ _ _ Ho1 Hin);
      [cbn; unfold END; lia|cbn; unfold END, HDR in *; lia|].
    intros w2 Ho2 E2 Q2.
    apply wp_bind. apply (wp_store_own w2 _ u _ _ _ _ Ho2 Hin);
      [cbn; unfold PREV; lia|cbn; unfold PREV, HDR in *; lia|].
    intros w3 Ho3 E3 Q3.
    apply wp_bind. apply (wp_store_own w3 _ u _ _ _ _ Ho3 Hin);
      [cbn; unfold CUM; lia|cbn; unfold CUM, HDR in *; lia|].
    intros w4 Ho4 E4 Q4.
    apply wp_ret. split; [reflexivity|]. split.
    { eapply quiet_trans; [exact Q1|]. eapply quiet_trans; [exact Q2|].
      eapply quiet_trans; [exact Q3|exact Q4]. }
    assert (Hout : forall x, ~ in_u x u -> al_mem A w4 x = al_mem A w x).
    { intros x Hx. unfold in_u in Hx; cbn in Hx.
      rewrite E4, store_other by (unfold CUM, HDR in *; lia).
      rewrite E3, store_other by (unfold PREV, HDR in *; lia).
      rewrite E2, store_other by (unfold END, HDR in *; lia).
      rewrite E1, store_other by (unfold CURSOR, HDR in *; lia). reflexivity. }
    assert (Hnot : forall x, in_u x u ->
      (forall v, In v ext -> ~ in_u x v) /\
      (forall c, In c cs -> ~ (c_ptr c <= x < c_end c))).
    { intros x Hx. destruct Hpw as [Hd1 _]. rewrite Forall_forall in Hd1. split.
      - intros v Hv Hxv. refine (Hd1 v _ x Hx Hxv). apply in_or_app; right; exact Hv.
      - intros c Hc Hxc. refine (Hd1 (c_u c) _ x Hx _).
        + apply in_or_app; left; apply in_map; exact Hc.
        + unfold in_u, c_end, c_ptr in *; lia. }
    assert (Hsame : same_on (us ++ ext) (al_mem A w) (al_mem A w4)).
    { intros v x Hv Hx. apply Hout. intros Hxu. destruct (Hnot x Hxu) as [N1 N2].
      apply in_app_or in Hv. destruct Hv as [Hv|Hv]; [|exact (N1 v Hv Hx)].
      unfold placed in Hpl. rewrite Forall_forall in Hpl.
      destruct (Hpl v Hv) as (c & Hc & P1 & P2). apply (N2 c Hc).
      destruct (arep_chunk_ok _ _ _ _ Hct _ _ _ _ _ c R0 Hc) as ((_ & _ & Wc) & _).
      unfold in_u in Hx. unfold c_base, HDR in *. lia. }
    split; [|exact Hsame].
    constructor.
    - reflexivity.
    - cbn. f_equal. exact Hd.
    - exact Hm.
    - cbn [chain]. split; [|split].
      + unfold cwf, c_base, c_end, c_ptr; cbn. unfold HDR in *. repeat split; auto; lia.
      + unfold hdr, c_ptr, c_end; cbn. rewrite E4, E3, E2, E1.
        unfold CURSOR, END, PREV, CUM. repeat split.
        * rewrite !load_store_other by lia. apply load_store_same; lia.
        * rewrite !load_store_other by lia. apply load_store_same; lia.
        * rewrite load_store_other by lia. apply load_store_same; lia.
        * apply load_store_same; lia.
      + apply (chain_ext (al_mem A w)); [|exact Hch].
        intros c x Hc Hx. apply Hout. intros Hxu. destruct (Hnot x Hxu) as [_ N2].
        apply (N2 c Hc).
        destruct (arep_chunk_ok _ _ _ _ Hct _ _ _ _ _ c R0 Hc) as ((_ & _ & Wc) & _).
        unfold c_base, HDR in *. lia.
    - cbn [map app]. exact Ho4.
    - unfold placed in *. eapply Forall_impl; [|exact Hpl].
      intros v (c & Hc & P). exists c. split; [right; exact Hc|exact P].
    - exact Hok.
    - exact Hdj.
  Qed.

  (** What the slow path did with the underlying allocator: nothing, a refused
      request, or one request answered by the block of the new chunk [c]. *)
  Definition slow_info (cs : list chunk) (min : Z) (l : Layout) (w : W)
    (r : option chunk) (w' : W) : Prop :=
    match r with
    | None => (slow_req cs min l = None /\ w' = w) \/
              exists lay, slow_req cs min l = Some lay /\ al_allocate A lay w = ORet None w'
    | Some c => slow_req cs min l = Some (u_layout (c_u c)) /\
              exists w1, al_allocate A (u_layout (c_u c)) w = ORet (Some (ublk (c_u c))) w1 /\
                quiet A w1 w'
    end.

  Lemma chain_same_on m m' cs ext :
    same_on (map c_u cs ++ ext) m m' ->
    (forall c, In c cs -> HDR <= u_len (c_u c)) ->
    chain m cs -> chain m' cs.
  Proof.
    intros Hs Hlen. apply chain_ext. intros c x Hc Hx. apply (Hs (c_u c)).
    - apply in_or_app; left; apply in_map; exact Hc.
    - specialize (Hlen c Hc). unfold in_u, c_base, c_ptr in *. lia.
  Qed.

  (** Bytes of client blocks lie in chunk payloads. *)
  Lemma us_in_chunks ext cs ar w us m' :
    arep ext cs ar w us -> same_on (map c_u cs ++ ext) (al_mem A w) m' ->
    same_on (us ++ ext) (al_mem A w) m'.
  Proof.
    intros R Hs. apply same_on_app. apply same_on_app in Hs. destruct Hs as [H1 H2].
    split; [|exact H2]. intros u x Hu Hx.
    pose proof (ar_placed _ _ _ _ _ _ _ _ R) as P. unfold placed in P. rewrite Forall_forall in P.
    destruct (P u Hu) as (c & Hc & P1 & P2).
    destruct (arep_chunk_ok _ _ _ _ Hct _ _ _ _ _ c R Hc) as ((_ & _ & Wc) & _).
    apply (H1 (c_u c)); [apply in_map; exact Hc|].
    unfold in_u, c_end, c_base, c_ptr, HDR in *. lia.
  Qed.

  (** The underlying allocator was called and only its own state changed. *)
  Lemma arep_upstream ext cs ar w w' us :
    arep ext cs ar w us -> own w' (map c_u cs ++ ext) ->
    same_on (map c_u cs ++ ext) (al_mem A w) (al_mem A w') ->
    arep ext cs ar w' us.
  Proof.
    intros R Ho Hs. pose proof R as [R1 R2 R3 R4 R5 R6 R7 R8]. constructor; auto.
    apply (chain_same_on (al_mem A w) _ _ ext Hs); [|exact R4].
    intros c Hc. apply (arep_chunk_ok _ _ _ _ Hct _ _ _ _ _ c R Hc).
  Qed.

  Lemma alloc_slow_gen ext cs ar w us l :
    arep ext cs ar w us -> req_ok smax l -> cfg_lax dbg amax smax (ar_min ar) smax' ->
    (forall lay b w1, slow_req cs (ar_min ar) l = Some lay -> al_allocate A lay w = ORet (Some b) w1 -> dbg = true -> HDR < b_len b) ->
    wp (alloc_slow A dbg (ar_root ar) (ar_min ar) l) w (fun r w' =>
      same_on (us ++ ext) (al_mem A w) (al_mem A w') /\
      match r with
      | None => slow_info cs (ar_min ar) l w None w' /\ arep ext cs ar w' us
      | Some (b, p) =>
          good_block amax l b /\ b_len b = l_size l /\
          exists c, slow_info cs (ar_min ar) l w (Some c) w' /\ c_ptr c = p /\ c_cur c = b_ptr b + l_size l /\
            b_ptr b = round_up (c_base c) (l_align l) /\
            arep ext (c :: cs) (mkArena (Some p) (ar_min ar) (S (ar_depth ar))) w'
                 (mku b l :: us)
      end).
  Proof.
    intros R Hl Hcfg Hlen. unfold alloc_slow.
    pose proof R as [R1 R2 R3 R4 R5 R6 R7 R8].
    assert (Hsmax : smax <= USIZE_MAX) by apply Hcfg.
    pose proof (arep_sum_caps _ _ _ _ Hct Hamax _ _ _ _ _ R) as Hsum.
    assert (Hsum' : 0 <= sum_caps (tl cs) <= amax).
    { destruct cs as [|c cs']; cbn [tl]; [cbn; lia|]. cbn [sum_caps] in Hsum.
      destruct (arep_chunk_ok _ _ _ _ Hct _ _ _ _ _ c R (or_introl eq_refl)) as (_ & _ & _ & _ & L & _).
      assert (0 <= sum_caps cs').
      { apply sum_caps_len. rewrite Forall_forall. intros c' Hc'.
        apply (arep_chunk_ok _ _ _ _ Hct _ _ _ _ _ c' R (or_intror Hc')). }
      unfold c_cap, c_base, c_end, HDR in *. lia. }
    apply wp_bind.
    assert (Hcum : wp match ar_root ar with
                      | Some r => c <- mload A (r + CUM) 8 ;; ret (Some c)
                      | None => ret None
                      end w (fun v w' => v = cum_of cs /\ w' = w)).
    { rewrite R1. destruct cs as [|c cs']; cbn [head_ptr]; [split; reflexivity|].
      cbn [chain] in R4. destruct R4 as (_ & (_ & _ & _ & X4) & _).
      apply wp_bind. eapply wp_mload; [exact X4|]. split; reflexivity. }
    eapply wp_mono; [exact Hcum|]. cbv beta. intros v w0 [-> ->]. clear Hcum.
    unfold slow_info.
    unfold slow_req in Hlen.
    pose proof (slow_req_spec cs (ar_min ar) l smax smax') as Hreq.
    pose proof (slow_assert cs (ar_min ar) l smax smax' dbg amax) as Has.
    unfold slow_req in *.
    destruct (next_chunk_size (cum_of cs) (ar_min ar) l) as [s|] eqn:Es.
    2: { apply wp_ret. split; [apply same_on_refl|]. split; [|exact R].
         left. split; reflexivity. }
    destruct (Has s) as [Hs0 Hs8]; auto; [lia|].
    apply wp_bind, wp_debug_assert; [exact Hs8|].
    unfold alloc_chunk. apply wp_bind.
    destruct (align_up s HDR_ALIGN) as [s'|] eqn:Eu.
    2: { apply wp_ret. apply wp_ret. split; [apply same_on_refl|]. split; [|exact R].
         left. split; reflexivity. }
    set (lay := mkLayout s' HDR_ALIGN) in *.
    destruct (Hreq lay dbg amax) as (Q1 & Q2 & Q3 & Q4 & Q5); auto; try lia.
    assert (Q5' : HDR <= l_size lay).
    { assert (Hc : match cum_of cs with Some c => 0 <= c | None => True end) by (destruct cs; cbn in *; lia).
      pose proof (chunk_raw_min (cum_of cs) (ar_min ar) l smax (proj1 R3) Hc Hl). lia. }
    apply wp_bind.
    pose proof (ct_allocate _ _ _ _ Hct w _ lay R5 Q1) as Hal.
    apply wp_inv in Hal. destruct Hal as (slice & w1 & Eal & Hs1 & Hres).
    eapply wp_intro; [exact Eal|]. cbv beta.
    destruct slice as [b0|].
    2: { apply wp_ret. apply wp_ret.
         split; [apply (us_in_chunks _ _ _ _ _ _ R Hs1)|]. split.
         - right. exists lay. split; [reflexivity|exact Eal].
         - apply (arep_upstream _ _ _ w); assumption. }
    destruct Hres as [Hg0 Ho1].
    assert (Hch1 : chain (al_mem A w1) cs).
    { apply (chain_same_on (al_mem A w) _ _ ext Hs1); [|exact R4].
      intros c Hc. apply (arep_chunk_ok _ _ _ _ Hct _ _ _ _ _ c R Hc). }
    pose proof (init_chunk_ok ext cs ar w1 us b0 lay Hch1 Ho1 R6 R7 R8 R1 R2 R3 Q2 Q5' (Hlen lay b0 w1 eq_refl Eal)) as Hinit.
    rewrite <- R1 in Hinit.
    apply wp_bind. apply wp_inv in Hinit. destruct Hinit as (p & w2 & Ei & -> & Hq2 & Hr2 & Hs2).
    eapply wp_intro; [exact Ei|]. apply wp_ret.
    set (c := mkChunk (mku b0 lay) (b_ptr b0 + HDR)) in *.
    pose proof (chunk_alloc_ok _ _ _ _ _ _ l Hr2 Hl Hsmax) as Hca. cbv zeta in Hca.
    destruct Hg0 as (G1 & G2 & G3 & G4). rewrite Q2 in G2. unfold HDR_ALIGN in G2.
    assert (Hroom : room (c_cur c) (c_end c) l = true).
    { unfold c, c_end, c_ptr; cbn. apply (fresh_room _ _ _ smax s'); auto; try lia. }
    rewrite Hroom in Hca.
    destruct Hca as (Ec & Hg & Hr3 & Hs3).
    apply wp_bind. eapply wp_intro; [exact Ec|]. apply wp_ret.
    set (r := round_up (c_cur c) (l_align l)) in *.
    set (w3 := al_set_mem A w2 (store (al_mem A w2) (c_ptr c + CURSOR) 8 (r + l_size l))) in *.
    split.
    - eapply same_on_trans; [apply (us_in_chunks _ _ _ _ _ _ R Hs1)|].
      eapply same_on_trans; [exact Hs2|exact Hs3].
    - split; [exact Hg|]. split; [reflexivity|].
      exists (set_cur c (r + l_size l)). split.
      { split; [reflexivity|]. exists w1. split.
        - cbn. destruct b0; exact Eal.
        - eapply quiet_trans; [exact Hq2|]. apply quiet_set. }
      split; [reflexivity|]. split; [reflexivity|].
      split; [reflexivity|]. exact Hr3.
  Qed.
  Lemma alloc_slow_ok ext cs ar w us l :
    arep ext cs ar w us -> req_ok smax l -> cfg_for dbg amax smax (ar_min ar) smax' (ar_root ar) l ->
    wp (alloc_slow A dbg (ar_root ar) (ar_min ar) l) w (fun r w' =>
      same_on (us ++ ext) (al_mem A w) (al_mem A w') /\
      match r with
      | None => slow_info cs (ar_min ar) l w None w' /\ arep ext cs ar w' us
      | Some (b, p) =>
          good_block amax l b /\ b_len b = l_size l /\
          exists c, slow_info cs (ar_min ar) l w (Some c) w' /\ c_ptr c = p /\ c_cur c = b_ptr b + l_size l /\
            b_ptr b = round_up (c_base c) (l_align l) /\
            arep ext (c :: cs) (mkArena (Some p) (ar_min ar) (S (ar_depth ar))) w'
                 (mku b l :: us)
      end).
  Proof.
    intros R Hl Hcfg.
    assert (Hlax : cfg_lax dbg amax smax (ar_min ar) smax') by (destruct Hcfg as (? & ? & [?|[_ ?]]); repeat split; auto).
    apply alloc_slow_gen; auto. intros lay b w1 Er Eal Ed.
    pose proof R as [R1 R2 R3 R4 R5 R6 R7 R8]. rewrite R1 in Hcfg.
    pose proof (arep_sum_caps _ _ _ _ Hct Hamax _ _ _ _ _ R) as Hsum.
    assert (Hsum' : 0 <= sum_caps (tl cs) <= amax).
    { destruct cs as [|c cs']; cbn [tl]; [cbn; lia|]. cbn [sum_caps] in Hsum.
      destruct (arep_chunk_ok _ _ _ _ Hct _ _ _ _ _ c R (or_introl eq_refl)) as (_ & _ & _ & _ & L & _).
      assert (0 <= sum_caps cs').
      { apply sum_caps_len. rewrite Forall_forall. intros c' Hc'.
        apply (arep_chunk_ok _ _ _ _ Hct _ _ _ _ _ c' R (or_intror Hc')). }
      unfold c_cap, c_base, c_end, HDR in *. lia. }
    destruct (slow_req_spec cs (ar_min ar) l smax smax' lay dbg amax) as (Q1 & _ & _ & _ & Q5); auto; try lia.
    pose proof (ct_allocate _ _ _ _ Hct w _ lay R5 Q1) as Hal. unfold wp in Hal. rewrite Eal in Hal.
    destruct Hal as (_ & (_ & _ & G & _) & _).
    assert (HDR < chunk_raw (cum_of cs) (ar_min ar) l); [|lia].
    apply (chunk_raw_more cs (ar_min ar) l smax); auto; try lia.
    destruct Hcfg as (_ & _ & [[E _]|[H _]]); [congruence|]. apply H. exact Ed.
  Qed.

  (** ** Resizing *)

  Lemma chunk_resize_eq p ptr old new cur e w :
    req_ok smax new -> smax <= USIZE_MAX -> 0 <= cur -> e <= USIZE_MAX ->
    0 <= l_size old -> ptr + l_size old <= USIZE_MAX ->
    ptr + l_size old <= cur \/ e <= ptr ->
    load (al_mem A w) (p + CURSOR) 8 = Some cur ->
    load (al_mem A w) (p + END) 8 = Some e ->
    chunk_resize A dbg p ptr old new w =
    (if (l_align new <=? l_align old) && (l_size new <=? l_size old)
     then ORet (Some (mkBlock ptr (l_size old))) w
     else if (l_align new <=? l_align old) && (cur =? ptr + l_size old)
     then if ptr + l_size new <=? e
          then ORet (Some (mkBlock ptr (l_size new)))
                    (al_set_mem A w (store (al_mem A w) (p + CURSOR) 8 (ptr + l_size new)))
          else ORet None w
     else let r := round_up cur (l_align new) in
          if room cur e new
          then let w1 := al_set_mem A w (store (al_mem A w) (p + CURSOR) 8 (r + l_size new)) in
               ORet (Some (mkBlock r (l_size new)))
                    (al_set_mem A w1 (copy (al_mem A w1) ptr r (Z.min (l_size new) (l_size old))))
          else ORet None w).
  Proof.
    intros Hl Hs Hc He Ho Hpo Hov L1 L2.
    destruct (req_ok_facts _ _ Hl) as (k & Hk & Ea & Hpos & Hsz & Hsum).
    assert (Hre : chunk_realloc A dbg p ptr old new w =
      (let r := round_up cur (l_align new) in
       if room cur e new
       then let w1 := al_set_mem A w (store (al_mem A w) (p + CURSOR) 8 (r + l_size new)) in
            ORet (Some (mkBlock r (l_size new)))
                 (al_set_mem A w1 (copy (al_mem A w1) ptr r (Z.min (l_size new) (l_size old))))
       else ORet None w)).
    { unfold chunk_realloc. unfold bind at 1.
      rewrite (chunk_alloc_eq A dbg p new cur e smax w Hl Hs Hc He L1 L2). cbv zeta.
      destruct (room cur e new) eqn:Rm; [|reflexivity].
      destruct (round_up_spec cur (l_align new) Hpos) as [B _].
      unfold room in Rm. cbn [b_ptr]. set (r := round_up cur (l_align new)) in *.
      unfold bind, mcopy.
      replace ((Z.min (l_size new) (l_size old) =? 0)
               || (ptr + Z.min (l_size new) (l_size old) <=? r)
               || (r + Z.min (l_size new) (l_size old) <=? ptr)) with true by lia.
      reflexivity. }
    unfold chunk_resize.
    destruct (Z.leb_spec (l_align new) (l_align old)) as [La|Ga]; cbn [andb]; [|exact Hre].
    destruct (Z.leb_spec (l_size new) (l_size old)) as [Ls|Gs]; [reflexivity|].
    unfold ptr_add at 1. replace (ptr + l_size old <=? USIZE_MAX) with true by lia.
    rewrite bind_ret. rewrite (bind_eq _ _ _ _ _ (mload_eq A _ _ _ _ L1)).
    destruct (Z.eqb_spec cur (ptr + l_size old)) as [Ec|Nc]; [|exact Hre].
    unfold checked_add.
    destruct (Z.leb_spec (ptr + l_size new) USIZE_MAX) as [Lu|Gu].
    2: { replace (ptr + l_size new <=? e) with false by lia. reflexivity. }
    rewrite (bind_eq _ _ _ _ _ (mload_eq A _ _ _ _ L2)).
    destruct (Z.leb_spec (ptr + l_size new) e) as [Le|Ge].
    2: { replace (e <? ptr + l_size new) with true by lia. reflexivity. }
    replace (e <? ptr + l_size new) with false by lia.
    unfold ptr_add. replace (ptr + l_size new <=? USIZE_MAX) with true by lia.
    rewrite bind_ret. unfold cell_cas.
    unfold bind at 1. unfold bind at 1. rewrite (mload_eq A _ _ _ _ L1).
    rewrite Z.eqb_refl. unfold bind at 1. unfold mstore at 1. unfold ret at 1.
    unfold sub_usize. replace (ptr <=? ptr + l_size new) with true by lia. rewrite bind_ret.
    replace (ptr + l_size new - ptr) with (l_size new) by lia.
    unfold debug_assert. replace (l_size new <=? l_size new) with true by lia.
    rewrite andb_false_r. reflexivity.
  Qed.

  Lemma mod_pow2_le p j k : 0 <= k -> 2 ^ k <= 2 ^ j -> 0 <= j -> p mod 2 ^ j = 0 -> p mod 2 ^ k = 0.
  Proof.
    intros Hk Hle Hj H.
    assert (0 < 2 ^ k) by (apply Z.pow_pos_nonneg; lia).
    assert (0 < 2 ^ j) by (apply Z.pow_pos_nonneg; lia).
    assert (k <= j) by (apply pow2_le_exp; lia).
    apply Z.mod_divide in H; [|lia]. apply Z.mod_divide; [lia|].
    destruct H as [q ->]. replace j with ((j - k) + k) by lia. rewrite Z.pow_add_r by lia.
    exists (q * 2 ^ (j - k)). ring.
  Qed.

  (** The new alignment is met where the old one is, if it is not larger. *)
  Lemma align_le_ok u old new :
    u_ok amax u -> fits old u -> req_ok smax new -> l_align new <= l_align old ->
    u_ptr u mod l_align new = 0.
  Proof.
    intros (Hg & Hp & _) [F1 _] Hn Hle.
    destruct (req_ok_facts _ _ Hn) as (k & Hk & Ea & _).
    apply is_pow2_spec in Hp. destruct Hp as (j & Hj & Ej).
    destruct Hg as (_ & G2 & _). cbn in G2. rewrite F1 in Hle. rewrite Ej in *. rewrite Ea in *.
    apply (mod_pow2_le _ j); auto.
  Qed.

  Lemma arep_replace ext cs ar w u us u' :
    arep ext cs ar w (u :: us) -> u_ptr u' = u_ptr u -> 0 <= u_len u' <= u_len u ->
    u_ok amax u' -> arep ext cs ar w (u' :: us).
  Proof.
    intros R Ep El Hok. destruct R as [R1 R2 R3 R4 R5 R6 R7 R8]. constructor; auto.
    - inversion R6 as [|? ? (c & Hc & P1 & P2) R6']; subst. constructor; [|exact R6'].
      exists c. split; [exact Hc|]. unfold in_chunk. lia.
    - inversion R7; subst. constructor; assumption.
    - destruct R8 as [D1 D2]. split; [|exact D2]. rewrite Forall_forall in *.
      intros v Hv x Hx Hy. apply (D1 v Hv x); [|exact Hy]. unfold in_u in *. lia.
  Qed.

  (** Where a block is relative to the free space of the root chunk. *)
  Lemma arep_where ext c cs ar w us u :
    arep ext (c :: cs) ar w us -> In u us -> 0 <= u_len u ->
    (c_base c <= u_ptr u /\ u_ptr u + u_len u <= c_cur c) \/
    (c_end c + HDR <= u_ptr u) \/
    (u_ptr u + u_len u <= c_ptr c).
  Proof.
    intros R Hu Hlen. pose proof (ar_placed _ _ _ _ _ _ _ _ R) as P.
    unfold placed in P. rewrite Forall_forall in P.
    destruct (P u Hu) as (c' & [<-|Hc'] & P1 & P2); [left; lia|].
    destruct (arep_chunk_ok _ _ _ _ Hct _ _ _ _ _ c' R (or_intror Hc')) as ((_ & _ & W2) & _).
    pose proof (arep_head_disj _ _ _ _ Hct _ _ _ _ _ _ c' R Hc') as S.
    unfold c_base, HDR in *. lia.
  Qed.

  Lemma chunk_resize_ok ext c cs ar w u us old new :
    arep ext (c :: cs) ar w (u :: us) -> fits old u -> req_ok smax new -> smax <= USIZE_MAX ->
    wp (chunk_resize A dbg (c_ptr c) (u_ptr u) old new) w (fun r w' =>
      quiet A w w' /\ same_on (us ++ ext) (al_mem A w) (al_mem A w') /\
      match r with
      | None => w' = w /\ room (c_cur c) (c_end c) new = false
      | Some b =>
          good_block amax new b /\
          (exists n, c_cur c <= n <= c_cur c + (l_size new + (l_align new - 1)) /\
             arep ext (set_cur c n :: cs) ar w' (mku b new :: us)) /\
          forall i, 0 <= i < Z.min (l_size new) (l_size old) ->
            al_mem A w' (b_ptr b + i) = al_mem A w (u_ptr u + i)
      end).
  Proof.
    intros R Hf Hn Hs.
    destruct (req_ok_facts _ _ Hn) as (k & Hk & Ea & Hpos & Hsz & Hsum).
    destruct (arep_chunk_ok _ _ _ _ Hct _ _ _ _ _ c R (or_introl eq_refl))
      as ((_ & _ & W1) & _ & P1 & P8 & L1 & E1).
    pose proof (ar_chain _ _ _ _ _ _ _ _ R) as Hch. cbn [chain] in Hch.
    destruct Hch as (_ & (H1 & H2 & _) & _).
    pose proof (ar_ok _ _ _ _ _ _ _ _ R) as Hok. inversion Hok as [|? ? Hu Hok']; subst.
    pose proof Hu as ((G1 & G2 & G3 & G4) & Hup & Hus). cbn in G1, G2, G3, G4.
    pose proof Hf as [F1 F2].
    destruct (arep_where _ _ _ _ _ _ u R (or_introl eq_refl) ltac:(lia)) as [Hin|Hout].
    all: assert (Hov : u_ptr u + l_size old <= c_cur c \/ c_end c <= u_ptr u)
           by (unfold c_base, HDR in *; lia).
    all: unfold wp;
         rewrite (chunk_resize_eq (c_ptr c) (u_ptr u) old new (c_cur c) (c_end c) w Hn Hs)
           by (auto; unfold c_base, HDR in *; lia).
    all: destruct ((l_align new <=? l_align old) && (l_size new <=? l_size old)) eqn:C1.
    (* shrink in place *)
    1, 3: split; [apply quiet_refl|]; split; [apply same_on_refl|];
          apply andb_true_iff in C1; destruct C1 as [C1 C2];
          assert (Hg : good_block amax new (mkBlock (u_ptr u) (l_size old)))
            by (unfold good_block; cbn; repeat split; try lia;
                apply (align_le_ok u old new); auto; lia);
          split; [exact Hg|]; split;
          [ exists (c_cur c); split; [lia|]; destruct c as [cu cc]; unfold set_cur; cbn;
            apply (arep_replace _ _ _ _ u); [exact R|reflexivity|cbn; lia|];
            apply (mkU_ok amax smax new (mkBlock (u_ptr u) (l_size old))); assumption
          | intros i Hi; reflexivity ].
    all: destruct ((l_align new <=? l_align old) && (c_cur c =? u_ptr u + l_size old)) eqn:C2.
    (* the block ends at the cursor, but lies in another chunk: impossible *)
    3: exfalso; unfold c_base, HDR in *; lia.
    (* grow in place *)
    - destruct (Z.leb_spec (u_ptr u + l_size new) (c_end c)) as [Le|Ge].
      2: { split; [apply quiet_refl|]. split; [apply same_on_refl|]. split; [reflexivity|].
           destruct (round_up_spec (c_cur c) (l_align new) Hpos) as [B _]. unfold room. lia. }
      assert (Hcur : c_cur c = u_ptr u + l_size old) by lia.
      assert (Hbig : l_size old < l_size new) by lia.
      assert (Hnn : c_cur c <= u_ptr u + l_size new <= c_end c) by lia.
      destruct (arep_bump _ _ _ _ Hct _ _ _ _ _ _ _ R Hnn) as [R2 Hsame].
      assert (Hg : good_block amax new (mkBlock (u_ptr u) (l_size new))).
      { unfold good_block; cbn. repeat split; try lia.
        apply (align_le_ok u old new); auto; lia. }
      split; [apply quiet_set|]. rewrite (ct_mem _ _ _ _ Hct). split.
      { eapply same_on_incl; [|exact Hsame]. intros v Hv. right. exact Hv. }
      split; [exact Hg|]. split.
      + exists (u_ptr u + l_size new). split; [lia|]. apply arep_add.
        * apply (arep_drop _ _ _ _ _ _ _ u). exact R2.
        * apply (mkU_ok amax smax new (mkBlock (u_ptr u) (l_size new))); assumption.
        * cbn. lia.
        * cbn. lia.
        * rewrite Forall_forall. intros v Hv x Hx Hy. unfold mku, in_u in Hx; cbn in Hx.
          destruct (Z_lt_dec x (u_ptr u + u_len u)) as [Lx|Gx].
          -- pose proof (ar_disj _ _ _ _ _ _ _ _ R) as [Hd _]. rewrite Forall_forall in Hd.
             apply (Hd v Hv x); [|exact Hy]. unfold in_u. lia.
          -- destruct (arep_us_not _ _ _ _ Hct _ _ _ _ _ c v x R (or_introl eq_refl)
                         (or_intror Hv) Hy) as [_ N]. lia.
      + intros i Hi. cbn [b_ptr].
        apply (Hsame u); [left; reflexivity|]. unfold in_u. lia.
    (* reallocate in the chunk *)
    - cbv zeta.
      pose proof (chunk_alloc_ok _ _ _ _ _ _ new R Hn Hs) as Hca. cbv zeta in Hca.
      destruct (room (c_cur c) (c_end c) new) eqn:Rm.
      2: { split; [apply quiet_refl|]. split; [apply same_on_refl|split; reflexivity]. }
      destruct Hca as (_ & Hg & R2 & Hsame).
      destruct (round_up_spec (c_cur c) (l_align new) Hpos) as [B _].
      unfold room in Rm.
      set (r := round_up (c_cur c) (l_align new)) in *.
      set (w1 := al_set_mem A w (store (al_mem A w) (c_ptr c + CURSOR) 8 (r + l_size new))) in *.
      set (m2 := copy (al_mem A w1) (u_ptr u) r (Z.min (l_size new) (l_size old))).
      assert (R2' : arep ext (set_cur c (r + l_size new) :: cs) ar w1
                         (u :: mkU r (l_size new) new :: us))
        by (eapply arep_perm; [apply perm_swap|exact R2]).
      assert (Hm2 : forall x, (forall v, In v (mkU r (l_size new) new :: us) -> ~ in_u x v) ->
                    m2 x = al_mem A w1 x).
      { intros x Hx. apply copy_other.
        specialize (Hx _ (or_introl eq_refl)). unfold in_u in Hx; cbn in Hx. lia. }
      apply arep_drop in R2'.
      destruct (arep_write_us _ _ _ _ Hct _ _ _ _ _ m2 R2' Hm2) as [R3 Hsame2].
      split; [eapply quiet_trans; apply quiet_set|]. rewrite (ct_mem _ _ _ _ Hct).
      split; [|split; [exact Hg|split]].
      + eapply same_on_trans.
        * eapply same_on_incl; [|exact Hsame]. intros v Hv; right; exact Hv.
        * apply same_on_app. split; [|exact Hsame2].
          intros v x Hv Hx. apply copy_other.
          destruct (arep_us_not _ _ _ _ Hct _ _ _ _ _ c v x R (or_introl eq_refl)
                         (or_intror Hv) Hx) as [_ N]. lia.
      + exists (r + l_size new). split; [lia|exact R3].
      + intros i Hi. cbn [b_ptr]. unfold m2. rewrite copy_in by lia.
        replace (u_ptr u + (r + i - r)) with (u_ptr u + i) by lia.
        apply (Hsame u); [left; reflexivity|]. unfold in_u. lia.
    - cbv zeta.
      pose proof (chunk_alloc_ok _ _ _ _ _ _ new R Hn Hs) as Hca. cbv zeta in Hca.
      destruct (room (c_cur c) (c_end c) new) eqn:Rm.
      2: { split; [apply quiet_refl|]. split; [apply same_on_refl|split; reflexivity]. }
      destruct Hca as (_ & Hg & R2 & Hsame).
      destruct (round_up_spec (c_cur c) (l_align new) Hpos) as [B _].
      unfold room in Rm.
      set (r := round_up (c_cur c) (l_align new)) in *.
      set (w1 := al_set_mem A w (store (al_mem A w) (c_ptr c + CURSOR) 8 (r + l_size new))) in *.
      set (m2 := copy (al_mem A w1) (u_ptr u) r (Z.min (l_size new) (l_size old))).
      assert (R2' : arep ext (set_cur c (r + l_size new) :: cs) ar w1
                         (u :: mkU r (l_size new) new :: us))
        by (eapply arep_perm; [apply perm_swap|exact R2]).
      assert (Hm2 : forall x, (forall v, In v (mkU r (l_size new) new :: us) -> ~ in_u x v) ->
                    m2 x = al_mem A w1 x).
      { intros x Hx. apply copy_other.
        specialize (Hx _ (or_introl eq_refl)). unfold in_u in Hx; cbn in Hx. lia. }
      apply arep_drop in R2'.
      destruct (arep_write_us _ _ _ _ Hct _ _ _ _ _ m2 R2' Hm2) as [R3 Hsame2].
      split; [eapply quiet_trans; apply quiet_set|]. rewrite (ct_mem _ _ _ _ Hct).
      split; [|split; [exact Hg|split]].
      + eapply same_on_trans.
        * eapply same_on_incl; [|exact Hsame]. intros v Hv; right; exact Hv.
        * apply same_on_app. split; [|exact Hsame2].
          intros v x Hv Hx. apply copy_other.
          destruct (arep_us_not _ _ _ _ Hct _ _ _ _ _ c v x R (or_introl eq_refl)
                         (or_intror Hv) Hx) as [_ N]. lia.
      + exists (r + l_size new). split; [lia|exact R3].
      + intros i Hi. cbn [b_ptr]. unfold m2. rewrite copy_in by lia.
        replace (u_ptr u + (r + i - r)) with (u_ptr u + i) by lia.
        apply (Hsame u); [left; reflexivity|]. unfold in_u. lia.
  Qed.

  Lemma resize_slow_ok ext cs ar w u us old new :
    arep ext cs ar w (u :: us) -> fits old u -> req_ok smax new ->
    cfg_for dbg amax smax (ar_min ar) smax' (ar_root ar) new ->
    wp (resize_slow A dbg (ar_root ar) (ar_min ar) (u_ptr u) old new) w (fun r w' =>
      same_on (us ++ ext) (al_mem A w) (al_mem A w') /\
      match r with
      | None => slow_info cs (ar_min ar) new w None w' /\
                same_on [u] (al_mem A w) (al_mem A w') /\ arep ext cs ar w' (u :: us)
      | Some (b, p) =>
          good_block amax new b /\ b_len b = l_size new /\
          (exists c, slow_info cs (ar_min ar) new w (Some c) w' /\ c_ptr c = p /\
            (c_cur c = b_ptr b + l_size new /\ b_ptr b = round_up (c_base c) (l_align new)) /\
            arep ext (c :: cs) (mkArena (Some p) (ar_min ar) (S (ar_depth ar))) w'
                 (mku b new :: us)) /\
          forall i, 0 <= i < Z.min (l_size new) (l_size old) ->
            al_mem A w' (b_ptr b + i) = al_mem A w (u_ptr u + i)
      end).
  Proof.
    intros R Hf Hn Hcfg. unfold resize_slow. apply wp_bind.
    eapply wp_mono; [apply (alloc_slow_ok ext cs ar w (u :: us) new R Hn Hcfg)|].
    intros r w1 (Hs & Hr). cbn [app] in Hs. apply same_on_cons in Hs. destruct Hs as [Hsu Hs].
    destruct r as [[b p]|].
    2: { apply wp_ret. destruct Hr as [Hi Hr]. split; [exact Hs|]. split; [exact Hi|]. split; assumption. }
    destruct Hr as (Hg & Hbl & c & Hi & Ep & Ec & Eb & R1).
    pose proof (ar_disj _ _ _ _ _ _ _ _ R1) as Hd. cbn [pairwise] in Hd.
    destruct Hd as (Hd1 & Hd2 & _). inversion Hd1 as [|? ? Hd1u Hd1']; subst.
    pose proof (ar_ok _ _ _ _ _ _ _ _ R) as Hok. inversion Hok as [|? ? Hu Hok']; subst.
    pose proof Hu as (_ & _ & Hus). pose proof Hf as [F1 F2].
    destruct (req_ok_facts _ _ Hn) as (k & Hk & Ea & Hpos & Hsz & Hsum).
    set (n := Z.min (l_size new) (l_size old)) in *.
    apply wp_bind, wp_mcopy.
    { destruct (Z_le_gt_dec n 0) as [|Gn]; [left; assumption|right].
      assert (D : disjoint_u (mkU (u_ptr u) n old) (mkU (b_ptr b) n new)).
      { intros x Hx Hy. apply (Hd1u x); unfold in_u, mku in *; cbn in *; unfold n in *; lia. }
      pose proof (disjoint_ranges _ _ D) as D2. cbn [u_ptr u_len] in D2. lia. }
    { unfold n. lia. }
    apply wp_ret.
    set (m2 := copy (al_mem A w1) (u_ptr u) (b_ptr b) n).
    assert (R1' : arep ext (c :: cs) (mkArena (Some (c_ptr c)) (ar_min ar) (S (ar_depth ar))) w1
                       (mku b new :: us)).
    { eapply arep_drop. eapply arep_perm; [apply perm_swap|exact R1]. }
    assert (Hm2 : forall x, (forall v, In v (mku b new :: us) -> ~ in_u x v) ->
                    m2 x = al_mem A w1 x).
    { intros x Hx. apply copy_other.
      specialize (Hx _ (or_introl eq_refl)). unfold in_u, mku in Hx; cbn in Hx. unfold n. lia. }
    destruct (arep_write_us _ _ _ _ Hct _ _ _ _ _ m2 R1' Hm2) as [R3 Hsame2].
    rewrite (ct_mem _ _ _ _ Hct). split; [|split; [|split; [|split]]].
    - eapply same_on_trans; [exact Hs|]. apply same_on_app. split; [|exact Hsame2].
      intros v x Hv Hx. apply copy_other.
      rewrite Forall_forall in Hd1'. pose proof (Hd1' v Hv x) as D.
      unfold in_u, mku in *; cbn in D. unfold n. lia.
    - exact Hg.
    - exact Hbl.
    - exists c. split.
      { destruct Hi as (E1 & w0 & E2 & Q1). split; [exact E1|]. exists w0. split; [exact E2|].
        eapply quiet_trans; [exact Q1|apply quiet_set]. }
      split; [reflexivity|]. split; [exact (conj Ec Eb)|]. exact R3.
    - intros i Hi'. unfold m2. rewrite copy_in by lia.
      replace (u_ptr u + (b_ptr b + i - b_ptr b)) with (u_ptr u + i) by lia.
      apply (Hsu u); [left; reflexivity|]. unfold in_u. unfold n in *. lia.
  Qed.

  (** ** Deallocating: never changes anything *)

  Lemma chunk_dealloc_ok ext c cs ar w u us size :
    arep ext (c :: cs) ar w (u :: us) -> 0 <= size <= u_len u ->
    wp (chunk_dealloc A (c_ptr c) (u_ptr u) size) w (fun _ w' =>
      quiet A w w' /\ same_on ((u :: us) ++ ext) (al_mem A w) (al_mem A w') /\
      arep ext (c :: cs) ar w' (u :: us)).
  Proof.
    intros R Hsz.
    pose proof (ar_ok _ _ _ _ _ _ _ _ R) as Hok. inversion Hok as [|? ? Hu Hok']; subst.
    pose proof Hu as ((G1 & G2 & G3 & G4) & Hup & Hus). cbn in G1, G2, G3, G4.
    pose proof (ar_chain _ _ _ _ _ _ _ _ R) as Hch. cbn [chain] in Hch.
    destruct Hch as ((_ & _ & W1) & (H1 & _ & _) & _).
    unfold chunk_dealloc. apply wp_bind, wp_ptr_add; [lia|].
    apply wp_bind. unfold cell_cas. apply wp_bind. eapply wp_mload; [exact H1|].
    destruct (Z.eqb_spec (u_ptr u) (c_cur c)) as [E|N].
    - (* only possible for an empty block: the cursor does not move *)
      assert (Ez : u_ptr u + size = c_cur c).
      { destruct (arep_where _ _ _ _ _ _ u R (or_introl eq_refl) ltac:(lia)) as [Hin|Hout].
        - lia.
        - unfold c_base, HDR in *. lia. }
      rewrite Ez.
      destruct (arep_bump _ _ _ _ Hct _ _ _ _ _ _ (c_cur c) R) as [R2 Hsame]; [lia|].
      apply wp_bind, wp_mstore. apply wp_ret. apply wp_ret.
      split; [apply quiet_set|]. rewrite (ct_mem _ _ _ _ Hct).
      split; [exact Hsame|]. destruct c as [cu cc]. exact R2.
    - apply wp_ret. apply wp_ret. split; [apply quiet_refl|]. split; [apply same_on_refl|exact R].
  Qed.

  (** ** Reset *)

  Lemma opt_ptr_head cs : (forall c, In c cs -> 0 < c_ptr c) -> opt_ptr (ptr_opt (head_ptr cs)) = head_ptr cs.
  Proof.
    destruct cs as [|c cs]; [reflexivity|]. intros H. cbn. unfold opt_ptr.
    specialize (H c (or_introl eq_refl)). replace (c_ptr c =? 0) with false by lia. reflexivity.
  Qed.

  Lemma free_chain_ok cs : forall n w rest,
    chain (al_mem A w) cs -> own w (map c_u cs ++ rest) -> (length cs <= n)%nat ->
    wp (free_chain A n (head_ptr cs)) w (fun _ w' =>
      own w' rest /\ same_on rest (al_mem A w) (al_mem A w')).
  Proof.
    induction cs as [|c cs IH]; intros n w rest Hch Ho Hn.
    - destruct n; cbn; (split; [exact Ho|apply same_on_refl]).
    - destruct n as [|n]; [cbn in Hn; lia|]. cbn [head_ptr free_chain].
      cbn [chain] in Hch. destruct Hch as (Hw & (X1 & X2 & X3 & X4) & Hch).
      destruct (ct_wf _ _ _ _ Hct _ _ Ho) as [Hwf Hpw].
      rewrite Forall_forall in Hwf.
      assert (Hpos : forall c', In c' (c :: cs) -> 0 < c_ptr c').
      { intros c' Hc'. assert (Hu : u_ok amax (c_u c')).
        { apply Hwf. apply in_or_app; left. apply in_map. exact Hc'. }
        apply Hu. }
      assert (Hlen : forall c', In c' cs -> HDR <= u_len (c_u c')).
      { intros c' Hc'. assert (Hu : u_ok amax (c_u c')).
        { apply Hwf. apply in_or_app; left. apply in_map. right; exact Hc'. }
        destruct (chain_cwf _ _ _ Hch Hc') as (_ & Z2 & _).
        destruct Hu as ((_ & _ & Z3 & _) & _). cbn in Z3. lia. }
      apply wp_bind. unfold dealloc_chunk.
      apply wp_bind. eapply wp_mload; [exact X3|].
      apply wp_bind. eapply wp_mload; [exact X2|].
      apply wp_bind.
      cbn [map app] in Ho.
      assert (Hf : fits (mkLayout (c_end c - c_ptr c) HDR_ALIGN) (c_u c)).
      { destruct Hw as (Z1 & Z2 & Z3). split; cbn; [symmetry; exact Z1|].
        assert (Hu : u_ok amax (c_u c)) by (apply Hwf; left; reflexivity).
        destruct Hu as ((_ & _ & Z4 & _) & _). cbn in Z4. unfold c_end. unfold c_ptr. lia. }
      eapply wp_mono; [apply (ct_deallocate _ _ _ _ Hct w _ (c_u c) _ Ho Hf)|].
      intros _ w1 [Hs1 Ho1]. apply wp_ret.
      rewrite opt_ptr_head by (intros c' Hc'; apply Hpos; right; exact Hc').
      eapply wp_mono; [apply (IH n w1 rest)|].
      + apply (chain_same_on (al_mem A w) _ _ rest Hs1 Hlen). exact Hch.
      + exact Ho1.
      + cbn in Hn. lia.
      + intros _ w2 [Ho2 Hs2]. split; [exact Ho2|].
        eapply same_on_trans; [|exact Hs2].
        apply same_on_app in Hs1. apply Hs1.
  Qed.

  Lemma chunk_reset_ok ext c cs ar w us :
    arep ext (c :: cs) ar w us ->
    wp (chunk_reset A (c_ptr c)) w (fun prev w' =>
      prev = head_ptr cs /\ quiet A w w' /\
      chain (al_mem A w') cs /\
      arep (map c_u cs ++ ext) [set_cur c (c_base c)]
           (mkArena (Some (c_ptr c)) (ar_min ar) 1) w' [] /\
      same_on (map c_u cs ++ ext) (al_mem A w) (al_mem A w')).
  Proof.
    intros R. pose proof R as [R1 R2 R3 R4 R5 R6 R7 R8]. cbn [chain] in R4.
    destruct R4 as (Hw & (X1 & X2 & X3 & X4) & Hch).
    assert (Hpos : forall c', In c' cs -> 0 < c_ptr c').
    { intros c' Hc'. apply (arep_chunk_ok _ _ _ _ Hct _ _ _ _ _ c' R (or_intror Hc')). }
    destruct (arep_chunk_ok _ _ _ _ Hct _ _ _ _ _ c R (or_introl eq_refl))
      as (_ & Huok & P1 & P8 & L1 & E1).
    assert (Hin : In (c_u c) (map c_u (c :: cs) ++ ext)) by (left; reflexivity).
    unfold chunk_reset. apply wp_bind. eapply wp_mload; [exact X2|].
    apply wp_bind. unfold chunk_cap. apply wp_bind. eapply wp_mload; [exact X2|]. apply wp_ret.
    replace (c_end c - (c_end c - chunk_base (c_ptr c))) with (c_base c)
      by (unfold c_base, chunk_base; lia).
    assert (Eptr : c_ptr c = u_ptr (c_u c)) by reflexivity.
    apply wp_bind. apply (wp_store_own w _ (c_u c) _ _ _ _ R5 Hin);
      [unfold CURSOR; lia|unfold CURSOR, HDR in *; lia|].
    intros w1 Ho1 M1 Q1.
    apply wp_bind. apply (wp_store_own w1 _ (c_u c) _ _ _ _ Ho1 Hin);
      [unfold CUM; lia|unfold CUM, HDR in *; lia|].
    intros w2 Ho2 M2 Q2.
    assert (Y3 : load (al_mem A w2) (c_ptr c + PREV) 8 = Some (ptr_opt (head_ptr cs))).
    { rewrite M2, M1. unfold CURSOR, CUM, PREV in *. rewrite !load_store_other by lia. exact X3. }
    apply wp_bind. eapply wp_mload; [exact Y3|].
    apply wp_bind. apply (wp_store_own w2 _ (c_u c) _ _ _ _ Ho2 Hin);
      [unfold PREV; lia|unfold PREV, HDR in *; lia|].
    intros w3 Ho3 M3 Q3. apply wp_ret.
    assert (Hout : forall x, ~ (c_ptr c <= x < c_base c) -> al_mem A w3 x = al_mem A w x).
    { intros x Hx. unfold c_base, HDR in Hx.
      rewrite M3, store_other by (unfold PREV; lia).
      rewrite M2, store_other by (unfold CUM; lia).
      rewrite M1, store_other by (unfold CURSOR; lia). reflexivity. }
    assert (Hsame : same_on (map c_u cs ++ ext) (al_mem A w) (al_mem A w3)).
    { intros v x Hv Hx. apply Hout. intros Hxc.
      pose proof (arep_disj _ _ _ _ Hct _ _ _ _ _ R) as Hd. cbn [map app pairwise] in Hd.
      destruct Hd as [Hd _]. rewrite Forall_forall in Hd. apply (Hd v Hv x); [|exact Hx].
      unfold in_u, c_base, HDR in *. lia. }
    split; [apply opt_ptr_head; exact Hpos|]. split; [|split; [|split; [|exact Hsame]]].
    - eapply quiet_trans; [exact Q1|]. eapply quiet_trans; [exact Q2|exact Q3].
    - apply (chain_same_on (al_mem A w) _ _ ext Hsame); [|exact Hch].
      intros c' Hc'. apply (arep_chunk_ok _ _ _ _ Hct _ _ _ _ _ c' R (or_intror Hc')).
    - constructor.
      + reflexivity.
      + reflexivity.
      + exact R3.
      + cbn [chain]. split; [|split; [|exact I]].
        * destruct Hw as (Z1 & Z2 & Z3). unfold cwf, set_cur; cbn. split; [exact Z1|].
          split; [exact Z2|]. unfold c_base, c_end, c_ptr in *; cbn. lia.
        * unfold hdr, set_cur; cbn. unfold c_ptr, c_end in *; cbn.
          rewrite M3, M2, M1. unfold CURSOR, END, PREV, CUM in *. repeat split.
          -- rewrite !load_store_other by lia. apply load_store_same; lia.
          -- rewrite !load_store_other by lia. exact X2.
          -- apply load_store_same; lia.
          -- rewrite load_store_other by lia. apply load_store_same; lia.
      + cbn [map app]. exact Ho3.
      + constructor.
      + constructor.
      + exact I.
  Qed.
End Ops.
