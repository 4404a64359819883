(** The representation invariant of the arena and its preservation. *)
From Coq Require Import Permutation.
From Verif Require Import Base BaseFacts Alloc AllocFacts Arena ArenaFacts.

Section Inv.
  Context {W : Type} (amax smax' : Z) (A : Allocator W) (own : W -> list ublock -> Prop).
  Hypothesis Hct : contract amax smax' A own.

  (** The arena [ar] over the state [w] is made of the chunks [cs] (root
      first), the blocks [us] are allocated from it, and [ext] are the blocks of
      the underlying allocator that belong to others. *)
  Record arep (ext : list ublock) (cs : list chunk) (ar : Arena) (w : W) (us : list ublock)
    : Prop := mkArep {
    ar_head : ar_root ar = head_ptr cs;
    ar_count : ar_depth ar = length cs;
    ar_min_ok : 0 <= ar_min ar <= USIZE_MAX;
    ar_chain : chain (al_mem A w) cs;
    ar_own : own w (map c_u cs ++ ext);
    ar_placed : placed cs us;
    ar_ok : Forall (u_ok amax) us;
    ar_disj : pairwise disjoint_u us
  }.

  Definition ainv (ext : list ublock) (aw : AW (W := W)) (us : list ublock) : Prop :=
    exists cs, arep ext cs (fst aw) (snd aw) us.

  Lemma chain_cwf m cs c : chain m cs -> In c cs -> cwf c.
  Proof.
    induction cs as [|c' cs IH]; cbn [chain In]; [tauto|].
    intros (H1 & _ & H3) [<-|Hc]; [exact H1|apply IH; assumption].
  Qed.

  Lemma arep_chunk_ok ext cs ar w us c :
    arep ext cs ar w us -> In c cs ->
    cwf c /\ u_ok amax (c_u c) /\ 0 < c_ptr c /\ c_ptr c mod 8 = 0 /\
    HDR <= u_len (c_u c) /\ c_end c <= amax.
  Proof.
    intros R Hc. pose proof (chain_cwf _ _ _ (ar_chain _ _ _ _ _ R) Hc) as Hw.
    destruct (ct_wf _ _ _ _ Hct _ _ (ar_own _ _ _ _ _ R)) as [Hok _].
    rewrite Forall_forall in Hok.
    assert (Hu : u_ok amax (c_u c)).
    { apply Hok. apply in_or_app. left. apply in_map. exact Hc. }
    split; [exact Hw|]. split; [exact Hu|].
    destruct Hw as (Ha & Hs & Hb). destruct Hu as ((G1 & G2 & G3 & G4) & _ & _).
    unfold ublk in *. cbn in *. rewrite Ha in G2.
    unfold c_ptr, c_end in *. unfold HDR, HDR_ALIGN in *. repeat split; auto; lia.
  Qed.

  (** Different chunks, and chunks and foreign blocks, do not overlap. *)
  Lemma arep_disj ext cs ar w us : arep ext cs ar w us -> pairwise disjoint_u (map c_u cs ++ ext).
  Proof. intros R. apply (ct_wf _ _ _ _ Hct _ _ (ar_own _ _ _ _ _ R)). Qed.

  Lemma disjoint_ranges u v :
    disjoint_u u v -> 0 < u_len u -> 0 < u_len v ->
    u_ptr u + u_len u <= u_ptr v \/ u_ptr v + u_len v <= u_ptr u.
  Proof.
    intros D Hu Hv. unfold disjoint_u, in_u in D.
    pose proof (D (u_ptr u)). pose proof (D (u_ptr v)). lia.
  Qed.

  Lemma arep_head_disj ext c cs ar w us c' :
    arep ext (c :: cs) ar w us -> In c' cs -> c_end c <= c_ptr c' \/ c_end c' <= c_ptr c.
  Proof.
    intros R Hc'. pose proof (arep_disj _ _ _ _ _ R) as D.
    cbn [map app pairwise] in D. destruct D as [D _]. rewrite Forall_forall in D.
    assert (Hin : In (c_u c') (map c_u cs ++ ext)) by (apply in_or_app; left; apply in_map; exact Hc').
    specialize (D _ Hin).
    destruct (arep_chunk_ok _ _ _ _ _ c R (or_introl eq_refl)) as (_ & _ & _ & _ & L1 & _).
    destruct (arep_chunk_ok _ _ _ _ _ c' R (or_intror Hc')) as (_ & _ & _ & _ & L2 & _).
    unfold HDR in *. unfold c_end, c_ptr. apply disjoint_ranges; auto; lia.
  Qed.

  Lemma arep_sum_caps : 0 <= amax <= USIZE_MAX ->
    forall ext cs ar w us, arep ext cs ar w us -> 0 <= sum_caps cs <= amax.
  Proof.
    intros Hamax ext cs ar w us R.
    assert (H1 : Forall (fun c => HDR <= u_len (c_u c)) cs).
    { rewrite Forall_forall. intros c Hc. apply (arep_chunk_ok _ _ _ _ _ c R Hc). }
    pose proof (sum_caps_len cs H1) as S. split; [lia|].
    assert (sum_len (map c_u cs) <= amax - 0); [|lia].
    pose proof (arep_disj _ _ _ _ _ R) as D. apply pairwise_app in D.
    apply (disjoint_sum (length (map c_u cs))); [lia|apply D|lia|].
    rewrite Forall_forall. intros u Hu. apply in_map_iff in Hu. destruct Hu as (c & <- & Hc).
    destruct (arep_chunk_ok _ _ _ _ _ c R Hc) as (_ & _ & P & _ & L & E).
    unfold c_end, c_ptr, HDR in *. lia.
  Qed.

  (** ** Geometry *)

  Definition sep (c c' : chunk) : Prop := c_end c <= c_ptr c' \/ c_end c' <= c_ptr c.

  Lemma sep_sym c c' : sep c c' -> sep c' c.
  Proof. unfold sep. tauto. Qed.

  Lemma arep_sep ext cs ar w us : arep ext cs ar w us -> pairwise sep cs.
  Proof.
    intros R. pose proof (arep_disj _ _ _ _ _ R) as D. apply pairwise_app in D.
    destruct D as (D & _ & _).
    assert (L : forall c, In c cs -> 0 < u_len (c_u c)).
    { intros c Hc. destruct (arep_chunk_ok _ _ _ _ _ c R Hc) as (_ & _ & _ & _ & L & _).
      unfold HDR in L. lia. }
    clear R. induction cs as [|c cs IH]; cbn [map pairwise] in *; [exact I|].
    destruct D as [D1 D2]. split.
    - rewrite Forall_forall in *. intros c' Hc'.
      apply disjoint_ranges; [apply D1; apply in_map; exact Hc'|apply L; left; reflexivity|].
      apply L; right; exact Hc'.
    - apply IH; [exact D2|]. intros c' Hc'. apply L. right; exact Hc'.
  Qed.

  Lemma arep_two ext cs ar w us c c' :
    arep ext cs ar w us -> In c cs -> In c' cs -> c = c' \/ sep c c'.
  Proof.
    intros R Hc Hc'. apply (pairwise_in sep cs); auto using sep_sym.
    apply (arep_sep _ _ _ _ _ R).
  Qed.

  (** A block of the client occupies neither a header nor free space. *)
  Lemma arep_us_not ext cs ar w us c u x :
    arep ext cs ar w us -> In c cs -> In u us -> in_u x u -> ~ (c_ptr c <= x < c_base c) /\
    ~ (c_cur c <= x < c_end c).
  Proof.
    intros R Hc Hu Hx. pose proof (ar_placed _ _ _ _ _ R) as P.
    unfold placed in P. rewrite Forall_forall in P. destruct (P u Hu) as (c' & Hc' & P1 & P2).
    destruct (arep_chunk_ok _ _ _ _ _ c R Hc) as (W1 & _ & _ & _ & _ & _).
    destruct (arep_chunk_ok _ _ _ _ _ c' R Hc') as (W2 & _ & _ & _ & _ & _).
    destruct W1 as (_ & _ & W1). destruct W2 as (_ & _ & W2).
    unfold in_u in Hx.
    destruct (arep_two _ _ _ _ _ c c' R Hc Hc') as [->|[S|S]]; unfold c_base, HDR in *; lia.
  Qed.

  Lemma arep_ext_not ext cs ar w us c u x :
    arep ext cs ar w us -> In c cs -> In u ext -> in_u x u -> ~ (c_ptr c <= x < c_end c).
  Proof.
    intros R Hc Hu Hx Hc'. pose proof (arep_disj _ _ _ _ _ R) as D. apply pairwise_app in D.
    destruct D as (_ & _ & D).
    apply (D (c_u c) u (in_map c_u cs c Hc) Hu x); [|exact Hx].
    unfold in_u. unfold c_end, c_ptr in *. lia.
  Qed.

  (** ** Dropping and reordering blocks of the client *)

  Lemma arep_perm ext cs ar w us us' :
    Permutation us us' -> arep ext cs ar w us -> arep ext cs ar w us'.
  Proof.
    intros P R. destruct R as [R1 R2 R3 R4 R5 R6 R7 R8].
    constructor; auto.
    - unfold placed in *. rewrite <- P. exact R6.
    - rewrite <- P. exact R7.
    - apply (pairwise_perm _ disjoint_u_sym us); assumption.
  Qed.

  Lemma arep_drop ext cs ar w u us : arep ext cs ar w (u :: us) -> arep ext cs ar w us.
  Proof.
    intros R. destruct R as [R1 R2 R3 R4 R5 R6 R7 R8].
    constructor; auto.
    - inversion R6; assumption.
    - inversion R7; assumption.
    - apply R8.
  Qed.

  Lemma arep_ext_perm ext ext' cs ar w us :
    Permutation ext ext' -> arep ext cs ar w us -> arep ext' cs ar w us.
  Proof.
    intros P R. destruct R as [R1 R2 R3 R4 R5 R6 R7 R8]. constructor; auto.
    apply (ct_perm _ _ _ _ Hct _ _ _ R5). apply Permutation_app_head. exact P.
  Qed.

  (** ** Writing into chunk payloads *)

  Lemma arep_write ext cs ar w us m :
    arep ext cs ar w us ->
    (forall x, (forall c, In c cs -> ~ (c_base c <= x < c_end c)) -> m x = al_mem A w x) ->
    arep ext cs ar (al_set_mem A w m) us.
  Proof.
    intros R H. pose proof R as [R1 R2 R3 R4 R5 R6 R7 R8]. constructor; auto.
    - rewrite (ct_mem _ _ _ _ Hct). apply (chain_ext (al_mem A w)); [|exact R4].
      intros c x Hc Hx. apply H. intros c' Hc' Hx'.
      destruct (arep_chunk_ok _ _ _ _ _ c R Hc) as (_ & _ & _ & _ & L1 & _).
      destruct (arep_two _ _ _ _ _ c c' R Hc Hc') as [->|[S|S]];
        unfold c_base, c_end, HDR in *; lia.
    - apply (ct_write _ _ _ _ Hct); [exact R5|].
      intros x Hx. apply H. intros c Hc Hcx. apply (Hx (c_u c)).
      + apply in_or_app. left. apply in_map. exact Hc.
      + unfold in_u. unfold c_base, c_end, c_ptr, HDR in *. lia.
  Qed.

  Lemma arep_write_us ext cs ar w us m :
    arep ext cs ar w us ->
    (forall x, (forall u, In u us -> ~ in_u x u) -> m x = al_mem A w x) ->
    arep ext cs ar (al_set_mem A w m) us /\ same_on ext (al_mem A w) m.
  Proof.
    intros R H. split.
    - apply arep_write; [exact R|]. intros x Hx. apply H. intros u Hu Hxu.
      pose proof (ar_placed _ _ _ _ _ R) as P. unfold placed in P. rewrite Forall_forall in P.
      destruct (P u Hu) as (c & Hc & P1 & P2). apply (Hx c Hc).
      destruct (arep_chunk_ok _ _ _ _ _ c R Hc) as ((_ & _ & W1) & _).
      unfold in_u in Hxu. lia.
    - intros v x Hv Hx. apply H. intros u Hu Hxu.
      pose proof (ar_placed _ _ _ _ _ R) as P. unfold placed in P. rewrite Forall_forall in P.
      destruct (P u Hu) as (c & Hc & P1 & P2).
      destruct (arep_chunk_ok _ _ _ _ _ c R Hc) as ((_ & _ & W1) & _).
      apply (arep_ext_not _ _ _ _ _ c v x R Hc Hv Hx).
      unfold in_u in Hxu. unfold c_base, HDR in *. lia.
  Qed.

  (** ** Moving the cursor of the root chunk forward *)

  Definition set_cur (c : chunk) (n : Z) : chunk := mkChunk (c_u c) n.

  Lemma arep_bump ext c cs ar w us n :
    arep ext (c :: cs) ar w us -> c_cur c <= n <= c_end c ->
    let m' := store (al_mem A w) (c_ptr c + CURSOR) 8 n in
    arep ext (set_cur c n :: cs) ar (al_set_mem A w m') us /\
    same_on (us ++ ext) (al_mem A w) m'.
  Proof.
    intros R Hn m'. pose proof R as [R1 R2 R3 R4 R5 R6 R7 R8].
    destruct (arep_chunk_ok _ _ _ _ _ c R (or_introl eq_refl)) as (W1 & _ & P1 & _ & L1 & _).
    assert (Hsame : same_on (us ++ ext) (al_mem A w) m').
    { intros u x Hu Hx. apply store_other. unfold CURSOR.
      apply in_app_or in Hu. destruct Hu as [Hu|Hu].
      - destruct (arep_us_not _ _ _ _ _ c u x R (or_introl eq_refl) Hu Hx) as [N _].
        unfold c_base, HDR in N. lia.
      - pose proof (arep_ext_not _ _ _ _ _ c u x R (or_introl eq_refl) Hu Hx) as N.
        unfold c_end, c_ptr, HDR in *. lia. }
    split; [|exact Hsame]. constructor; auto.
    - rewrite (ct_mem _ _ _ _ Hct). cbn [chain] in *. destruct R4 as (_ & Hh & Hc).
      split; [|split].
      + destruct W1 as (X1 & X2 & X3). unfold set_cur, cwf. cbn. split; [exact X1|].
        split; [exact X2|]. unfold c_base, c_end, c_ptr in *; cbn. lia.
      + unfold hdr in *. unfold set_cur; cbn. unfold c_ptr, c_end in *; cbn.
        destruct Hh as (H1 & H2 & H3 & H4). unfold m', CURSOR, END, PREV, CUM in *. repeat split.
        * apply load_store_same; lia.
        * rewrite load_store_other by lia. exact H2.
        * rewrite load_store_other by lia. exact H3.
        * rewrite load_store_other by lia. exact H4.
      + apply (chain_ext (al_mem A w)); [|exact Hc]. intros c' x Hc' Hx.
        apply store_other. unfold CURSOR.
        destruct (arep_chunk_ok _ _ _ _ _ c' R (or_intror Hc')) as (_ & _ & _ & _ & L2 & _).
        pose proof (arep_head_disj _ _ _ _ _ _ c' R Hc') as S.
        unfold c_base, c_end, c_ptr, HDR in *. lia.
    - apply (ct_write _ _ _ _ Hct); [exact R5|].
      intros x Hx. apply store_other. unfold CURSOR.
      assert (~ in_u x (c_u c)) by (apply Hx; left; reflexivity).
      unfold in_u, c_ptr, HDR in *. lia.
    - unfold placed in *. rewrite Forall_forall in *. intros u Hu.
      destruct (R6 u Hu) as (c' & [<-|Hc'] & P2 & P3).
      + exists (set_cur c n). split; [left; reflexivity|]. unfold in_chunk, set_cur, c_base, c_ptr in *.
        cbn. lia.
      + exists c'. split; [right; exact Hc'|]. split; assumption.
  Qed.

  (** A new block in the part of the root chunk the cursor has just passed. *)
  Lemma arep_add ext c cs ar w us u n :
    arep ext (set_cur c n :: cs) ar w us ->
    u_ok amax u -> c_base c <= u_ptr u -> u_ptr u + u_len u <= n ->
    Forall (disjoint_u u) us ->
    arep ext (set_cur c n :: cs) ar w (u :: us).
  Proof.
    intros R Hu H1 H2 Hd. destruct R as [R1 R2 R3 R4 R5 R6 R7 R8].
    constructor; auto.
    - constructor; [|exact R6]. exists (set_cur c n). split; [left; reflexivity|].
      split; assumption.
    - split; assumption.
  Qed.

  (** Free space of a chunk is disjoint from all blocks of the client. *)
  Lemma arep_free_disj ext cs ar w us c u :
    arep ext cs ar w us -> In c cs ->
    c_cur c <= u_ptr u -> u_ptr u + u_len u <= c_end c -> Forall (disjoint_u u) us.
  Proof.
    intros R Hc H1 H2. rewrite Forall_forall. intros v Hv x Hx Hy.
    destruct (arep_us_not _ _ _ _ _ c v x R Hc Hv Hy) as [_ N]. unfold in_u in Hx. lia.
  Qed.
End Inv.
