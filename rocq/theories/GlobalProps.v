(** Global allocators over the adversarial bottom allocator. *)
From Coq Require Import Permutation.
From Verif Require Import Base BaseFacts Alloc AllocFacts Arena ArenaFacts ArenaInv ArenaOps BlinkAlloc BlinkFacts
  History HistoryFacts Setup SetupFacts Frame Global GlobalFacts.

(** An underlying allocator more liberal than its contract demands: its [grow] and [shrink]
    take any sizes. *)
Definition lenient {W} (A : Allocator W) : Allocator W :=
  let f p old new := if l_size old <=? l_size new then al_grow A p old new else al_shrink A p old new in
  mkAllocator W (al_mem A) (al_set_mem A) (al_allocate A) (al_deallocate A) f f.

Section Lenient.
  Context {W : Type} (amax smax : Z) (A : Allocator W) (own : W -> list ublock -> Prop).
  Hypothesis Hct : contract amax smax A own.

  Lemma either_resizes u old new : fits old u -> req_ok smax new ->
    resizes amax A own (if l_size old <=? l_size new then al_grow A (u_ptr u) old new else al_shrink A (u_ptr u) old new) u old new.
  Proof.
    intros Hf Hr w us Ho. destruct (Z.leb_spec (l_size old) (l_size new)).
    - eapply wp_mono; [apply (ct_grow _ _ _ _ Hct w us u old new Ho Hf Hr); lia|].
      intros [b|] w' [S1 R]; split; auto. destruct R as (G & R & C). split; [exact G|]. split; [exact R|].
      intros i Hi. apply C. lia.
    - eapply wp_mono; [apply (ct_shrink _ _ _ _ Hct w us u old new Ho Hf Hr); lia|].
      intros [b|] w' [S1 R]; split; auto. destruct R as (G & R & C). split; [exact G|]. split; [exact R|].
      intros i Hi. apply C. lia.
  Qed.

  Lemma lenient_contract : contract amax smax (lenient A) own.
  Proof.
    destruct Hct as [C1 C2 C3 C4 C5 C6 C7 C8]. constructor; auto.
    - intros w us u old new Ho Hf Hr Hl. cbn [lenient al_grow al_mem].
      destruct (Z.leb_spec (l_size old) (l_size new)); [apply C7; assumption|lia].
    - intros w us u old new Ho Hf Hr Hl. cbn [lenient al_shrink al_mem].
      destruct (Z.leb_spec (l_size old) (l_size new)).
      + replace (l_size new) with (l_size old) by lia. apply C7; auto.
      + apply C8; auto.
  Qed.

  Lemma lenient_may u old new : fits old u -> req_ok smax new -> true = true ->
    resizes amax (lenient A) own
      (if l_size new <=? l_size old then al_grow (lenient A) (u_ptr u) old new else al_shrink (lenient A) (u_ptr u) old new) u old new.
  Proof.
    intros Hf Hr _. pose proof (either_resizes u old new Hf Hr) as R. cbn [lenient al_grow al_shrink].
    destruct (l_size new <=? l_size old); exact R.
  Qed.

  Lemma equal_may u old new : fits old u -> req_ok smax new -> (l_size old =? l_size new) = true ->
    resizes amax A own (if l_size new <=? l_size old then al_grow A (u_ptr u) old new else al_shrink A (u_ptr u) old new) u old new.
  Proof.
    intros Hf Hr E. pose proof (either_resizes u old new Hf Hr) as R.
    replace (l_size new <=? l_size old) with true by lia. replace (l_size old <=? l_size new) with true in R by lia. exact R.
  Qed.
End Lenient.

(** ** Statements *)

Section Statements.
  Variable su : setup.

  Definition gstart : gcst (W := bworld) := mkGc [] (g_new (su_min su) bworld0).

  (** Clients of a strict underlying allocator that never change the size of a block in
      direct mode, and clients of a lenient one that do what they want. *)
  Definition strict_run (sync : bool) (os : list gop) := grun (bot su) (su_dbg su) sync (su_smax su) Z.eqb os.
  Definition lenient_run (sync : bool) (os : list gop) := grun (lenient (bot su)) (su_dbg su) sync (su_smax su) (fun _ _ => true) os.
  Definition strict_step (sync : bool) (o : gop) := gstep (bot su) (su_dbg su) sync (su_smax su) Z.eqb o.
  Definition lenient_step (sync : bool) (o : gop) := gstep (lenient (bot su)) (su_dbg su) sync (su_smax su) (fun _ _ => true) o.

  (** The state [c] is what the client expects after [os], answered [rs]: *)
  Record well (os : list gop) (rs : list gres) (c : gcst (W := bworld)) : Prop := mkWell {
    (* one answer per operation; the mode is the one switched to *)
    we_length : length rs = length os;
    we_mode : g_on (gc_st c) = fst (gspecs os rs false []);
    (* every live block has the contents of the independent buffer it stands for *)
    we_contents : Forall2 (gagree (bw_mem (snd (g_aw (gc_st c))))) (gc_tab c) (snd (gspecs os rs false []));
    (* live blocks are where their layouts allow them to be, and disjoint *)
    we_blocks : forall h bk u, get h (gc_tab c) = Some (bk, u) ->
      0 < u_ptr u /\ u_ptr u mod l_align (u_layout u) = 0 /\ l_size (u_layout u) <= u_len u /\ u_ptr u + u_len u <= su_amax su;
    we_disjoint : forall h h' bk bk' u u', h <> h' -> get h (gc_tab c) = Some (bk, u) -> get h' (gc_tab c) = Some (bk', u') ->
      disjoint_u u u';
    (* what the underlying allocator has handed out is the chunks and the blocks
       allocated in direct mode; the other blocks are in chunks *)
    we_origin : exists ks, Permutation (outstanding (bw_trace (snd (g_aw (gc_st c))))) (ks ++ part false (gc_tab c)) /\
      forall u, In u (part true (gc_tab c)) -> exists k, In k ks /\ inside u k
  }.
End Statements.

Lemma part_perm t : Permutation (both t) (map snd (live t)).
Proof.
  unfold both, part. induction (live t) as [|[b u] l IH]; [constructor|].
  destruct b; cbn [filter fst map Bool.eqb snd app].
  - apply perm_skip. exact IH.
  - rewrite <- Permutation_middle. apply perm_skip. exact IH.
Qed.

Lemma pairwise_map {S T} (f : S -> T) (R : T -> T -> Prop) l :
  pairwise R (map f l) -> pairwise (fun x y => R (f x) (f y)) l.
Proof.
  induction l as [|x l IH]; cbn [map pairwise]; [auto|]. intros [H1 H2]. split; [|apply IH; exact H2].
  rewrite Forall_map in H1. exact H1.
Qed.

Section Facts.
  Variable su : setup.
  Hypothesis Hok : setup_ok su.
  Notation bown := (base_own (su_amax su) (su_bmax su)).

  Lemma su_ss : su_smax su <= su_bmax su.
  Proof. destruct Hok as (_ & H1 & H2 & H3 & H4 & H5 & [[_ H]|[_ H]]); lia. Qed.
  Lemma bot_start : bown bworld0 [].
  Proof. split; [|exact I]. split; [|constructor]. split; [constructor|]. split; constructor. Qed.

  Lemma inv_well A os rs c :
    ginv (su_amax su) A bown (su_dbg su) (su_min su) c (fst (gspecs os rs false [])) (snd (gspecs os rs false [])) ->
    contract (su_amax su) (su_bmax su) A bown -> (forall w, al_mem A w = bw_mem w) ->
    length rs = length os -> well su os rs c.
  Proof.
    intros [Hm Hh Ha Hs Hd Hc] Hct Emem Hl.
    destruct (serves_wf _ _ _ _ Hct _ _ _ _ Hh) as [O D]. fold (both (gc_tab c)) in O, D.
    constructor.
    - exact Hl.
    - exact Hm.
    - rewrite <- Emem. exact Ha.
    - intros h bk u G. rewrite Forall_forall in O. apply (O u). apply both_in. eauto.
    - intros h h' bk bk' u u' N G G'. assert (D' : pairwise disjoint_u (map snd (live (gc_tab c)))).
      { exact (pairwise_perm _ disjoint_u_sym _ _ (part_perm _) D). }
      apply pairwise_map in D'.
      apply (get_pairwise (fun x y => disjoint_u (snd x) (snd y)) (fun x y => disjoint_u_sym _ _) _ h h' (bk, u) (bk', u') D' N G G').
    - destruct Hh as (cs & R & _). pose proof (ar_own _ _ _ _ _ _ _ _ R) as Ho. exists (map c_u cs). split.
      + destruct Ho as [[_ P] _]. symmetry. exact P.
      + intros u Hu. pose proof (ar_placed _ _ _ _ _ _ _ _ R) as P. unfold placed in P. rewrite Forall_forall in P.
        destruct (P u Hu) as (k & Hk & P1 & P2). exists (c_u k). split; [apply in_map; exact Hk|].
        destruct (arep_chunk_ok _ _ _ _ Hct _ _ _ _ _ k R Hk) as ((_ & _ & W1) & _).
        unfold inside, HEADER, c_base, c_end, c_ptr, HDR in *. lia.
  Qed.

  Notation ok A := (ginv (su_amax su) A bown (su_dbg su) (su_min su)).

  Lemma strict_ok sync os : wp (strict_run su sync os) (gstart su) (fun rs c =>
    length rs = length os /\ ok (bot su) c (fst (gspecs os rs false [])) (snd (gspecs os rs false []))).
  Proof.
    apply (grun_ok (su_amax su) (su_smax su) (su_bmax su) (bot su) bown (su_ct su Hok) (su_amax_ok su Hok) (su_dbg su) sync
             (su_min su) (su_cfg su Hok) su_ss Z.eqb).
    - intros u old new. apply (equal_may _ _ _ _ (su_ct su Hok)).
    - apply (gstart_inv _ (su_smax su) (su_bmax su)); [apply su_ct; exact Hok|apply su_min_ok; exact Hok|apply su_cfg; exact Hok|apply bot_start].
  Qed.
  Lemma lenient_ok sync os : wp (lenient_run su sync os) (gstart su) (fun rs c =>
    length rs = length os /\ ok (lenient (bot su)) c (fst (gspecs os rs false [])) (snd (gspecs os rs false []))).
  Proof.
    apply (grun_ok (su_amax su) (su_smax su) (su_bmax su) (lenient (bot su)) bown (lenient_contract _ _ _ _ (su_ct su Hok))
             (su_amax_ok su Hok) (su_dbg su) sync (su_min su) (su_cfg su Hok) su_ss (fun _ _ => true)).
    - intros u old new. apply (lenient_may _ _ _ _ (su_ct su Hok)).
    - apply (gstart_inv _ (su_smax su) (su_bmax su)); [apply lenient_contract, su_ct; exact Hok|apply su_min_ok; exact Hok|apply su_cfg; exact Hok|apply bot_start].
  Qed.

  Lemma strict_well sync os : exists rs c, strict_run su sync os (gstart su) = ORet rs c /\ well su os rs c.
  Proof.
    destruct (wp_inv _ _ _ (strict_ok sync os)) as (rs & c & E & Hl & H). exists rs, c. split; [exact E|].
    apply (inv_well (bot su)); [exact H|apply su_ct; exact Hok|reflexivity|exact Hl].
  Qed.
  Lemma lenient_well sync os : exists rs c, lenient_run su sync os (gstart su) = ORet rs c /\ well su os rs c.
  Proof.
    destruct (wp_inv _ _ _ (lenient_ok sync os)) as (rs & c & E & Hl & H). exists rs, c. split; [exact E|].
    apply (inv_well (lenient (bot su))); [exact H|apply lenient_contract, su_ct; exact Hok|reflexivity|exact Hl].
  Qed.

  (** The counter, and the panics. *)
  Definition blinks (c : gcst (W := bworld)) : nat := length (filter fst (live (gc_tab c))).
  Definition blink_alive (c : gcst (W := bworld)) : Prop := exists h u, get h (gc_tab c) = Some (true, u).

  Lemma part_blinks t : length (part true t) = length (filter fst (live t)).
  Proof. unfold part. rewrite map_length. f_equal. apply filter_ext. intros [[|] u]; reflexivity. Qed.
  Lemma part_alive (c : gcst (W := bworld)) : part true (gc_tab c) <> [] <-> blink_alive c.
  Proof.
    split.
    - intros H. destruct (part true (gc_tab c)) as [|u us] eqn:E; [contradiction|].
      assert (Hu : In u (part true (gc_tab c))) by (rewrite E; left; reflexivity).
      apply part_in in Hu. destruct Hu as [h G]. exists h, u. exact G.
    - intros (h & u & G) E. assert (Hu : In u (part true (gc_tab c))) by (apply part_in; eauto). rewrite E in Hu. exact Hu.
  Qed.

  Definition checks (step : gop -> M (gcst (W := bworld)) gres) (c : gcst (W := bworld)) : Prop :=
    (su_dbg su = true -> g_count (gc_st c) = Z.of_nat (blinks c)) /\
    forall o, exists r c', step o c = ORet r c' /\
      (r = GPanicked <-> (o = GReset \/ o = GDirect) /\ su_dbg su = true /\ blink_alive c) /\
      (r = GPanicked -> c' = c).

  Lemma strict_checks sync os : exists rs c, strict_run su sync os (gstart su) = ORet rs c /\ checks (strict_step su sync) c.
  Proof.
    destruct (wp_inv _ _ _ (strict_ok sync os)) as (rs & c & E & Hl & H). exists rs, c. split; [exact E|]. split.
    - intros D. pose proof (gi_count _ _ _ _ _ _ _ _ H) as C. rewrite D in C. rewrite C. f_equal. apply part_blinks.
    - intros o.
      assert (G : forall u old new, fits old u -> req_ok (su_bmax su) new -> (l_size old =? l_size new) = true ->
         resizes (su_amax su) (bot su) bown (if l_size new <=? l_size old then al_grow (bot su) (u_ptr u) old new else al_shrink (bot su) (u_ptr u) old new) u old new)
        by (intros u old new; apply (equal_may _ _ _ _ (su_ct su Hok))).
      pose proof (gstep_ok (su_amax su) (su_smax su) (su_bmax su) (bot su) bown (su_ct su Hok) (su_amax_ok su Hok) (su_dbg su) sync
             (su_min su) (su_cfg su Hok) su_ss Z.eqb G o c _ _ H) as S.
      destruct (wp_inv _ _ _ S) as (r & c' & E' & _ & P1 & P2). exists r, c'. split; [exact E'|]. rewrite <- part_alive. auto.
  Qed.
  Lemma lenient_checks sync os : exists rs c, lenient_run su sync os (gstart su) = ORet rs c /\ checks (lenient_step su sync) c.
  Proof.
    destruct (wp_inv _ _ _ (lenient_ok sync os)) as (rs & c & E & Hl & H). exists rs, c. split; [exact E|]. split.
    - intros D. pose proof (gi_count _ _ _ _ _ _ _ _ H) as C. rewrite D in C. rewrite C. f_equal. apply part_blinks.
    - intros o.
      assert (G : forall u old new, fits old u -> req_ok (su_bmax su) new -> true = true ->
         resizes (su_amax su) (lenient (bot su)) bown (if l_size new <=? l_size old then al_grow (lenient (bot su)) (u_ptr u) old new else al_shrink (lenient (bot su)) (u_ptr u) old new) u old new)
        by (intros u old new; apply (lenient_may _ _ _ _ (su_ct su Hok))).
      pose proof (gstep_ok (su_amax su) (su_smax su) (su_bmax su) (lenient (bot su)) bown (lenient_contract _ _ _ _ (su_ct su Hok)) (su_amax_ok su Hok) (su_dbg su) sync
             (su_min su) (su_cfg su Hok) su_ss (fun _ _ => true) G o c _ _ H) as S.
      destruct (wp_inv _ _ _ S) as (r & c' & E' & _ & P1 & P2). exists r, c'. split; [exact E'|]. rewrite <- part_alive. auto.
  Qed.
End Facts.
