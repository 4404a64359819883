(** Every step of the concurrent machine preserves the representation of the
    arena and refines the independent buffers. *)
From Coq Require Import Permutation.
From Verif Require Import Base BaseFacts Alloc AllocFacts Arena ArenaFacts ArenaInv ArenaOps
  BlinkAlloc BlinkFacts History HistoryFacts Setup SetupFacts SetupOps Conc.

(** The new block a thread is copying to. *)
Definition hold (p : pc) : list ublock :=
  match p with
  | Copy (JResize _ _ _ new) b _ _ => [mkU (b_ptr b) (b_len b) new]
  | _ => []
  end.

Definition reading (p : pc) : bool :=
  match p with
  | Load _ _ | Cas _ _ _ | TipLoad _ _ | TipCas _ _ _ | FreeCas _ _ => true
  | Copy _ _ _ wr | Unlock wr _ _ => negb wr
  | _ => false
  end.
Definition writing (p : pc) : bool :=
  match p with
  | Slow _ => true
  | Copy _ _ _ wr | Unlock wr _ _ => wr
  | _ => false
  end.

Lemma nth_set_same {T} t (x : T) l p : nth_error l t = Some p -> nth_error (set_nth t x l) t = Some x.
Proof. revert t. induction l as [|y l IH]; intros [|t] H; cbn in *; try discriminate; auto. Qed.
Lemma nth_set_other {T} t t' (x : T) l : t <> t' -> nth_error (set_nth t x l) t' = nth_error l t'.
Proof.
  revert t t'. induction l as [|y l IH]; intros [|t] [|t'] N; cbn; auto; try congruence;
    apply IH; congruence.
Qed.
Lemma set_nth_same {T} t (p : T) l : nth_error l t = Some p -> set_nth t p l = l.
Proof. revert t. induction l as [|y l IH]; intros [|t] H; cbn in *; try discriminate; [congruence|]. f_equal; auto. Qed.

(** The blocks held by the other threads. *)
Lemma hold_split thr t p : nth_error thr t = Some p ->
  exists rest, (forall p', Permutation (flat_map hold (set_nth t p' thr)) (hold p' ++ rest)) /\
    (forall t' q v, t' <> t -> nth_error thr t' = Some q -> In v (hold q) -> In v rest).
Proof.
  revert t. induction thr as [|q thr IH]; intros [|t] H; cbn in H; try discriminate.
  - inversion H; subst. exists (flat_map hold thr). split; [intros p'; apply Permutation_refl|].
    intros [|t'] q v N E Hv; [congruence|]. cbn in E. apply in_flat_map. exists q.
    split; [apply (nth_error_In _ _ E)|exact Hv].
  - destruct (IH t H) as (rest & H1 & H2). exists (hold q ++ rest). split.
    + intros p'. cbn. rewrite (H1 p'). rewrite !app_assoc. apply Permutation_app_tail, Permutation_app_comm.
    + intros [|t'] q' v N E Hv; cbn in E.
      * inversion E; subst. apply in_or_app; auto.
      * apply in_or_app. right. apply (H2 t' q'); auto.
Qed.

(** The table around one live block. *)
Lemma tab_split {T} h (tab : list (option T)) u : get h tab = Some u ->
  exists l0, Permutation (live tab) (u :: l0) /\
    (forall x, Permutation (live (set_nth h (Some x) tab)) (x :: l0)) /\
    live (set_nth h None tab) = l0 /\
    (forall h' u', h' <> h -> get h' tab = Some u' -> In u' l0).
Proof.
  intros G. destruct (get_split _ _ _ G) as (t1 & t2 & -> & <-). exists (live (t1 ++ t2)).
  split; [apply live_perm_mid|]. split; [|split].
  - intros x. rewrite set_nth_split. apply live_perm_mid.
  - rewrite set_nth_split, !live_app. reflexivity.
  - intros h' u' N G'. apply live_in. destruct (Nat.lt_ge_cases h' (length t1)) as [L|L].
    + exists h'. revert G'. unfold get. rewrite !nth_error_app1 by lia. auto.
    + exists (h' - 1)%nat. revert G'. unfold get. rewrite nth_error_app2 by lia.
      rewrite nth_error_app2 by lia. replace (h' - length t1)%nat with (S (h' - 1 - length t1)) by lia.
      auto.
Qed.

Section Facts.
  Variable su : setup.
  Hypothesis Hok : setup_ok su.
  Notation amax := (su_amax su).
  Notation bown := (base_own (su_amax su) (su_bmax su)).
  Notation brep := (arep (su_amax su) (bot su) (base_own (su_amax su) (su_bmax su))).
  Notation A := (bot su).
  Notation dbg := (su_dbg su).

  (** The root chunk is at [r] and ends at [e]. *)
  Definition root_is (cs : list chunk) (r e : Z) : Prop :=
    match cs with [] => False | c :: _ => c_ptr c = r /\ c_end c = e end.

  Definition job_ok (tab : list (option ublock)) (j : job) : Prop :=
    match j with
    | JAlloc l => req_ok (su_smax su) l
    | JResize h u old new => get h tab = Some u /\ fits old u /\ req_ok (su_smax su) new
    | JDealloc h u l => get h tab = Some u /\ fits l u
    end.
  Definition takes (j : job) : Prop := match j with JDealloc _ _ _ => False | _ => True end.

  Definition pc_ok (cs : list chunk) (tab : list (option ublock)) (m : mem) (p : pc) : Prop :=
    match p with
    | Idle => True
    | WantRead j => job_ok tab j
    | Load j r => job_ok tab j /\ takes j /\ exists e, root_is cs r e
    | Cas j r cur => job_ok tab j /\ takes j /\ 0 <= cur /\ exists e, root_is cs r e
    | TipLoad j r =>
        job_ok tab j /\ (exists e, root_is cs r e) /\
        match j with
        | JResize _ u old new => l_align new <= l_align old /\ l_size old < l_size new
        | _ => False
        end
    | TipCas j r cur =>
        job_ok tab j /\
        match j with
        | JResize _ u old new => l_align new <= l_align old /\ l_size old < l_size new /\
            cur = u_ptr u + l_size old /\
            exists e, root_is cs r e /\ u_ptr u + l_size new <= e
        | _ => False
        end
    | FreeCas j r =>
        job_ok tab j /\ (exists e, root_is cs r e) /\
        match j with JDealloc _ _ _ => True | _ => False end
    | Copy j b i wr =>
        job_ok tab j /\
        match j with
        | JResize _ u old new =>
            good_block amax new b /\ 0 <= i <= Z.min (l_size new) (l_size old) /\
            forall k, 0 <= k < i -> m (b_ptr b + k) = m (u_ptr u + k)
        | _ => False
        end
    | Unlock _ nxt h =>
        match nxt with
        | Some j => job_ok tab j /\ takes j /\ h = job_handle j
        | None => match h with Some h => (h < length tab)%nat | None => True end
        end
    | WantWrite j | Slow j => job_ok tab j /\ takes j
    end.

  Definition lock_ok (k : lock) (thr : list pc) : Prop :=
    (forall t, In t (lk_readers k) <-> exists p, nth_error thr t = Some p /\ reading p = true) /\
    (forall t, lk_writer k = Some t <-> exists p, nth_error thr t = Some p /\ writing p = true) /\
    (lk_writer k <> None -> lk_readers k = []).

  (** The blocks [ext] of the underlying allocator belong to others and hold what they
      hold in [m0].  With [sole], there are no others, and the chunks are all that the
      underlying allocator has handed out, newest first. *)
  Variable sole : bool.
  Variable ext : list ublock.
  Variable m0 : mem.
  Definition rest_ok (cs : list chunk) (w : bworld) : Prop :=
    if sole then ext = [] /\ map c_u cs = outstanding (bw_trace w) else same_on ext m0 (bw_mem w).

  Definition xinvx (cs : list chunk) (g : gst) (s : list (option sbuf)) : Prop :=
    brep ext cs (fst (g_aw g)) (snd (g_aw g)) (live (g_tab g) ++ flat_map hold (g_thr g)) /\
    rest_ok cs (snd (g_aw g)) /\
    ar_min (fst (g_aw g)) = su_min su /\
    agrees (bw_mem (snd (g_aw g))) (g_tab g) s /\
    lock_ok (g_lock g) (g_thr g) /\
    (forall t p, nth_error (g_thr g) t = Some p ->
       pc_ok cs (g_tab g) (bw_mem (snd (g_aw g))) p) /\
    (forall t1 t2 p1 p2 h, nth_error (g_thr g) t1 = Some p1 -> nth_error (g_thr g) t2 = Some p2 ->
       pc_handle p1 = Some h -> pc_handle p2 = Some h -> t1 = t2).
  Definition xinv (g : gst) (s : list (option sbuf)) : Prop := exists cs, xinvx cs g s.

  Lemma rest_keep cs cs' w w' : map c_u cs' = map c_u cs -> bw_trace w' = bw_trace w ->
    same_on ext (bw_mem w) (bw_mem w') -> rest_ok cs w -> rest_ok cs' w'.
  Proof.
    unfold rest_ok. intros E1 E2 S. destruct sole.
    - intros [H1 H2]. split; [exact H1|]. congruence.
    - intros H. eapply same_on_trans; eassumption.
  Qed.

  Lemma job_handle_len tab j h : job_ok tab j -> job_handle j = Some h -> (h < length tab)%nat.
  Proof.
    destruct j; cbn; intros H E; inversion E; subst; [|]; apply (get_len _ _ u); tauto.
  Qed.

  Lemma pc_handle_len cs tab m p h : pc_ok cs tab m p -> pc_handle p = Some h -> (h < length tab)%nat.
  Proof.
    destruct p; cbn; intros H E; try discriminate;
      try (apply (job_handle_len tab j h); tauto).
    destruct next as [j|]; [|subst h0; exact H].
    destruct H as (H1 & _ & ->). apply (job_handle_len tab j h); auto.
  Qed.

  Lemma job_ok_tab tab tab' j :
    (forall h u, job_handle j = Some h -> get h tab = Some u -> get h tab' = Some u) ->
    job_ok tab j -> job_ok tab' j.
  Proof.
    destruct j; cbn; intros H H1; auto; destruct H1 as (H2 & H3); (split; [|exact H3]); auto.
  Qed.

  (** What a thread relies on survives the steps of others. *)
  Lemma pc_ok_other cs cs' tab tab' m m' p :
    (forall h u, pc_handle p = Some h -> get h tab = Some u ->
       get h tab' = Some u /\ same_on [u] m m') ->
    (length tab <= length tab')%nat ->
    same_on (hold p) m m' ->
    (reading p = true \/ writing p = true -> forall r e, root_is cs r e -> root_is cs' r e) ->
    pc_ok cs tab m p -> pc_ok cs' tab' m' p.
  Proof.
    intros Ht Hl Hm Hr.
    assert (Hj : forall j, pc_handle p = job_handle j -> job_ok tab j -> job_ok tab' j).
    { intros j E. apply job_ok_tab. intros h u E2. rewrite <- E in E2. apply Ht. exact E2. }
    destruct p; cbn [pc_ok pc_handle] in *; try (cbn in Hr).
    - auto.
    - apply Hj; reflexivity.
    - intros (H1 & H2 & e & H3). split; [apply Hj; auto|]. split; [exact H2|]. exists e. auto.
    - intros (H1 & H2 & H3 & e & H4). split; [apply Hj; auto|]. split; [exact H2|].
      split; [exact H3|]. exists e. auto.
    - intros (H1 & (e & H2) & H3). split; [apply Hj; auto|]. split; [exists e; auto|exact H3].
    - intros (H1 & H2). split; [apply Hj; auto|]. destruct j; try contradiction.
      destruct H2 as (H2 & H3 & H4 & e & H5 & H6). split; [exact H2|]. split; [exact H3|].
      split; [exact H4|]. exists e. auto.
    - intros (H1 & (e & H2) & H3). split; [apply Hj; auto|]. split; [exists e; auto|exact H3].
    - intros (H1 & H2). split; [apply Hj; auto|]. destruct j; try contradiction.
      destruct H2 as (H2 & H3 & H4). split; [exact H2|]. split; [exact H3|].
      intros k Hk. cbn in H1. destruct H1 as (G & F & _). destruct (Ht h u eq_refl G) as [_ S].
      destruct F as (_ & F). destruct H2 as (_ & _ & G3 & _).
      rewrite (Hm _ (b_ptr b + k) (or_introl eq_refl)) by (unfold in_u; cbn; lia).
      rewrite (S _ (u_ptr u + k) (or_introl eq_refl)) by (unfold in_u; lia). auto.
    - destruct next as [j|].
      + intros (H1 & H2 & H3). split; [apply Hj; auto|]. auto.
      + destruct h; [lia|auto].
    - intros (H1 & H2). split; [apply Hj; auto|auto].
    - intros (H1 & H2). split; [apply Hj; auto|auto].
  Qed.

  (** What is needed to establish the invariant after a step of thread [t]. *)
  Definition nextable (cs : list chunk) (g : gst) (t : nat) (p : pc) (rest : list ublock) : Prop :=
    forall p' tab' k' ar' w' cs' s',
      brep ext cs' ar' w' (live tab' ++ hold p' ++ rest) ->
      rest_ok cs' w' ->
      ar_min ar' = su_min su ->
      agrees (bw_mem w') tab' s' ->
      lock_ok k' (set_nth t p' (g_thr g)) ->
      pc_ok cs' tab' (bw_mem w') p' ->
      (forall h u, pc_handle p <> Some h -> get h (g_tab g) = Some u ->
         get h tab' = Some u /\ (busy h (g_thr g) = true -> same_on [u] (bw_mem (snd (g_aw g))) (bw_mem w'))) ->
      (length (g_tab g) <= length tab')%nat ->
      same_on rest (bw_mem (snd (g_aw g))) (bw_mem w') ->
      (writing p = true \/ forall r e, root_is cs r e -> root_is cs' r e) ->
      (forall h, pc_handle p' = Some h -> pc_handle p = Some h \/
         (length (g_tab g) <= h)%nat \/ busy h (g_thr g) = false) ->
      xinv (mkG tab' (set_nth t p' (g_thr g)) k' (ar', w')) s'.

  Lemma xinv_next cs g s t p : xinvx cs g s -> nth_error (g_thr g) t = Some p ->
    exists rest,
      brep ext cs (fst (g_aw g)) (snd (g_aw g)) (live (g_tab g) ++ hold p ++ rest) /\
      nextable cs g t p rest.
  Proof.
    intros (R & Hh & Hm & Ha & Hlk & Hpc & Hd) Hp.
    destruct (hold_split _ _ _ Hp) as (rest & P1 & P2). exists rest. split.
    { apply (arep_perm _ _ _ _ _ _ _ (live (g_tab g) ++ flat_map hold (g_thr g))); [|exact R].
      apply Permutation_app_head. rewrite <- (set_nth_same t p (g_thr g) Hp) at 1. apply P1. }
    intros p' tab' k' ar' w' cs' s' R' Hh' Hm' Ha' Hlk' Hp' Ht Hlen Hs Hw Hhd.
    exists cs'. unfold xinvx. cbn [g_tab g_thr g_lock g_aw fst snd].
    split; [|split; [exact Hh'|split; [exact Hm'|split; [exact Ha'|split; [exact Hlk'|split]]]]].
    - apply (arep_perm _ _ _ _ _ _ _ (live tab' ++ hold p' ++ rest)); [|exact R'].
      apply Permutation_app_head. symmetry. apply P1.
    - intros t2 q Hq. destruct (Nat.eq_dec t t2) as [<-|N].
      + rewrite (nth_set_same _ _ _ _ Hp) in Hq. inversion Hq; subst q. exact Hp'.
      + rewrite nth_set_other in Hq by exact N.
        apply (pc_ok_other cs cs' (g_tab g) tab' (bw_mem (snd (g_aw g))) (bw_mem w')); auto.
        * intros h u E G. destruct (Ht h u) as [G' S].
          -- intros E'. apply N. apply (Hd t t2 p q h); auto.
          -- exact G.
          -- split; [exact G'|]. apply S. apply existsb_exists. exists q.
             split; [apply (nth_error_In _ _ Hq)|]. rewrite E. apply Nat.eqb_refl.
        * eapply same_on_incl; [|exact Hs]. intros v Hv. apply (P2 t2 q v); auto.
        * intros Hin r e. destruct Hw as [Hw|Hw]; [|apply Hw].
          exfalso. destruct Hlk as (L1 & L2 & L3).
          assert (Hwr : lk_writer (g_lock g) = Some t) by (apply L2; eauto).
          destruct Hin as [Hin|Hin].
          -- assert (Hr : In t2 (lk_readers (g_lock g))) by (apply L1; eauto).
             rewrite L3 in Hr by congruence. contradiction.
          -- assert (lk_writer (g_lock g) = Some t2) by (apply L2; eauto). congruence.
        * eauto.
    - assert (Hone : forall t2 q h, t <> t2 -> nth_error (g_thr g) t2 = Some q ->
                pc_handle p' = Some h -> pc_handle q = Some h -> False).
      { intros t2 q h N Hq E1 E2. destruct (Hhd h E1) as [E|[E|E]].
        - apply N. apply (Hd t t2 p q h); auto.
        - pose proof (pc_handle_len _ _ _ q h (Hpc t2 q Hq) E2). lia.
        - assert (busy h (g_thr g) = true); [|congruence].
          apply existsb_exists. exists q. split; [apply (nth_error_In _ _ Hq)|].
          rewrite E2. apply Nat.eqb_refl. }
      intros t1 t2 p1 p2 h H1 H2 E1 E2.
      destruct (Nat.eq_dec t t1) as [<-|N1], (Nat.eq_dec t t2) as [<-|N2]; auto.
      + rewrite (nth_set_same _ _ _ _ Hp) in H1. inversion H1; subst p1.
        rewrite nth_set_other in H2 by exact N2. exfalso. eauto.
      + rewrite (nth_set_same _ _ _ _ Hp) in H2. inversion H2; subst p2.
        rewrite nth_set_other in H1 by exact N1. exfalso. eauto.
      + rewrite nth_set_other in H1 by exact N1. rewrite nth_set_other in H2 by exact N2.
        apply (Hd t1 t2 p1 p2 h); auto.
  Qed.

  (** ** The lock *)

  Lemma lock_same k thr t p p' : nth_error thr t = Some p ->
    reading p' = reading p -> writing p' = writing p -> lock_ok k thr -> lock_ok k (set_nth t p' thr).
  Proof.
    intros Hp Er Ew (H1 & H2 & H3).
    assert (X : forall (f : pc -> bool) t2, f p' = f p ->
      (exists q, nth_error thr t2 = Some q /\ f q = true) <->
      (exists q, nth_error (set_nth t p' thr) t2 = Some q /\ f q = true)).
    { intros f t2 Ef. destruct (Nat.eq_dec t t2) as [<-|N].
      - rewrite (nth_set_same _ _ _ _ Hp), Hp. split; intros (q & Eq & Hq); inversion Eq; subst;
          eexists; (split; [reflexivity|congruence]).
      - rewrite nth_set_other by exact N. reflexivity. }
    split; [|split; [|exact H3]].
    - intros t2. rewrite (H1 t2). apply X, Er.
    - intros t2. rewrite (H2 t2). apply X, Ew.
  Qed.

  Lemma lock_read k thr t p p' : nth_error thr t = Some p ->
    reading p = false -> writing p = false -> reading p' = true -> writing p' = false ->
    lk_writer k = None -> lock_ok k thr -> lock_ok (with_reader t k) (set_nth t p' thr).
  Proof.
    intros Hp Er Ew Er' Ew' Hw (H1 & H2 & H3).
    assert (X : forall (f : pc -> bool) t2, f p' = f p ->
      (exists q, nth_error thr t2 = Some q /\ f q = true) <->
      (exists q, nth_error (set_nth t p' thr) t2 = Some q /\ f q = true)).
    { intros f t2 Ef. destruct (Nat.eq_dec t t2) as [<-|N].
      - rewrite (nth_set_same _ _ _ _ Hp), Hp. split; intros (q & Eq & Hq); inversion Eq; subst;
          eexists; (split; [reflexivity|congruence]).
      - rewrite nth_set_other by exact N. reflexivity. }
    unfold with_reader. split; [|split]; cbn [lk_readers lk_writer].
    - intros t2. cbn [In]. destruct (Nat.eq_dec t t2) as [<-|N].
      + rewrite (nth_set_same _ _ _ _ Hp). split; [eauto|auto].
      + rewrite nth_set_other by exact N. rewrite (H1 t2). intuition congruence.
    - intros t2. rewrite (H2 t2). apply X. congruence.
    - congruence.
  Qed.

  Lemma lock_write k thr t p p' : nth_error thr t = Some p ->
    reading p = false -> writing p = false -> reading p' = false -> writing p' = true ->
    lk_writer k = None -> lk_readers k = [] -> lock_ok k thr -> lock_ok (mkLock [] (Some t)) (set_nth t p' thr).
  Proof.
    intros Hp Er Ew Er' Ew' Hw Hr (H1 & H2 & H3).
    split; [|split]; cbn [lk_readers lk_writer].
    - intros t2. cbn [In]. split; [tauto|]. intros (q & Eq & Hq).
      destruct (Nat.eq_dec t t2) as [<-|N].
      + rewrite (nth_set_same _ _ _ _ Hp) in Eq. inversion Eq; subst. congruence.
      + rewrite nth_set_other in Eq by exact N.
        assert (In t2 (lk_readers k)) by (apply H1; eauto). rewrite Hr in *. contradiction.
    - intros t2. split.
      + intros E; inversion E; subst t2. rewrite (nth_set_same _ _ _ _ Hp). eauto.
      + intros (q & Eq & Hq). destruct (Nat.eq_dec t t2) as [<-|N]; [reflexivity|].
        rewrite nth_set_other in Eq by exact N.
        assert (lk_writer k = Some t2) by (apply H2; eauto). congruence.
    - reflexivity.
  Qed.

  Lemma lock_release k thr t p p' wr : nth_error thr t = Some p ->
    reading p = negb wr -> writing p = wr -> reading p' = false -> writing p' = false ->
    lock_ok k thr -> lock_ok (without t wr k) (set_nth t p' thr).
  Proof.
    intros Hp Er Ew Er' Ew' (H1 & H2 & H3).
    assert (Hr : forall t2, t2 <> t -> In t2 (lk_readers k) <->
                 exists q, nth_error (set_nth t p' thr) t2 = Some q /\ reading q = true).
    { intros t2 N. rewrite nth_set_other by congruence. apply H1. }
    assert (Hw : forall t2, t2 <> t -> lk_writer k = Some t2 <->
                 exists q, nth_error (set_nth t p' thr) t2 = Some q /\ writing q = true).
    { intros t2 N. rewrite nth_set_other by congruence. apply H2. }
    assert (Hn : forall (f : pc -> bool), f p' = false ->
                 ~ exists q, nth_error (set_nth t p' thr) t = Some q /\ f q = true).
    { intros f E (q & Eq & Hq). rewrite (nth_set_same _ _ _ _ Hp) in Eq. inversion Eq; subst. congruence. }
    destruct wr; cbn in Er; unfold without; (split; [|split]); cbn [lk_readers lk_writer].
    - intros t2. destruct (Nat.eq_dec t2 t) as [->|N]; [|apply Hr; exact N].
      split; [|intros X; destruct (Hn _ Er' X)].
      rewrite H1. intros (q & Eq & Hq). congruence.
    - intros t2. destruct (Nat.eq_dec t2 t) as [->|N].
      + split; [discriminate|intros X; destruct (Hn _ Ew' X)].
      + rewrite <- (Hw t2 N). split; [discriminate|].
        assert (lk_writer k = Some t) by (apply H2; eauto). congruence.
    - congruence.
    - intros t2. destruct (Nat.eq_dec t2 t) as [->|N].
      + split; [intros X; destruct (remove_In _ _ _ X)|intros X; destruct (Hn _ Er' X)].
      + rewrite <- (Hr t2 N). split; [apply in_remove|]. intros X. apply in_in_remove; auto.
    - intros t2. destruct (Nat.eq_dec t2 t) as [->|N].
      + split; [|intros X; destruct (Hn _ Ew' X)]. rewrite H2. intros (q & Eq & Hq). congruence.
      + apply Hw. exact N.
    - intros N. rewrite (H3 N). reflexivity.
  Qed.
End Facts.

(** The invariant of an arena that has the underlying allocator to itself. *)
Definition cinvx (su : setup) (cs : list chunk) (g : gst) (s : list (option sbuf)) : Prop :=
  arep (su_amax su) (bot su) (base_own (su_amax su) (su_bmax su)) [] cs (fst (g_aw g)) (snd (g_aw g))
    (live (g_tab g) ++ flat_map hold (g_thr g)) /\
  map c_u cs = outstanding (bw_trace (snd (g_aw g))) /\
  ar_min (fst (g_aw g)) = su_min su /\
  agrees (bw_mem (snd (g_aw g))) (g_tab g) s /\
  lock_ok (g_lock g) (g_thr g) /\
  (forall t p, nth_error (g_thr g) t = Some p ->
     pc_ok su cs (g_tab g) (bw_mem (snd (g_aw g))) p) /\
  (forall t1 t2 p1 p2 h, nth_error (g_thr g) t1 = Some p1 -> nth_error (g_thr g) t2 = Some p2 ->
     pc_handle p1 = Some h -> pc_handle p2 = Some h -> t1 = t2).
Definition cinv (su : setup) (g : gst) (s : list (option sbuf)) : Prop := exists cs, cinvx su cs g s.

Lemma sole_inv su m0 g s : cinv su g s <-> xinv su true [] m0 g s.
Proof.
  split; intros (cs & H); exists cs; unfold cinvx, xinvx, rest_ok in *.
  - destruct H as (H1 & H2 & H). auto.
  - destruct H as (H1 & (_ & H2) & H). auto.
Qed.
