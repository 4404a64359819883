(** Every step of the concurrent machine keeps its actions free of races. *)
From Coq Require Import Permutation.
From Verif Require Import Base BaseFacts Alloc AllocFacts Arena ArenaFacts ArenaInv ArenaOps
  BlinkAlloc BlinkFacts History HistoryFacts Setup SetupFacts SetupOps Conc ConcFacts ConcSteps ConcProps
  Race RaceFacts.

Definition own_of (g : gst) (t h : nat) : Prop :=
  exists p, nth_error (g_thr g) t = Some p /\ pc_handle p = Some h.
Definition hold_of (g : gst) (t : nat) (u : ublock) : Prop :=
  exists p, nth_error (g_thr g) t = Some p /\ In u (hold p).
Definition S_of (cs : list chunk) (g : gst) : st := mkSt cs (g_tab g) (own_of g) (hold_of g) (g_lock g).

(** What holds of a thread after one thread has moved. *)
Lemma at_set (P : pc -> Prop) thr t p p' t' : nth_error thr t = Some p ->
  (exists q, nth_error (set_nth t p' thr) t' = Some q /\ P q) <->
  (t' = t /\ P p') \/ (t' <> t /\ exists q, nth_error thr t' = Some q /\ P q).
Proof.
  intros Hp. destruct (Nat.eq_dec t' t) as [->|N].
  - rewrite (nth_set_same _ _ _ _ Hp). split.
    + intros (q & E & H). inversion E; subst q. left. auto.
    + intros [(_ & H)|(N & _)]; [exists p'; auto|congruence].
  - rewrite nth_set_other by congruence. split; [intros H; right; auto|].
    intros [(E & _)|(_ & H)]; [congruence|exact H].
Qed.

Lemma at_same (P : pc -> Prop) thr t p p' t' : nth_error thr t = Some p -> (P p' <-> P p) ->
  (exists q, nth_error (set_nth t p' thr) t' = Some q /\ P q) <-> (exists q, nth_error thr t' = Some q /\ P q).
Proof.
  intros Hp H. rewrite (at_set P thr t p p' t' Hp). split.
  - intros [(-> & Hx)|(_ & Hx)]; [exists p; split; [exact Hp|apply H; exact Hx]|exact Hx].
  - intros (q & Hq & Hx). destruct (Nat.eq_dec t' t) as [->|N].
    + left. split; [reflexivity|]. apply H. replace p with q by congruence. exact Hx.
    + right. split; [exact N|]. exists q. auto.
Qed.

Section Steps.
  Variable su : setup.
  Hypothesis Hok : setup_ok su.
  Notation amax := (su_amax su).
  Notation A := (bot su).
  Notation dbg := (su_dbg su).
  Notation ctx := (su_ct su Hok).
  Notation brep := (arep (su_amax su) (bot su) (base_own (su_amax su) (su_bmax su))).

  Lemma wf_of cs g s : cinvx su cs g s -> wf (S_of cs g).
  Proof.
    intros (R & Hh & Hm & Ha & Hlk & Hpc & Hd).
    assert (Ht : forall h u, get h (g_tab g) = Some u -> In u (live (g_tab g) ++ flat_map hold (g_thr g))).
    { intros h u G. apply in_or_app. left. apply live_in. eauto. }
    assert (Hhd : forall t u, hold_of g t u -> In u (live (g_tab g) ++ flat_map hold (g_thr g))).
    { intros t u (p & Hp & Hu). apply in_or_app. right. apply in_flat_map. exists p.
      split; [apply (nth_error_In _ _ Hp)|exact Hu]. }
    assert (Hin : forall u x, In u (live (g_tab g) ++ flat_map hold (g_thr g)) -> in_u x u ->
              exists c, In c cs /\ in_used c x).
    { intros u x Hu Hx. pose proof (ar_placed _ _ _ _ _ _ _ _ R) as P. unfold placed in P.
      rewrite Forall_forall in P. destruct (P u Hu) as (c & Hc & P1 & P2). exists c. split; [exact Hc|].
      unfold in_u in Hx. split; lia. }
    pose proof (ar_disj _ _ _ _ _ _ _ _ R) as D. apply pairwise_app in D. destruct D as (D1 & D2 & D3).
    constructor; cbn [S_of s_cs s_tab s_own s_hold s_lk].
    - intros c Hc. destruct (arep_chunk_ok _ _ _ _ ctx _ _ _ _ _ c R Hc) as ((_ & _ & W) & _). exact W.
    - intros c1 c2 x H1 H2 X1 X2. destruct (arep_two _ _ _ _ ctx _ _ _ _ _ c1 c2 R H1 H2) as [E|E]; [exact E|].
      unfold sep in E. lia.
    - intros h u x G Hx. apply (Hin u x); eauto.
    - intros t u x G Hx. apply (Hin u x); eauto.
    - intros h1 h2 u1 u2 x G1 G2 X1 X2. destruct (Nat.eq_dec h1 h2) as [E|N]; [exact E|exfalso].
      apply (get_pairwise disjoint_u disjoint_u_sym (g_tab g) h1 h2 u1 u2 D1 N G1 G2 x X1 X2).
    - intros h u1 t u2 x G (p & Hp & Hu) X1 X2. refine (D3 u1 u2 _ _ x X1 X2).
      + apply live_in. eauto.
      + apply in_flat_map. exists p. split; [apply (nth_error_In _ _ Hp)|exact Hu].
    - intros t1 t2 u1 u2 x (p1 & Hp1 & Hu1) (p2 & Hp2 & Hu2) X1 X2.
      destruct (Nat.eq_dec t1 t2) as [E|N]; [exact E|exfalso].
      destruct (hold_split _ _ _ Hp1) as (rest & P1 & P2). specialize (P1 p1).
      rewrite (set_nth_same _ _ _ Hp1) in P1.
      apply (pairwise_perm disjoint_u disjoint_u_sym _ _ P1) in D2. apply pairwise_app in D2.
      destruct D2 as (_ & _ & D2). refine (D2 u1 u2 Hu1 _ x X1 X2). apply (P2 t2 p2); auto.
    - intros t1 t2 h (p1 & Hp1 & E1) (p2 & Hp2 & E2). apply (Hd t1 t2 p1 p2 h); auto.
    - apply Hlk.
  Qed.

  Lemma chain_load m cs c : chain m cs -> In c cs -> load m (c_ptr c + CURSOR) 8 = Some (c_cur c).
  Proof.
    induction cs as [|d cs IH]; cbn [chain In]; [tauto|].
    intros (_ & (H & _) & H3) [<-|Hc]; [exact H|apply IH; assumption].
  Qed.

  (** The chunks after a step. *)
  Lemma chunks_adv cs g s cs' g' s' : cinvx su cs g s -> cinvx su cs' g' s' -> cheld g' = cheld g ->
    (forall c v, In c cs -> load (cmem g') (c_ptr c + CURSOR) 8 = Some v -> c_cur c <= v) ->
    Forall2 advances cs cs'.
  Proof.
    intros (R & Hh & _) (R' & Hh' & _) E H.
    assert (Em : map c_u cs' = map c_u cs) by (rewrite Hh, Hh'; exact E).
    pose proof (ar_chain _ _ _ _ _ _ _ _ R') as Hch.
    assert (Hl : forall c', In c' cs' -> load (cmem g') (c_ptr c' + CURSOR) 8 = Some (c_cur c')).
    { intros c' Hc'. apply (chain_load _ cs'); auto. }
    clear -Em H Hl. revert cs Em H. induction cs' as [|c' cs' IH]; intros [|c cs] Em H; try discriminate; constructor.
    - inversion Em as [[E1 E2]]. split; [exact E1|]. apply (H c (c_cur c') (or_introl eq_refl)).
      replace (c_ptr c) with (c_ptr c') by (unfold c_ptr; rewrite E1; reflexivity). apply Hl. left; reflexivity.
    - inversion Em. apply IH; auto.
      + intros d Hd. apply Hl. right; exact Hd.
      + intros d v Hd. apply H. right; exact Hd.
  Qed.

  Lemma chunks_same cs g s cs' g' s' : cinvx su cs g s -> cinvx su cs' g' s' -> cheld g' = cheld g ->
    (forall c, In c cs -> same_header c g g') -> cs' = cs.
  Proof.
    intros C C' E H. pose proof C as (R & Hh & _). pose proof C' as (R' & Hh' & _).
    assert (Em : map c_u cs' = map c_u cs) by (rewrite Hh, Hh'; exact E).
    assert (Hl : forall c', In c' cs' -> load (cmem g') (c_ptr c' + CURSOR) 8 = Some (c_cur c')).
    { intros c' Hc'. apply (chain_load _ cs'); auto. apply (ar_chain _ _ _ _ _ _ _ _ R'). }
    assert (Hl0 : forall c, In c cs -> load (cmem g') (c_ptr c + CURSOR) 8 = Some (c_cur c)).
    { intros c Hc. rewrite <- (chain_load (cmem g) cs c); auto.
      - apply load_ext; [lia|]. intros x Hx. apply (H c Hc). unfold c_base, HDR, CURSOR in *. lia.
      - apply (ar_chain _ _ _ _ _ _ _ _ R). }
    clear -Em Hl Hl0. revert cs Em Hl0. induction cs' as [|c' cs' IH]; intros [|c cs] Em Hl0; try discriminate; [reflexivity|].
    inversion Em as [[E1 E2]]. f_equal.
    - pose proof (Hl c' (or_introl eq_refl)) as H1. pose proof (Hl0 c (or_introl eq_refl)) as H2.
      destruct c as [u n], c' as [u' n']. unfold c_ptr in *. cbn [c_u c_cur] in *. congruence.
    - apply IH; auto.
      + intros d Hd. apply Hl. right; exact Hd.
      + intros d Hd. apply Hl0. right; exact Hd.
  Qed.

  Lemma advances_refl cs : Forall2 advances cs cs.
  Proof. induction cs as [|c cs IH]; constructor; [split; [reflexivity|lia]|exact IH]. Qed.

  (** ** Moving to another place of the code *)

  Lemma moved_good tr cs g g' S0 t p p' :
    nth_error (g_thr g) t = Some p -> g_thr g' = set_nth t p' (g_thr g) ->
    pc_handle p' = pc_handle p -> hold p' = hold p ->
    g_tab g' = g_tab g -> s_cs S0 = cs -> s_tab S0 = g_tab g -> s_own S0 = own_of g -> s_hold S0 = hold_of g ->
    s_lk S0 = g_lock g' -> good tr S0 -> good tr (S_of cs g').
  Proof.
    intros Hp Et Eh Ed Etab E1 E2 E3 E4 E5 G. apply (good_ext tr S0); auto; cbn [S_of s_cs s_tab s_lk s_own s_hold].
    - congruence.
    - intros t' h u _. rewrite E3. unfold own_of. rewrite Et. apply (at_same _ _ _ p); [exact Hp|].
      rewrite Eh. reflexivity.
    - intros t' u. rewrite E4. unfold hold_of. rewrite Et. apply (at_same _ _ _ p); [exact Hp|].
      rewrite Ed. reflexivity.
  Qed.

  (** ** The job takes effect *)

  Lemma finish_good tr cs' g g' s' S0 t p j wr r :
    good tr S0 -> wf S0 -> s_tab S0 = g_tab g -> s_own S0 = own_of g -> s_hold S0 = hold_of g ->
    s_lk S0 = g_lock g' -> holds (g_lock g') t ->
    nth_error (g_thr g) t = Some p -> pc_handle p = job_handle j -> job_ok su (g_tab g) j ->
    cinvx su cs' g' s' -> Forall2 advances (s_cs S0) cs' ->
    g_tab g' = fin_tab j r (g_tab g) ->
    g_thr g' = set_nth t (Unlock wr None (fin_handle j r (g_tab g))) (g_thr g) ->
    (forall b x, r = Some b -> b_ptr b <= x < b_ptr b + b_len b ->
       match j with JDealloc _ _ _ => False | _ => True end -> origin S0 t x) ->
    good tr (S_of cs' g').
  Proof.
    intros G W Etab Eown Ehold Elk Hh Hp Ej Hj C' Hcs Et Eth Ho.
    pose proof (wf_of cs' g' s' C') as W'.
    apply (good_move tr S0 (S_of cs' g') t); auto; cbn [S_of s_cs s_tab s_lk s_own s_hold].
    - rewrite Elk. exact Hh.
    - rewrite Etab, Eown. intros h u Gh.
      destruct (job_handle j) as [h'|] eqn:Ejh.
      + destruct (Nat.eq_dec h' h) as [->|N].
        * left. exists p. split; [exact Hp|congruence].
        * right. rewrite Et. apply fin_tab_other; [congruence|exact Gh].
      + right. rewrite Et. apply fin_tab_other; [congruence|exact Gh].
    - rewrite Ehold. intros t' u (q & Hq & Hu). destruct (Nat.eq_dec t' t) as [->|N]; [left; reflexivity|right].
      unfold hold_of. rewrite Eth. apply (at_set _ _ _ p _ _ Hp). right. split; [exact N|]. eauto.
    - rewrite Etab, Eown. intros h u x Gh Hx.
      assert (Hown' : fin_handle j r (g_tab g) = Some h -> own_of g' t h).
      { intros E. unfold own_of. rewrite Eth. apply (at_set _ _ _ p _ _ Hp). left. auto. }
      assert (Hone : fin_handle j r (g_tab g) = Some h -> forall t', own_of g' t' h -> t' = t).
      { intros E t' H. apply (w_own _ W' t' t h H). apply Hown'. exact E. }
      assert (Hsame : (pc_handle p = Some h <-> fin_handle j r (g_tab g) = Some h) ->
                forall t', own_of g' t' h <-> own_of g t' h).
      { intros E t'. unfold own_of. rewrite Eth. apply (at_same _ _ _ p); [exact Hp|].
        cbn [pc_handle]. rewrite E. reflexivity. }
      rewrite Et in Gh. rewrite Ej in Hsame.
      destruct j as [l|h0 u0 old new|h0 u0 l]; cbn [fin_tab fin_handle job_handle] in *.
      + destruct r as [b|]; [|left; split; [exact Gh|apply Hsame; reflexivity]].
        destruct (Nat.lt_ge_cases h (length (g_tab g))) as [L|L].
        * left. split; [rewrite <- Gh; unfold get; rewrite nth_error_app1 by exact L; reflexivity|].
          apply Hsame. split; [discriminate|]. intros E; inversion E; lia.
        * assert (E : h = length (g_tab g)).
          { assert (h < length (g_tab g ++ [Some (mkU (b_ptr b) (b_len b) l)]))%nat by (apply (get_len _ _ u); exact Gh).
            rewrite app_length in *. cbn in *. lia. }
          subst h. right. split; [|split; [apply Hown'; reflexivity|apply Hone; reflexivity]].
          apply (Ho b x eq_refl); [|exact I]. unfold get in Gh.
          rewrite nth_error_app2, Nat.sub_diag in Gh by lia. cbn in Gh. inversion Gh; subst u. exact Hx.
      + destruct r as [b|]; [|left; split; [exact Gh|apply Hsame; reflexivity]].
        destruct (Nat.eq_dec h0 h) as [->|N].
        * right. split; [|split; [apply Hown'; reflexivity|apply Hone; reflexivity]].
          apply (Ho b x eq_refl); [|exact I]. destruct Hj as (Hj & _).
          unfold get in Gh, Hj. destruct (nth_error (g_tab g) h) as [o|] eqn:En; [|discriminate].
          rewrite (nth_set_same _ _ _ _ En) in Gh. inversion Gh; subst u. exact Hx.
        * left. rewrite get_set_other in Gh by exact N. split; [exact Gh|]. apply Hsame. split; congruence.
      + assert (N : h0 <> h).
        { intros ->. destruct Hj as (Hj & _). unfold get in Gh, Hj.
          destruct (nth_error (g_tab g) h) as [o|] eqn:En; [|discriminate].
          rewrite (nth_set_same _ _ _ _ En) in Gh. discriminate. }
        left. destruct r; rewrite get_set_other in Gh by exact N; (split; [exact Gh|]); apply Hsame; split; congruence.
    - rewrite Ehold. intros t' u x Hu _. left. unfold hold_of in *. rewrite Eth in Hu.
      apply (at_set _ _ _ p _ _ Hp) in Hu. destruct Hu as [(_ & [])|(_ & H)]. exact H.
  Qed.

  (** The job has a new block and copies to it. *)
  Lemma copying_good tr cs' g g' s' S0 t p h u old new b wr :
    good tr S0 -> wf S0 -> s_tab S0 = g_tab g -> s_own S0 = own_of g -> s_hold S0 = hold_of g ->
    s_lk S0 = g_lock g' -> holds (g_lock g') t ->
    nth_error (g_thr g) t = Some p -> pc_handle p = Some h -> 
    cinvx su cs' g' s' -> Forall2 advances (s_cs S0) cs' ->
    g_tab g' = g_tab g ->
    g_thr g' = set_nth t (Copy (JResize h u old new) b 0 wr) (g_thr g) ->
    (forall x, b_ptr b <= x < b_ptr b + b_len b -> origin S0 t x) ->
    good tr (S_of cs' g').
  Proof.
    intros G W Etab Eown Ehold Elk Hh Hp Ej C' Hcs Et Eth Ho.
    pose proof (wf_of cs' g' s' C') as W'.
    assert (Hsame : forall t' h', own_of g' t' h' <-> own_of g t' h').
    { intros t' h'. unfold own_of. rewrite Eth. apply (at_same _ _ _ p); [exact Hp|].
      cbn [pc_handle job_handle]. rewrite Ej. reflexivity. }
    apply (good_move tr S0 (S_of cs' g') t); auto; cbn [S_of s_cs s_tab s_lk s_own s_hold].
    - rewrite Elk. exact Hh.
    - rewrite Etab, Et. auto.
    - rewrite Ehold. intros t' v (q & Hq & Hv). destruct (Nat.eq_dec t' t) as [->|N]; [left; reflexivity|right].
      unfold hold_of. rewrite Eth. apply (at_set _ _ _ p _ _ Hp). right. split; [exact N|]. eauto.
    - rewrite Etab, Et, Eown. intros h' v x Gh _. left. auto.
    - rewrite Ehold. intros t' v x Hv Hx. unfold hold_of in *. rewrite Eth in Hv.
      apply (at_set _ _ _ p _ _ Hp) in Hv. destruct Hv as [(-> & [<-|[]])|(_ & H)]; [right|left; exact H].
      split; [reflexivity|]. apply Ho. exact Hx.
  Qed.

  Lemma chain_det m cs cs' : chain m cs -> chain m cs' -> map c_u cs' = map c_u cs -> cs' = cs.
  Proof.
    revert cs'. induction cs as [|c cs IH]; intros [|c' cs']; cbn [chain map]; intros H H' E; try discriminate; [reflexivity|].
    inversion E as [[E1 E2]]. destruct H as (_ & (H & _) & H2), H' as (_ & (H' & _) & H2').
    f_equal; [|apply IH; auto]. destruct c as [u n], c' as [u' n']. unfold c_ptr in *. cbn [c_u c_cur] in *. congruence.
  Qed.

  Lemma chunks_are cs' g' s' cs : cinvx su cs' g' s' -> chain (cmem g') cs -> map c_u cs = cheld g' -> cs' = cs.
  Proof.
    intros (R & Hh & _) H E. apply (chain_det (cmem g')); [exact H|apply (ar_chain _ _ _ _ _ _ _ _ R)|].
    rewrite Hh, E. reflexivity.
  Qed.

  Lemma again cs g s cs' s' : cinvx su cs g s -> cinvx su cs' g s' -> cs' = cs.
  Proof.
    intros (R & Hh & _) C'. apply (chunks_are _ _ _ _ C'); [apply (ar_chain _ _ _ _ _ _ _ _ R)|exact Hh].
  Qed.

  Lemma wf_lk S k : wf S -> (lk_writer k <> None -> lk_readers k = []) -> wf (with_lk S k).
  Proof. intros [W1 W2 W3 W4 W5 W6 W7 W8 W9] H. constructor; auto. Qed.

  Lemma wf_own S (own : nat -> nat -> Prop) : wf S -> (forall t1 t2 h, own t1 h -> own t2 h -> t1 = t2) -> wf (with_own S own).
  Proof. intros [W1 W2 W3 W4 W5 W6 W7 W8 W9] H. constructor; auto. Qed.

  Lemma wf_chunk S c : wf S -> c_base c <= c_cur c <= c_end c ->
    (forall d x, In d (s_cs S) -> c_ptr c <= x < c_end c -> c_ptr d <= x < c_end d -> False) ->
    wf (mkSt (c :: s_cs S) (s_tab S) (s_own S) (s_hold S) (s_lk S)).
  Proof.
    intros [W1 W2 W3 W4 W5 W6 W7 W8 W9] H H1. constructor; cbn [s_cs s_tab s_own s_hold s_lk]; auto.
    - intros d [<-|Hd]; auto.
    - intros c1 c2 x [<-|H2] [<-|H3] X1 X2; [reflexivity| | |apply (W2 c1 c2 x); assumption].
      + destruct (H1 c2 x H3 X1 X2).
      + destruct (H1 c1 x H2 X2 X1).
    - intros h u x G Hx. destruct (W3 h u x G Hx) as (d & Hd & Hu). exists d. split; [right; exact Hd|exact Hu].
    - intros t u x G Hx. destruct (W4 t u x G Hx) as (d & Hd & Hu). exists d. split; [right; exact Hd|exact Hu].
  Qed.

  Lemma may_cursor cs g t r q : (exists e, root_is cs r e) -> holds (g_lock g) t ->
    touches (Bytes (r + CURSOR) 8) q -> may (S_of cs g) t Atomic q.
  Proof.
    intros (e & Hr) Hh T. destruct cs as [|c cs]; [contradiction|]. destruct Hr as [<- _].
    destruct q as [|x]; cbn in T; [contradiction|]. left. exists c. split; [left; reflexivity|].
    split; [unfold in_hdr, c_base, HDR, CURSOR in *; lia|]. right. split; [exact Hh|]. left. auto.
  Qed.
  Lemma may_end cs g t r q : (exists e, root_is cs r e) -> holds (g_lock g) t ->
    touches (Bytes (r + END) 8) q -> may (S_of cs g) t NaRead q.
  Proof.
    intros (e & Hr) Hh T. destruct cs as [|c cs]; [contradiction|]. destruct Hr as [<- _].
    destruct q as [|x]; cbn in T; [contradiction|]. left. exists c. split; [left; reflexivity|].
    split; [unfold in_hdr, c_base, HDR, END in *; lia|]. right. split; [exact Hh|]. right. auto.
  Qed.

  Lemma reader_holds cs g s t p : cinvx su cs g s -> nth_error (g_thr g) t = Some p -> reading p = true ->
    holds (g_lock g) t.
  Proof. intros (_ & _ & _ & _ & (L1 & _) & _) Hp Hr. left. apply L1. eauto. Qed.
  Lemma writer_is cs g s t p : cinvx su cs g s -> nth_error (g_thr g) t = Some p -> writing p = true ->
    lk_writer (g_lock g) = Some t.
  Proof. intros (_ & _ & _ & _ & (_ & L2 & _) & _) Hp Hr. apply L2. eauto. Qed.

  Lemma cursor_good tr cs g s t r : cinvx su cs g s -> good tr (S_of cs g) -> holds (g_lock g) t ->
    (exists e, root_is cs r e) -> good (tr ++ [cursor_of t r]) (S_of cs g).
  Proof.
    intros C G Hh Hr. apply good_acc; auto; [apply (wf_of _ _ _ C)|]. intros q T. apply (may_cursor cs g t r); auto.
  Qed.
  Lemma end_good tr cs g s t r : cinvx su cs g s -> good tr (S_of cs g) -> holds (g_lock g) t ->
    (exists e, root_is cs r e) -> good (tr ++ [end_of t r]) (S_of cs g).
  Proof.
    intros C G Hh Hr. apply good_acc; auto; [apply (wf_of _ _ _ C)|]. intros q T. apply (may_end cs g t r); auto.
  Qed.
  Lemma two_good tr cs g a b : good ((tr ++ [a]) ++ [b]) (S_of cs g) -> good (tr ++ [a; b]) (S_of cs g).
  Proof. rewrite <- app_assoc. exact (fun H => H). Qed.

  (** What is to be shown of a step. *)
  Definition keeps (tr : list action) (es : list event) (g' : gst) : Prop :=
    forall cs' s', cinvx su cs' g' s' -> good tr (S_of cs' g').

  Lemma stay_keeps tr cs g s : cinvx su cs g s -> good tr (S_of cs g) -> wlp (ret []) g (keeps tr).
  Proof. intros C G. apply wlp_ret. intros cs' s' C'. rewrite (again _ _ _ _ _ C C'). exact G. Qed.

  Lemma become_keeps tr cs tab thr k ar w s t p p' : cinvx su cs (mkG tab thr k (ar, w)) s ->
    nth_error thr t = Some p -> good tr (S_of cs (mkG tab thr k (ar, w))) ->
    pc_handle p' = pc_handle p -> hold p' = hold p ->
    wlp (become t p' ;;; ret []) (mkG tab thr k (ar, w)) (keeps tr).
  Proof.
    intros C Hp G Eh Ed es g' E. inversion E; subst. cbn [g_tab g_thr g_lock g_aw]. intros cs' s' C'.
    assert (cs' = cs).
    { destruct C as (R & Hh & _). apply (chunks_are _ _ _ _ C'); [apply (ar_chain _ _ _ _ _ _ _ _ R)|exact Hh]. }
    subst cs'. apply (moved_good tr cs (mkG tab thr k (ar, w)) _ (S_of cs (mkG tab thr k (ar, w))) t p p'); auto.
  Qed.

  Lemma finish_keeps tr cs tab thr k ar w ar' w' s t p j wr r :
    cinvx su cs (mkG tab thr k (ar, w)) s -> nth_error thr t = Some p ->
    good tr (S_of cs (mkG tab thr k (ar, w))) -> holds k t -> pc_handle p = job_handle j -> job_ok su tab j ->
    (forall g' cs' s', g_aw g' = (ar', w') -> cinvx su cs' g' s' -> Forall2 advances cs cs') ->
    (forall b x, r = Some b -> b_ptr b <= x < b_ptr b + b_len b ->
       match j with JDealloc _ _ _ => False | _ => True end -> origin (S_of cs (mkG tab thr k (ar, w))) t x) ->
    wlp (finish t j wr r) (mkG tab thr k (ar', w')) (keeps tr).
  Proof.
    intros C Hp G Hh Ej Hj Hcs Ho es g' E. rewrite finish_eq in E. cbn [g_tab g_thr g_lock g_aw] in E.
    inversion E; subst. intros cs' s' C'.
    apply (finish_good tr cs' (mkG tab thr k (ar, w)) _ s' (S_of cs (mkG tab thr k (ar, w))) t p j wr r); auto.
    - apply (wf_of _ _ _ C).
    - eapply Hcs; [|exact C']. reflexivity.
  Qed.

  Lemma same_adv cs tab thr k ar w s : cinvx su cs (mkG tab thr k (ar, w)) s ->
    forall g' cs' s', g_aw g' = (ar, w) -> cinvx su cs' g' s' -> Forall2 advances cs cs'.
  Proof.
    intros (R & Hh & _) g' cs' s' E C'.
    rewrite (chunks_are cs' g' s' cs C'); [apply advances_refl| |].
    - unfold cmem. rewrite E. apply (ar_chain _ _ _ _ _ _ _ _ R).
    - unfold cheld. rewrite E. exact Hh.
  Qed.

  Ltac load_w v H := apply wlp_on_w; intros v ?w H; apply pure_load in H; destruct H as [-> H];
    cbn [g_tab g_thr g_lock g_aw fst snd]; cbn [g_aw snd] in H;
    change (al_mem (bot su)) with bw_mem in H.

  Lemma load_keeps tr cs tab thr k ar w s t j r sp :
    cinvx su cs (mkG tab thr k (ar, w)) s -> nth_error thr t = Some (Load j r) ->
    good tr (S_of cs (mkG tab thr k (ar, w))) ->
    wlp (go su t (Load j r) sp) (mkG tab thr k (ar, w)) (keeps (tr ++ [cursor_of t r])).
  Proof.
    intros C Hp G. pose proof (reader_holds _ _ _ _ _ C Hp eq_refl) as Hh.
    pose proof C as (_ & _ & _ & _ & _ & Hpc & _). destruct (Hpc _ _ Hp) as (_ & _ & Hr).
    cbn [go]. load_w v E. apply (become_keeps _ cs _ _ _ _ _ s _ (Load j r)); auto.
    apply (cursor_good _ _ _ s); auto.
  Qed.

  (** The cursor of the root chunk has been raised. *)
  Lemma raised c cs0 tab thr k ar w s n : cinvx su (c :: cs0) (mkG tab thr k (ar, w)) s -> c_cur c <= n ->
    forall g' cs' s', g_aw g' = (ar, al_set_mem A w (store (al_mem A w) (c_ptr c + CURSOR) 8 n)) ->
      cinvx su cs' g' s' -> Forall2 advances (c :: cs0) cs'.
  Proof.
    intros C L g' cs' s' E C'. apply (chunks_adv _ _ _ _ _ _ C C'); [unfold cheld; rewrite E; reflexivity|].
    pose proof C as (R & _). intros d v Hd Hv. unfold cmem in Hv. rewrite E in Hv.
    change (load (store (al_mem A w) (c_ptr c + CURSOR) 8 n) (c_ptr d + CURSOR) 8 = Some v) in Hv.
    destruct (arep_two _ _ _ _ ctx _ _ _ _ _ c d R (or_introl eq_refl) Hd) as [<-|S].
    - rewrite load_store_same in Hv by lia. inversion Hv; subst. exact L.
    - rewrite load_store_other in Hv.
      + pose proof (chain_load _ _ d (ar_chain _ _ _ _ _ _ _ _ R) Hd) as Hc. cbn [g_aw snd] in Hc. rewrite Hc in Hv.
        inversion Hv. lia.
      + lia.
      + destruct (arep_chunk_ok _ _ _ _ ctx _ _ _ _ _ c R (or_introl eq_refl)) as (_ & _ & _ & _ & H1 & _).
        destruct (arep_chunk_ok _ _ _ _ ctx _ _ _ _ _ d R Hd) as (_ & _ & _ & _ & H2 & _).
        unfold sep, c_end, HDR, CURSOR in *. lia.
  Qed.

  Lemma sub_val {W} d x y (w : W) b w' : sub_usize d x y w = ORet b w' -> y <= x -> b = x - y.
  Proof. unfold sub_usize. intros E L. replace (y <=? x) with true in E by lia. inversion E; reflexivity. Qed.

  Lemma bump_keeps tr t m g : wlp m g (keeps tr) -> wlp (ev <- m ;; ret (Bump t :: ev)) g (keeps tr).
  Proof. intros H. apply wlp_bind. intros es g' E. apply wlp_ret. exact (H es g' E). Qed.

  Lemma cas_keeps tr cs tab thr k ar w s t j r cursor sp :
    cinvx su cs (mkG tab thr k (ar, w)) s -> nth_error thr t = Some (Cas j r cursor) ->
    good tr (S_of cs (mkG tab thr k (ar, w))) ->
    wlp (go su t (Cas j r cursor) sp) (mkG tab thr k (ar, w)) (keeps (tr ++ [end_of t r; cursor_of t r])).
  Proof.
    intros C Hp G. pose proof (reader_holds _ _ _ _ _ C Hp eq_refl) as Hh.
    pose proof C as (R & _ & _ & _ & _ & Hpc & _). destruct (Hpc _ _ Hp) as (Hj & Tj & Hcur & Hr).
    cbn [g_tab g_thr g_lock g_aw fst snd] in *.
    assert (G2 : good (tr ++ [end_of t r; cursor_of t r]) (S_of cs (mkG tab thr k (ar, w)))).
    { apply two_good. apply (cursor_good _ _ _ s); auto. apply (end_good _ _ _ s); auto. }
    set (tr' := tr ++ _) in *. clearbody tr'.
    destruct (header_of su Hok _ _ _ _ _ R Hr) as (c & cs0 & -> & -> & L1 & L2 & P & B & Hend).
    assert (Hl : req_ok (su_smax su) (job_layout j)).
    { destruct j; cbn in Hj |- *; [exact Hj|tauto|contradiction]. }
    pose proof (su_smax_ok su Hok) as Hs. pose proof (su_amax_ok su Hok) as Hamax.
    cbn [go]. load_w e E1. rewrite L2 in E1. inversion E1; subst e.
    apply wlp_on_w. intros a w1 Ea. cbn [g_aw snd] in Ea.
    rewrite (alloc_attempt_eq dbg _ _ _ (su_smax su)) in Ea by (auto; lia). inversion Ea; subst a w1.
    cbn [g_tab g_thr g_lock g_aw fst snd].
    destruct (room cursor (c_end c) (job_layout j)) eqn:Rm.
    2: { apply (become_keeps _ (c :: cs0) _ _ _ _ _ s _ (Cas j (c_ptr c) cursor)); auto. }
    load_w v E2. rewrite L1 in E2. inversion E2; subst v.
    destruct (negb sp && (c_cur c =? cursor)) eqn:Ec.
    2: { apply (become_keeps _ (c :: cs0) _ _ _ _ _ s _ (Cas j (c_ptr c) cursor)); auto. }
    assert (cursor = c_cur c) by lia. subst cursor.
    destruct (req_ok_facts _ _ Hl) as (kk & _ & _ & Hpos & Hsz & _).
    destruct (round_up_spec (c_cur c) (l_align (job_layout j)) Hpos) as [Bd Hmod].
    set (ra := round_up (c_cur c) (l_align (job_layout j))) in *.
    assert (Hfit : ra + l_size (job_layout j) <= c_end c) by (unfold room in Rm; fold ra in Rm; lia).
    apply wlp_on_w. intros [] w' Es. inversion Es; subst w'; clear Es. cbn [g_tab g_thr g_lock g_aw fst snd].
    apply wlp_bind. intros len g1 E. pose proof (sub_val _ _ _ _ _ _ E ltac:(lia)) as Elen.
    apply pure_sub in E. subst g1.
    apply wlp_bind. intros [] g1 E. apply pure_assert in E. subst g1.
    apply wlp_bind. intros [] g1 E. apply pure_assert in E. subst g1.
    set (n := ra + l_size (job_layout j)) in *.
    assert (Ho : forall x, ra <= x < ra + len -> origin (S_of (c :: cs0) (mkG tab thr k (ar, w))) t x).
    { intros x Hx. right. right. exists c. split; [left; reflexivity|]. unfold in_free. lia. }
    pose proof (raised c cs0 tab thr k ar w s n C ltac:(unfold n; lia)) as Hcs.
    apply bump_keeps. unfold allocated. destruct j as [l|h u old new|h u l]; [| |contradiction].
    - apply (finish_keeps _ (c :: cs0) _ _ _ ar w _ _ s _ (Cas (JAlloc l) (c_ptr c) (c_cur c))); auto.
      intros b x Eb Hx _. inversion Eb; subst b. apply Ho. exact Hx.
    - intros es g' E. inversion E; subst. cbn [g_tab g_thr g_lock g_aw]. intros cs' s' C'.
      apply (copying_good tr' cs' (mkG tab thr k (ar, w)) _ s' (S_of (c :: cs0) (mkG tab thr k (ar, w))) t
               (Cas (JResize h u old new) (c_ptr c) (c_cur c)) h u old new
               (mkBlock ra (n - ra)) false); auto.
      + apply (wf_of _ _ _ C).
      + eapply Hcs; [|exact C']. reflexivity.
  Qed.

  Lemma tipload_keeps tr cs tab thr k ar w s t j r sp :
    cinvx su cs (mkG tab thr k (ar, w)) s -> nth_error thr t = Some (TipLoad j r) ->
    good tr (S_of cs (mkG tab thr k (ar, w))) ->
    wlp (go su t (TipLoad j r) sp) (mkG tab thr k (ar, w)) (keeps (tr ++ [cursor_of t r; end_of t r])).
  Proof.
    intros C Hp G. pose proof (reader_holds _ _ _ _ _ C Hp eq_refl) as Hh.
    pose proof C as (R & _ & _ & _ & _ & Hpc & _). destruct (Hpc _ _ Hp) as (Hj & Hr & Hj2).
    assert (G2 : good (tr ++ [cursor_of t r; end_of t r]) (S_of cs (mkG tab thr k (ar, w)))).
    { apply two_good. apply (end_good _ _ _ s); auto. apply (cursor_good _ _ _ s); auto. }
    destruct j as [l|h u old new|h u l]; try contradiction. cbn [go].
    apply wlp_bind. intros e g1 E. apply pure_ptr_add in E. destruct E as [-> _].
    assert (Hb : forall p', pc_handle p' = Some h -> hold p' = [] ->
      wlp (become t p' ;;; ret []) (mkG tab thr k (ar, w)) (keeps (tr ++ [cursor_of t r; end_of t r]))).
    { intros p' E1 E2. apply (become_keeps _ cs _ _ _ _ _ s _ (TipLoad (JResize h u old new) r)); auto. }
    load_w v E1. destruct (v =? e); [|apply Hb; reflexivity].
    destruct (checked_add (u_ptr u) (l_size new)); [|apply Hb; reflexivity].
    load_w v2 E2. destruct (v2 <? z); apply Hb; reflexivity.
  Qed.

  Lemma own_here cs tab thr k ar w s t p h : cinvx su cs (mkG tab thr k (ar, w)) s ->
    nth_error thr t = Some p -> pc_handle p = Some h -> s_own (S_of cs (mkG tab thr k (ar, w))) t h.
  Proof. intros _ Hp E. exists p. auto. Qed.

  Lemma tipcas_keeps tr cs tab thr k ar w s t j r cursor sp :
    cinvx su cs (mkG tab thr k (ar, w)) s -> nth_error thr t = Some (TipCas j r cursor) ->
    good tr (S_of cs (mkG tab thr k (ar, w))) ->
    wlp (go su t (TipCas j r cursor) sp) (mkG tab thr k (ar, w)) (keeps (tr ++ [cursor_of t r])).
  Proof.
    intros C Hp G. pose proof (reader_holds _ _ _ _ _ C Hp eq_refl) as Hh.
    pose proof C as (R & _ & _ & _ & _ & Hpc & _). destruct (Hpc _ _ Hp) as (Hjob & Hj2).
    cbn [g_tab g_thr g_lock g_aw fst snd] in *.
    destruct j as [l|h u old new|h u l]; try contradiction.
    destruct Hj2 as (Q1 & Q2 & -> & e & Hr & Q3).
    pose proof (cursor_good tr cs _ s t r C G Hh (ex_intro _ e Hr)) as G2.
    set (tr' := tr ++ _) in *. clearbody tr'.
    destruct (header_of su Hok _ _ _ _ r R (ex_intro _ e Hr)) as (c & cs0 & -> & -> & L1 & L2 & P & B & Hend).
    assert (e = c_end c) by (destruct Hr; congruence). subst e.
    pose proof Hjob as (Gt & (F1 & F2) & Hn). cbn [go].
    apply wlp_bind. intros e g1 E. apply pure_ptr_add in E. destruct E as [-> ->].
    load_w v E2. rewrite L1 in E2. inversion E2; subst v.
    set (p := TipCas (JResize h u old new) (c_ptr c) (u_ptr u + l_size old)) in *.
    destruct (Z.eqb_spec (c_cur c) (u_ptr u + l_size old)) as [Ec|Ec].
    2: { apply (become_keeps _ (c :: cs0) _ _ _ _ _ s _ p); auto. }
    apply wlp_on_w. intros [] w' Es. inversion Es; subst w'; clear Es. cbn [g_tab g_thr g_lock g_aw fst snd].
    assert (Hu : u_ok amax u).
    { pose proof (ar_ok _ _ _ _ _ _ _ _ R) as Ho. rewrite Forall_forall in Ho. apply Ho.
      apply in_or_app. left. apply live_in. eauto. }
    destruct Hu as (_ & _ & Hu).
    apply wlp_bind. intros len g1 E. pose proof (sub_val _ _ _ _ _ _ E ltac:(lia)) as Elen.
    apply pure_sub in E. subst g1.
    apply wlp_bind. intros [] g1 E. apply pure_assert in E. subst g1.
    apply bump_keeps.
    apply (finish_keeps _ (c :: cs0) _ _ _ ar w _ _ s _ p); auto.
    - apply (raised c cs0 tab thr k ar w s _ C). lia.
    - intros b x Eb Hx _. inversion Eb; subst b. cbn [b_ptr b_len] in Hx.
      destruct (Z.lt_ge_cases x (u_ptr u + l_size old)) as [Lx|Lx].
      + right. left. exists h, u. split; [exact Gt|]. split; [unfold in_u; lia|]. exists p. auto.
      + right. right. exists c. split; [left; reflexivity|]. unfold in_free. lia.
  Qed.

  Lemma freecas_keeps tr cs tab thr k ar w s t j r sp :
    cinvx su cs (mkG tab thr k (ar, w)) s -> nth_error thr t = Some (FreeCas j r) ->
    good tr (S_of cs (mkG tab thr k (ar, w))) ->
    wlp (go su t (FreeCas j r) sp) (mkG tab thr k (ar, w)) (keeps (tr ++ [cursor_of t r])).
  Proof.
    intros C Hp G. pose proof (reader_holds _ _ _ _ _ C Hp eq_refl) as Hh.
    pose proof C as (R & Hhe & _ & _ & _ & Hpc & _). destruct (Hpc _ _ Hp) as (Hj & Hr & Hj2).
    cbn [g_tab g_thr g_lock g_aw fst snd] in *.
    pose proof (cursor_good tr cs _ s t r C G Hh Hr) as G2.
    set (tr' := tr ++ _) in *. clearbody tr'.
    destruct (header_of su Hok _ _ _ _ r R Hr) as (c & cs0 & -> & -> & _).
    destruct j as [l|h u old new|h u l]; try contradiction. cbn [go].
    set (p := FreeCas (JDealloc h u l) (c_ptr c)) in *.
    pose proof Hj as (Gt & F). pose proof F as (F1 & F2).
    destruct (tab_split _ _ _ Gt) as (l0 & P1 & _).
    assert (R1 : brep [] (c :: cs0) ar w (u :: l0 ++ flat_map hold thr)).
    { refine (arep_perm _ _ _ _ _ _ _ _ _ _ R). rewrite P1. reflexivity. }
    assert (Hu : u_ok amax u).
    { pose proof (ar_ok _ _ _ _ _ _ _ _ R1) as Ho. inversion Ho; assumption. }
    destruct Hu as (_ & _ & Hu).
    apply wlp_on_w. intros [] w' E. cbn [g_tab g_thr g_lock g_aw fst snd] in *.
    pose proof (chunk_dealloc_ok amax (su_bmax su) A (base_own (su_amax su) (su_bmax su)) ctx (su_amax_ok su Hok)
                  [] c cs0 ar w u _ (l_size l) R1 ltac:(lia)) as H.
    unfold wp in H. rewrite E in H. destruct H as (Q & _ & R2).
    apply (finish_keeps _ (c :: cs0) _ _ _ ar w _ _ s _ p); auto.
    - intros g' cs' s' Eg C'. rewrite (chunks_are cs' g' s' (c :: cs0) C'); [apply advances_refl| |].
      + unfold cmem. rewrite Eg. apply (ar_chain _ _ _ _ _ _ _ _ R2).
      + unfold cheld. rewrite Eg. cbn [snd]. rewrite (quiet_trace su _ _ Q). exact Hhe.
    - intros b x Eb. discriminate.
  Qed.

  Lemma copy_keeps tr cs tab thr k ar w s t j b i wr sp g0 :
    cinvx su cs (mkG tab thr k (ar, w)) s -> nth_error thr t = Some (Copy j b i wr) ->
    good tr (S_of cs (mkG tab thr k (ar, w))) ->
    wlp (go su t (Copy j b i wr) sp) (mkG tab thr k (ar, w))
      (keeps (tr ++ go_acts t (Copy j b i wr) (mkG tab thr k (ar, w)) g0)).
  Proof.
    intros C Hp G. set (p := Copy j b i wr) in *.
    assert (Hh : holds k t).
    { destruct wr.
      - right. apply (writer_is _ _ _ _ _ C Hp). reflexivity.
      - apply (reader_holds _ _ _ _ _ C Hp). reflexivity. }
    pose proof C as (R & Hhe & _ & _ & _ & Hpc & _). pose proof (Hpc _ _ Hp) as (Hj & Hj2).
    cbn [g_tab g_thr g_lock g_aw fst snd] in *.
    destruct j as [l|h u old new|h u l]; try contradiction.
    destruct Hj2 as (Hg & Hi & _). pose proof Hj as (Gt & (F1 & F2) & Hn). pose proof Hg as (_ & _ & Hb & _).
    assert (Hst : forall c, In c cs -> wlp (go su t p sp) (mkG tab thr k (ar, w)) (bump_or_same t c (mkG tab thr k (ar, w)))).
    { intros c Hc. apply (go_mem su Hok cs _ s); auto. unfold p. discriminate. }
    intros es g' E. assert (Hm : forall c, In c cs -> bump_or_same t c (mkG tab thr k (ar, w)) es g').
    { intros c Hc. apply (Hst c Hc). exact E. }
    clear Hst. revert es g' E Hm. unfold p at 1. cbn [go].
    set (n := Z.min (l_size new) (l_size old)) in *.
    destruct (negb _); [discriminate|].
    assert (Eg : go_acts t p (mkG tab thr k (ar, w)) g0 =
      if i <? n then [Acc t (Bytes (u_ptr u + i) 1) NaRead; Acc t (Bytes (b_ptr b + i) 1) NaWrite] else []) by reflexivity.
    rewrite Eg. clear Eg. intros es g' E Hm cs' s' C'. revert E.
    destruct (Z.ltb_spec i n) as [Lt|Ge].
    - unfold bind, on_w, on_aw, with_aw, become, ret. cbn [fst snd g_aw g_tab g_thr g_lock].
      intros E; inversion E; subst; clear E.
      assert (cs' = cs).
      { apply (chunks_same _ _ _ _ _ _ C C'); [reflexivity|]. intros c Hc. destruct (Hm c Hc) as [[]|H]. exact H. }
      subst cs'.
      apply (moved_good _ cs (mkG tab thr k (ar, w)) _ (S_of cs (mkG tab thr k (ar, w))) t p
               (Copy (JResize h u old new) b (i + 1) wr)); auto.
      pose proof (wf_of _ _ _ C) as W.
      apply two_good. apply good_acc; auto; [apply good_acc; auto|].
      + intros [|x] T; cbn in T; [contradiction|]. right; right; right; left. exists h, u.
        split; [exact Gt|]. split; [unfold in_u; lia|]. exists p. auto.
      + intros [|x] T; cbn in T; [contradiction|]. right; right; right; right.
        exists (mkU (b_ptr b) (b_len b) new). split; [|unfold in_u; cbn; lia].
        exists p. split; [exact Hp|]. left. reflexivity.
    - rewrite app_nil_r. intros E.
      refine (finish_keeps tr cs tab thr k ar w ar w s t p (JResize h u old new) wr (Some b) C Hp G Hh eq_refl Hj _ _ es g' E cs' s' C').
      + apply (same_adv _ _ _ _ _ _ _ C).
      + intros b0 x Eb Hx _. inversion Eb; subst b0. left. exists (mkU (b_ptr b) (b_len b) new).
        split; [|exact Hx]. exists p. split; [exact Hp|]. left. reflexivity.
  Qed.

  Lemma unlock_keeps tr cs tab thr k ar w s t wr nxt h sp g0 :
    cinvx su cs (mkG tab thr k (ar, w)) s -> nth_error thr t = Some (Unlock wr nxt h) ->
    good tr (S_of cs (mkG tab thr k (ar, w))) ->
    wlp (go su t (Unlock wr nxt h) sp) (mkG tab thr k (ar, w))
      (keeps (tr ++ go_acts t (Unlock wr nxt h) (mkG tab thr k (ar, w)) g0)).
  Proof.
    intros C Hp G. pose proof C as (R & Hhe & _ & _ & Hlk & Hpc & _). pose proof (Hpc _ _ Hp) as Hj.
    cbn [g_tab g_thr g_lock g_aw fst snd] in *. set (p := Unlock wr nxt h) in *.
    set (a := if wr then WUnlock t else RUnlock t).
    assert (G1 : good (tr ++ [a]) (with_lk (S_of cs (mkG tab thr k (ar, w))) (without t wr k))).
    { destruct Hlk as (L1 & L2 & L3). unfold a. destruct wr.
      - assert (E : lk_writer k = Some t) by (apply L2; exists p; auto).
        apply (good_wunlock tr (S_of cs (mkG tab thr k (ar, w)))); auto. apply L3. congruence.
      - apply (good_runlock tr (S_of cs (mkG tab thr k (ar, w)))); auto. cbn.
        assert (E : In t (lk_readers k)) by (apply L1; exists p; auto).
        destruct (lk_writer k) eqn:Ew; [|reflexivity]. rewrite L3 in E by congruence. contradiction. }
    unfold p. cbn [go go_acts]. fold a. intros es g'. unfold bind, get_g, put_lock, become, ret.
    assert (Hcs : forall p' cs' s', cinvx su cs' (mkG tab (set_nth t p' thr) (without t wr k) (ar, w)) s' -> cs' = cs).
    { intros p' cs' s' C'. apply (chunks_are _ _ _ _ C'); [apply (ar_chain _ _ _ _ _ _ _ _ R)|exact Hhe]. }
    destruct nxt as [j|]; cbn [g_tab g_thr g_lock g_aw]; intros E; inversion E; subst; clear E; intros cs' s' C'.
    - rewrite (Hcs _ _ _ C').
      apply (moved_good _ cs (mkG tab thr k (ar, w)) _
               (with_lk (S_of cs (mkG tab thr k (ar, w))) (without t wr k)) t p (WantWrite j)); auto.
      cbn. symmetry. apply Hj.
    - rewrite (Hcs _ _ _ C'). destruct h as [h|].
      + change (a :: [Give t h]) with ([a] ++ [Give t h]). rewrite app_assoc.
        pose proof (wf_of _ _ _ C) as W.
        assert (Ho : s_own (S_of cs (mkG tab thr k (ar, w))) t h) by (exists p; auto).
        pose proof (good_give _ _ t h G1 Ho (fun t' H => w_own _ W t' t h H Ho)) as G2.
        eapply good_ext; [exact G2| | | | |]; try reflexivity; cbn.
        * intros t' h' u Gt. unfold own_of. cbn [g_thr].
          rewrite (at_set (fun q => pc_handle q = Some h') thr t p Idle t' Hp). cbn [pc_handle]. split.
          -- intros [(_ & X)|(N & X)]; [discriminate|]. split; [exact X|]. intros ->. apply N.
             apply (w_own _ W t' t h X Ho).
          -- intros (X & N). right. split; [|exact X]. intros ->. apply N. destruct X as (q & Hq & Eq).
             cbn in Hq. rewrite Hp in Hq. inversion Hq; subst q. cbn in Eq. congruence.
        * intros t' u. unfold hold_of. cbn [g_thr]. apply (at_same _ _ _ p); [exact Hp|]. reflexivity.
      + apply (moved_good _ cs (mkG tab thr k (ar, w)) _
                 (with_lk (S_of cs (mkG tab thr k (ar, w))) (without t wr k)) t p Idle); auto.
  Qed.

  Lemma wantwrite_keeps tr cs tab thr k ar w s t j sp g0 :
    cinvx su cs (mkG tab thr k (ar, w)) s -> nth_error thr t = Some (WantWrite j) ->
    good tr (S_of cs (mkG tab thr k (ar, w))) ->
    wlp (go su t (WantWrite j) sp) (mkG tab thr k (ar, w))
      (keeps (tr ++ go_acts t (WantWrite j) (mkG tab thr k (ar, w)) g0)).
  Proof.
    intros C Hp G. pose proof C as (R & Hhe & _). cbn [go go_acts g_lock].
    apply wlp_get. cbn [g_lock].
    assert (Hstay : wlp (ret []) (mkG tab thr k (ar, w)) (keeps (tr ++ []))).
    { rewrite app_nil_r. apply (stay_keeps tr cs _ s); auto. }
    destruct (lk_writer k) as [t'|] eqn:Ew; [exact Hstay|].
    destruct (lk_readers k) as [|t' rs] eqn:Er; [|exact Hstay].
    intros es g'. unfold bind, put_lock, become, ret. cbn [g_tab g_thr g_lock g_aw].
    intros E; inversion E; subst; clear E; intros cs' s' C'.
    rewrite (chunks_are cs' _ s' cs C'); [|apply (ar_chain _ _ _ _ _ _ _ _ R)|exact Hhe].
    apply (moved_good _ cs (mkG tab thr k (ar, w)) _
             (with_lk (S_of cs (mkG tab thr k (ar, w))) (mkLock [] (Some t))) t (WantWrite j) (Slow j)); auto.
    apply good_wlock; auto.
  Qed.

  Lemma wantread_keeps tr cs tab thr k ar w s t j sp g0 :
    cinvx su cs (mkG tab thr k (ar, w)) s -> nth_error thr t = Some (WantRead j) ->
    good tr (S_of cs (mkG tab thr k (ar, w))) ->
    wlp (go su t (WantRead j) sp) (mkG tab thr k (ar, w))
      (keeps (tr ++ go_acts t (WantRead j) (mkG tab thr k (ar, w)) g0)).
  Proof.
    intros C Hp G. pose proof C as (R & Hhe & _ & _ & _ & Hpc & _). pose proof (Hpc _ _ Hp) as Hj. cbn [ConcFacts.pc_ok] in Hj.
    cbn [g_tab g_thr g_lock g_aw fst snd] in *. set (p := WantRead j) in *.
    unfold p. cbn [go go_acts g_lock]. apply wlp_get. cbn [g_lock g_aw fst].
    destruct (lk_writer k) as [t'|] eqn:Ew.
    { rewrite app_nil_r. apply (stay_keeps tr cs _ s); auto. }
    apply wlp_put_lock. cbn [g_tab g_thr g_lock g_aw fst].
    set (k' := with_reader t k). set (S0 := with_lk (S_of cs (mkG tab thr k (ar, w))) k').
    assert (W0 : wf S0).
    { apply wf_lk; [apply (wf_of _ _ _ C)|]. cbn. congruence. }
    assert (Hh : holds k' t) by (left; left; reflexivity).
    assert (G0 : good (tr ++ [RLock t; Acc t Root NaRead]) S0).
    { change [RLock t; Acc t Root NaRead] with ([RLock t] ++ [Acc t Root NaRead]). rewrite app_assoc.
      apply good_acc; auto; [apply good_rlock; auto|].
      intros [|x] T; cbn in T; [|contradiction]. right. split; [exact Hh|reflexivity]. }
    set (tr' := tr ++ _) in *. clearbody tr'.
    assert (Hcs : forall g' cs' s', cinvx su cs' g' s' -> g_aw g' = (ar, w) -> cs' = cs).
    { intros g' cs' s' C' Eg. apply (chunks_are _ _ _ _ C').
      - unfold cmem. rewrite Eg. apply (ar_chain _ _ _ _ _ _ _ _ R).
      - unfold cheld. rewrite Eg. exact Hhe. }
    assert (Hb : forall p', pc_handle p' = pc_handle p -> hold p' = hold p ->
      wlp (become t p' ;;; ret []) (mkG tab thr k' (ar, w)) (keeps tr')).
    { intros p' E1 E2 es g' E. inversion E; subst. cbn [g_tab g_thr g_lock g_aw]. intros cs' s' C'.
      rewrite (Hcs _ _ _ C' eq_refl).
      apply (moved_good _ cs (mkG tab thr k (ar, w)) _ S0 t p p'); auto. }
    assert (Hf : forall r, (forall b x, r = Some b -> b_ptr b <= x < b_ptr b + b_len b -> origin S0 t x) ->
      wlp (finish t j false r) (mkG tab thr k' (ar, w)) (keeps tr')).
    { intros r Ho es g' E. rewrite finish_eq in E. cbn [g_tab g_thr g_lock g_aw] in E.
      inversion E; subst. intros cs' s' C'.
      apply (finish_good tr' cs' (mkG tab thr k (ar, w)) _ s' S0 t p j false r); auto.
      - rewrite (Hcs _ _ _ C' eq_refl). apply advances_refl.
      - intros b x Eb Hx _. apply (Ho b x Eb Hx). }
    unfold enter. destruct (ar_root ar) as [r|], j as [l|h u old new|h u l];
      try (apply Hb; reflexivity); try (apply Hf; discriminate).
    destruct (l_align new <=? l_align old); [|apply Hb; reflexivity].
    destruct (l_size new <=? l_size old) eqn:Es; [|apply Hb; reflexivity].
    apply Hf. intros b x Eb Hx. inversion Eb; subst b. cbn [b_ptr b_len] in Hx.
    destruct Hj as (Gt & (F1 & F2) & _). right. left. exists h, u. split; [exact Gt|].
    split; [unfold in_u; lia|]. exists p. auto.
  Qed.

  (** ** The slow path *)

  Lemma slow_keeps tr cs tab thr k ar w s t j sp :
    cinvx su cs (mkG tab thr k (ar, w)) s -> nth_error thr t = Some (Slow j) ->
    good tr (S_of cs (mkG tab thr k (ar, w))) ->
    wlp (go su t (Slow j) sp) (mkG tab thr k (ar, w)) (fun es g' =>
      keeps (tr ++ go_acts t (Slow j) (mkG tab thr k (ar, w)) g') es g').
  Proof.
    intros C Hp G. pose proof (writer_is _ _ _ _ _ C Hp eq_refl) as Hw. cbn [g_lock] in Hw.
    pose proof C as (R & Hhe & Hm & _ & _ & Hpc & _). pose proof (Hpc _ _ Hp) as (Hj & Tj).
    cbn [g_tab g_thr g_lock g_aw fst snd] in *. set (g := mkG tab thr k (ar, w)) in *. set (p := Slow j) in *.
    pose proof (wf_of _ _ _ C) as W. fold g in W.
    set (ha := Acc t Root NaWrite :: headers_of t (cheld g)).
    assert (G1 : good (tr ++ ha) (S_of cs g)).
    { apply (good_accs tr (S_of cs g) t); auto. intros a [<-|Ha].
      - exists Root, NaWrite. split; [reflexivity|]. intros [|x] T; cbn in T; [|contradiction]. left. exact Hw.
      - unfold headers_of in Ha. apply in_map_iff in Ha. destruct Ha as (u & <- & Hu).
        exists (Bytes (u_ptr u) HDR), NaWrite. split; [reflexivity|].
        change (cheld g) with (outstanding (bw_trace w)) in Hu. rewrite <- Hhe in Hu.
        apply in_map_iff in Hu. destruct Hu as (c & <- & Hc).
        intros [|x] T; cbn in T; [contradiction|]. left. exists c. split; [exact Hc|].
        split; [unfold in_hdr, c_base, c_ptr; lia|left; exact Hw]. }
    assert (Hl : req_ok (su_smax su) (job_layout j)).
    { destruct j; cbn in Hj |- *; [exact Hj|tauto|contradiction]. }
    pose proof (su_cfg su Hok) as Hcfg. rewrite <- Hm in Hcfg.
    pose proof (alloc_slow_ok amax (su_smax su) (su_bmax su) A (base_own (su_amax su) (su_bmax su)) ctx (su_amax_ok su Hok) dbg
               [] cs ar w _ (job_layout j) R Hl (cfg_ok_for Hcfg)) as H.
    apply wp_inv in H. destruct H as (r & w' & Er & _ & Hr).
    unfold p. cbn [go]. intros es g'. unfold bind at 1. unfold on_aw, arena_alloc_slow, with_aw. unfold bind at 1.
    unfold g at 1 2 3. cbn [g_aw fst snd]. rewrite Er.
    destruct r as [[b q]|].
    - destruct Hr as (Hg & Hbl & c & Hi & <- & Ec & Eb & R2).
      cbn [ret fst snd]. unfold g. cbn [g_tab g_thr g_lock].
      assert (Hh' : map c_u (c :: cs) = outstanding (bw_trace w')).
      { destruct Hi as (_ & w1 & Ew & Q). rewrite (quiet_trace su _ _ Q).
        pose proof (j_alloc _ _ (held_jinv su) (map c_u cs) w w1 _ _ Hhe Ew) as X.
        cbn in X |- *. unfold held_j in X. rewrite <- X. cbn. destruct (c_u c); reflexivity. }
      destruct (arep_chunk_ok _ _ _ _ ctx _ _ _ _ _ c R2 (or_introl eq_refl)) as ((_ & _ & Wc) & _ & _ & _ & Hlen & _).
      set (c0 := mkChunk (c_u c) (c_base c)).
      set (S0 := mkSt (c0 :: cs) tab (own_of g) (hold_of g) k).
      pose proof (arep_disj _ _ _ _ ctx _ _ _ _ _ R2) as Hd. rewrite app_nil_r in Hd. cbn [map pairwise] in Hd.
      destruct Hd as (Hd & _). rewrite Forall_forall in Hd.
      assert (Hd' : forall x d, In d cs -> in_u x (c_u c) -> ~ in_u x (c_u d)).
      { intros x d Hc Hx Hx2. apply (Hd (c_u d) (in_map c_u _ _ Hc) x Hx Hx2). }
      assert (Wc0 : c_base c0 <= c_cur c0 <= c_end c0).
      { change (c_base c <= c_base c <= c_end c). lia. }
      assert (G2 : good (tr ++ ha) S0).
      { apply (good_chunk _ (S_of cs g) c0); auto. }
      assert (W0 : wf S0).
      { apply (wf_chunk (S_of cs g) c0); auto. intros d x Hc X1 X2.
        apply (Hd' x d Hc); unfold in_u; [exact X1|exact X2]. }
      assert (G3 : good (tr ++ Acc t Root NaWrite :: headers_of t (cheld g) ++ all_of t [c_u c]) S0).
      { change (good (tr ++ ha ++ all_of t [c_u c]) S0). rewrite app_assoc. cbn [all_of map].
        apply good_acc; auto. intros [|x] T; cbn in T; [contradiction|].
        destruct (Z.lt_ge_cases x (c_base c)) as [Lx|Lx].
        - left. exists c0. split; [left; reflexivity|]. split; [|left; exact Hw].
          split; [exact (proj1 T)|exact Lx].
        - right; left. exists c0. split; [left; reflexivity|]. split; [|exact Hw].
          split; [exact Lx|exact (proj2 T)]. }
      assert (Htr : forall g1 : gst, snd (g_aw g1) = w' ->
        go_acts t (Slow j) g g1 = Acc t Root NaWrite :: headers_of t (cheld g) ++ all_of t [c_u c]).
      { intros g1 E. cbn [go_acts]. do 3 f_equal.
        assert (E1 : cheld g1 = c_u c :: cheld g).
        { unfold cheld at 1. rewrite E, <- Hh'. cbn [map]. rewrite Hhe. reflexivity. }
        rewrite E1. cbn [length]. replace (S (length (cheld g)) - length (cheld g))%nat with 1%nat by lia. reflexivity. }
      assert (Hcs : forall g1 cs' s', cinvx su cs' g1 s' -> snd (g_aw g1) = w' -> Forall2 advances (s_cs S0) cs').
      { intros g1 cs' s' C' E. rewrite (chunks_are cs' g1 s' (c :: cs) C').
        - cbn [S0 s_cs]. constructor; [|apply advances_refl]. split; [reflexivity|]. exact (proj1 Wc).
        - unfold cmem. rewrite E. apply (ar_chain _ _ _ _ _ _ _ _ R2).
        - unfold cheld. rewrite E. exact Hh'. }
      destruct (req_ok_facts _ _ Hl) as (kk & _ & _ & Hpos & Hsz & _).
      destruct (round_up_spec (c_base c) (l_align (job_layout j)) Hpos) as [Bd _].
      assert (Ho : forall x, b_ptr b <= x < b_ptr b + b_len b -> origin S0 t x).
      { intros x Hx. right. right. exists c0. split; [left; reflexivity|]. split.
        - change (c_base c <= x). lia.
        - change (x < c_end c). lia. }
      unfold allocated. destruct j as [l|h u old new|h u l]; [| |contradiction].
      + intros E. rewrite finish_eq in E. cbn [g_tab g_thr g_lock g_aw] in E. inversion E; subst; clear E.
        rewrite Htr by reflexivity. intros cs' s' C'.
        apply (finish_good _ cs' g _ s' S0 t p (JAlloc l) true (Some b)); auto.
        * right. exact Hw.
        * apply (Hcs _ _ _ C'). reflexivity.
        * intros b0 x E Hx _. inversion E; subst b0. apply Ho. exact Hx.
      + intros E. inversion E; subst; clear E.
        rewrite Htr by reflexivity. intros cs' s' C'.
        apply (copying_good _ cs' g _ s' S0 t p h u old new b true); auto.
        * right. exact Hw.
        * apply (Hcs _ _ _ C'). reflexivity.
    - destruct Hr as (Hi & R2). cbn [ret fst snd]. unfold g. cbn [g_tab g_thr g_lock].
      assert (Hh' : map c_u cs = outstanding (bw_trace w')).
      { destruct Hi as [[_ ->]|(lay & _ & Ew)]; [exact Hhe|].
        pose proof (j_alloc _ _ (held_jinv su) (map c_u cs) w w' _ _ Hhe Ew) as X. exact X. }
      intros E.
      assert (Htr : forall g1 : gst, snd (g_aw g1) = w' -> go_acts t (Slow j) g g1 = ha).
      { intros g1 E1. cbn [go_acts]. unfold ha. f_equal. rewrite <- (app_nil_r (headers_of t (cheld g))) at 2. f_equal.
        assert (E2 : cheld g1 = cheld g).
        { unfold cheld at 1. rewrite E1, <- Hh'. rewrite Hhe. reflexivity. }
        rewrite E2, Nat.sub_diag. reflexivity. }
      assert (Eg : snd (g_aw g') = w').
      { rewrite finish_eq in E. inversion E; subst. reflexivity. }
      fold g. rewrite (Htr _ Eg).
      refine (finish_keeps (tr ++ ha) cs tab thr k ar w _ w' s t p j true None C Hp G1 _ eq_refl Hj _ _ es g' E).
      + right. exact Hw.
      + intros g1 cs' s' E1 C'. rewrite (chunks_are cs' g1 s' cs C'); [apply advances_refl| |].
        * unfold cmem. rewrite E1. apply (ar_chain _ _ _ _ _ _ _ _ R2).
        * unfold cheld. rewrite E1. exact Hh'.
      + intros b x Eb. discriminate.
  Qed.

  Lemma go_keeps tr cs g s t p sp : cinvx su cs g s -> nth_error (g_thr g) t = Some p -> good tr (S_of cs g) ->
    wlp (go su t p sp) g (fun es g' => keeps (tr ++ go_acts t p g g') es g').
  Proof.
    destruct g as [tab thr k [ar w]]. cbn [g_thr]. intros C Hp G. destruct p.
    - cbn [go go_acts]. rewrite app_nil_r. apply (stay_keeps tr cs _ s); auto.
    - intros es g' E. refine (wantread_keeps tr cs tab thr k ar w s t j sp g' C Hp G es g' E).
    - apply (load_keeps tr cs _ _ _ _ _ s); auto.
    - apply (cas_keeps tr cs _ _ _ _ _ s); auto.
    - apply (tipload_keeps tr cs _ _ _ _ _ s); auto.
    - apply (tipcas_keeps tr cs _ _ _ _ _ s); auto.
    - apply (freecas_keeps tr cs _ _ _ _ _ s); auto.
    - intros es g' E. refine (copy_keeps tr cs tab thr k ar w s t j b i wr sp g' C Hp G es g' E).
    - intros es g' E. refine (unlock_keeps tr cs tab thr k ar w s t wr next h sp g' C Hp G es g' E).
    - intros es g' E. refine (wantwrite_keeps tr cs tab thr k ar w s t j sp g' C Hp G es g' E).
    - apply (slow_keeps tr cs _ _ _ _ _ s); auto.
  Qed.

  Lemma stale_keeps tr cs g s t p v : cinvx su cs g s -> nth_error (g_thr g) t = Some p -> good tr (S_of cs g) ->
    wlp (stale su t p v) g (fun es g' => keeps (tr ++ stale_acts t p g g') es g').
  Proof.
    destruct g as [tab thr k [ar w]]. cbn [g_thr]. intros C Hp G es g' E.
    pose proof C as (_ & _ & _ & _ & _ & Hpc & _). pose proof (Hpc _ _ Hp) as Hj. cbn [g_tab g_aw snd] in Hj.
    assert (G2 : good (tr ++ stale_acts t p (mkG tab thr k (ar, w)) g') (S_of cs (mkG tab thr k (ar, w)))).
    { destruct p; cbn [stale_acts go_acts]; try (rewrite app_nil_r; exact G);
        pose proof (reader_holds _ _ _ _ _ C Hp eq_refl) as Hh; cbn [ConcFacts.pc_ok] in Hj.
      - apply (cursor_good _ _ _ s); auto. tauto.
      - apply two_good. apply (cursor_good _ _ _ s); auto; [|tauto]. apply (end_good _ _ _ s); auto. tauto.
      - apply two_good. apply (end_good _ _ _ s); auto; [|tauto]. apply (cursor_good _ _ _ s); auto. tauto.
      - apply (cursor_good _ _ _ s); auto. destruct Hj as (_ & Hj). destruct j; try contradiction.
        destruct Hj as (_ & _ & _ & e & Hr & _). eauto.
      - apply (cursor_good _ _ _ s); auto. tauto. }
    set (tr' := tr ++ _) in *. clearbody tr'.
    destruct (stale_ok su t p v _ es g' E) as [[-> ->]|[(-> & p' & (_ & E1 & E2) & ->)|(h & u & l & r & -> & F)]].
    - apply (stay_keeps tr' cs _ s C G2). reflexivity.
    - apply (become_keeps tr' cs tab thr k ar w s t p p' C Hp G2 E1 E2). reflexivity.
    - pose proof (reader_holds _ _ _ _ _ C Hp eq_refl) as Hh. destruct Hj as (Hj & _).
      refine (finish_keeps tr' cs tab thr k ar w ar w s t (FreeCas (JDealloc h u l) r) (JDealloc h u l) false None C Hp G2 Hh
                eq_refl Hj (same_adv _ _ _ _ _ _ _ C) _ es g' F).
      intros b x Eb. discriminate.
  Qed.

  (** ** Resetting *)

  Lemma takes_good t hs : forall tr S, good tr S -> NoDup hs -> (forall h t', In h hs -> ~ s_own S t' h) ->
    good (tr ++ map (Take t) hs) (with_own S (fun t' h' => s_own S t' h' \/ (t' = t /\ In h' hs))).
  Proof.
    induction hs as [|h hs IH]; intros tr S G Nd Hn; cbn [map].
    - rewrite app_nil_r. apply (good_ext tr S); auto; try reflexivity; cbn; tauto.
    - inversion Nd as [|? ? N1 N2]; subst.
      change (Take t h :: map (Take t) hs) with ([Take t h] ++ map (Take t) hs). rewrite app_assoc.
      pose proof (good_take tr S t h G (fun t' => Hn h t' (or_introl eq_refl))) as G1.
      apply IH in G1; auto.
      + eapply good_ext; [exact G1| | | | |]; try reflexivity. cbn. intros t' h' u _.
        split; [intros [H|(-> & [<-|H])]|intros [[H|(-> & ->)]|(-> & H)]]; auto.
      + cbn. intros h' t' Hin [H|(-> & ->)]; [|contradiction].
        apply (Hn h' t' (or_intror Hin) H).
  Qed.

  Lemma live_handles_in h tab : In h (live_handles tab) <-> exists u, get h tab = Some u.
  Proof.
    unfold live_handles. rewrite filter_In, in_seq. split.
    - intros (_ & H). destruct (get h tab) as [u|]; [eauto|discriminate].
    - intros (u & G). rewrite G. pose proof (get_len _ _ _ G). split; [lia|reflexivity].
  Qed.

  Lemma get_none {T} h (t : list (option T)) : get h (map (fun _ => None (A := T)) t) = None.
  Proof.
    unfold get. destruct (nth_error _ h) as [o|] eqn:E; [|reflexivity].
    apply nth_error_In, in_map_iff in E. destruct E as (x & <- & _). reflexivity.
  Qed.

  Lemma away_free cs g s : cinvx su cs g s -> forallb away (g_thr g) = true ->
    lk_writer (g_lock g) = None /\ lk_readers (g_lock g) = [].
  Proof.
    intros (_ & _ & _ & _ & (L1 & L2 & _) & _) Ha. split.
    - destruct (lk_writer (g_lock g)) as [t|] eqn:E; [|reflexivity].
      destruct (proj1 (L2 t) eq_refl) as (p & Hp & Hw). pose proof (away_at _ _ _ Ha Hp) as H.
      destruct p; discriminate.
    - destruct (lk_readers (g_lock g)) as [|t rs] eqn:E; [reflexivity|].
      destruct (proj1 (L1 t) (or_introl eq_refl)) as (p & Hp & Hw). pose proof (away_at _ _ _ Ha Hp) as H.
      destruct p; discriminate.
  Qed.

  Lemma reset_shape keep (g : gst) (es es0 : list event) (g' : gst) : (on_aw (do_reset su keep) ;;; put_tab (map (fun _ => None)) ;;; ret es0) g = ORet es g' ->
    es = es0 /\ g_tab g' = map (fun _ => None) (g_tab g) /\ g_thr g' = g_thr g /\ g_lock g' = g_lock g.
  Proof.
    unfold bind, on_aw, put_tab, ret. destruct (do_reset su keep (g_aw g)); try discriminate.
    intros E; inversion E; subst. cbn. auto.
  Qed.

  Lemma reset_good tr b cs g s g' cs' : cinvx su cs g s -> forallb away (g_thr g) = true ->
    g_tab g' = map (fun _ => None) (g_tab g) -> g_thr g' = g_thr g -> g_lock g' = g_lock g ->
    race_free tr -> is_acc b = false -> wrel b -> (forall i q k, acc tr i q k -> knows wrel (tr ++ [b]) i) ->
    good (tr ++ [b]) (S_of cs' g').
  Proof.
    intros C Ha E1 E2 E3 Hf Hb Hw Hk. destruct (away_free _ _ _ C Ha) as [L1 L2].
    apply good_reset; auto; cbn [S_of s_lk s_tab s_hold]; rewrite ?E3; auto.
    - intros h. rewrite E1. apply get_none.
    - intros t u (p & Hp & Hu). rewrite E2 in Hp. pose proof (away_at _ _ _ Ha Hp) as H.
      destruct p; try discriminate; contradiction.
  Qed.

  Lemma exclusive_keeps tr cs g s keep : cinvx su cs g s -> good tr (S_of cs g) ->
    wlp (cstep su (Exclusive keep)) g (fun es g' => keeps (tr ++ acts (Exclusive keep) g es g') es g').
  Proof.
    intros C G es g' E. unfold cstep in E. unfold bind at 1, get_g in E.
    destruct (forallb is_idle (g_thr g)) eqn:Ei.
    2: { inversion E; subst. cbn [acts]. rewrite app_nil_r. apply (stay_keeps tr cs g' s C G []). reflexivity. }
    apply reset_shape in E. destruct E as (-> & E1 & E2 & E3). cbn [acts]. intros cs' s' C'.
    apply (reset_good tr Excl cs g s); auto.
    - apply idle_away. exact Ei.
    - apply G.
    - right. reflexivity.
    - intros i q k (t & p & Hi & _). exists (length tr), Excl. split; [apply nth_last|]. split; [right; reflexivity|].
      right. apply (hb_one _ i _ (Acc t p k) Excl); auto; [|apply nth_app_some; exact Hi|apply nth_last].
      apply nth_error_Some. congruence.
  Qed.

  (** ** Beginning a call *)

  Lemma busy_own g h : busy h (g_thr g) = false -> forall t, ~ own_of g t h.
  Proof.
    intros Hb t (p & Hp & E). assert (busy h (g_thr g) = true); [|congruence].
    apply existsb_exists. exists p. split; [apply (nth_error_In _ _ Hp)|]. rewrite E. apply Nat.eqb_refl.
  Qed.

  Lemma begin_keeps tr cs g s t o : cinvx su cs g s -> nth_error (g_thr g) t = Some Idle -> good tr (S_of cs g) ->
    wlp (begin su t o) g (fun es g' => keeps (tr ++ begin_acts t o g es) es g').
  Proof.
    intros C Hp G es g' E. pose proof (wf_of _ _ _ C) as W. pose proof C as (R & Hhe & _).
    unfold begin in E. unfold bind at 1, get_g in E.
    assert (Hstay : ret [] g = ORet es g' -> keeps (tr ++ begin_acts t o g es) es g').
    { intros E'. inversion E'; subst. cbn [begin_acts]. rewrite app_nil_r.
      apply (stay_keeps tr cs g' s C G []). reflexivity. }
    assert (Hcs : forall p' cs' s', cinvx su cs' (mkG (g_tab g) (set_nth t p' (g_thr g)) (g_lock g) (g_aw g)) s' -> cs' = cs).
    { intros p' cs' s' C'. apply (chunks_are _ _ _ _ C'); [apply (ar_chain _ _ _ _ _ _ _ _ R)|exact Hhe]. }
    assert (Htake : forall h j, job_handle j = Some h -> busy h (g_thr g) = false ->
      (become t (WantRead j) ;;; ret [Call t o]) g = ORet es g' -> keeps (tr ++ [Take t h]) es g').
    { intros h j Ej Hb E'. inversion E'; subst. intros cs' s' C'. rewrite (Hcs _ _ _ C').
      pose proof (busy_own g h Hb) as Hn.
      eapply good_ext; [apply (good_take tr (S_of cs g) t h G Hn)| | | | |]; try reflexivity; cbn.
      - intros t' h' u _. unfold own_of. cbn [g_thr].
        rewrite (at_set (fun q => pc_handle q = Some h') _ _ _ (WantRead j) t' Hp). cbn [pc_handle]. rewrite Ej. split.
        + intros [(-> & X)|(_ & X)]; [right; split; congruence|left; exact X].
        + intros [X|(-> & ->)]; [|left; auto]. destruct (Nat.eq_dec t' t) as [->|N]; [|right; auto].
          exfalso. destruct X as (q & Hq & Eq). rewrite Hp in Hq. inversion Hq; subst q. discriminate.
      - intros t' u. unfold hold_of. cbn [g_thr]. apply (at_same _ _ _ Idle); [exact Hp|]. reflexivity. }
    destruct o as [l z|h off cl|h l|h old new|h old new|keep]; try (apply Hstay; exact E).
    - destruct z; [apply Hstay; exact E|]. destruct (req_okb _ _); [|apply Hstay; exact E].
      inversion E; subst. cbn [begin_acts]. rewrite app_nil_r. intros cs' s' C'. rewrite (Hcs _ _ _ C').
      apply (moved_good tr cs g _ (S_of cs g) t Idle (WantRead (JAlloc l))); auto.
    - destruct (get h (g_tab g)) as [u|] eqn:Gt; [|apply Hstay; exact E].
      destruct (negb (busy h (g_thr g)) && (0 <=? off) && (off + Z.of_nat (length cl) <=? u_len u)) eqn:Ec;
        [|apply Hstay; exact E].
      apply andb_true_iff in Ec. destruct Ec as [Ec Ec3]. apply andb_true_iff in Ec. destruct Ec as [Ec1 Ec2].
      apply negb_true_iff in Ec1. pose proof (busy_own g h Ec1) as Hn.
      assert (Hm : forall c, In c cs -> same_header c g g').
      { intros c Hc x Hx. revert E. unfold bind, on_w, on_aw, with_aw, ret. cbn [fst snd].
        intros E; inversion E; subst; clear E. unfold cmem.
        cbn [g_aw snd bw_mem al_set_mem bot base al_mem]. apply write_cells_other.
        assert (Hv : In u (live (g_tab g) ++ flat_map hold (g_thr g))).
        { apply in_or_app. left. apply live_in. eauto. }
        assert (~ in_u x u).
        { intros Hi. destruct (arep_us_not _ _ _ _ ctx _ _ _ _ _ c u x R Hc Hv Hi) as [X _]. contradiction. }
        unfold in_u in *. lia. }
      revert E. unfold bind, on_w, on_aw, with_aw, ret. cbn [fst snd]. intros E.
      assert (Ee : es = [Call t (OpWrite h off cl); Lin t (OpWrite h off cl) None; Return t]) by (inversion E; reflexivity).
      rewrite Ee. cbn [begin_acts]. rewrite Gt. intros cs' s' C'.
      assert (Ehd : cheld g' = cheld g) by (inversion E; reflexivity).
      rewrite (chunks_same _ _ _ _ _ _ C C' Ehd Hm).
      change [Take t h; Acc t (Bytes (u_ptr u + off) (Z.of_nat (length cl))) NaWrite; Give t h]
        with ([Take t h] ++ [Acc t (Bytes (u_ptr u + off) (Z.of_nat (length cl))) NaWrite] ++ [Give t h]).
      rewrite !app_assoc.
      set (S1 := with_own (S_of cs g) (fun t' h' => s_own (S_of cs g) t' h' \/ (t' = t /\ h' = h))).
      assert (W1 : wf S1).
      { apply wf_own; [exact W|]. cbn. intros t1 t2 h' [H1|(-> & ->)] [H2|(-> & E2)].
        - apply (w_own _ W t1 t2 h'); auto.
        - subst h'. destruct (Hn _ H1).
        - destruct (Hn _ H2).
        - reflexivity. }
      assert (G1 : good (tr ++ [Take t h]) S1) by (apply (good_take tr (S_of cs g) t h G Hn)).
      assert (O1 : s_own S1 t h) by (right; auto).
      assert (G2 : good ((tr ++ [Take t h]) ++ [Acc t (Bytes (u_ptr u + off) (Z.of_nat (length cl))) NaWrite]) S1).
      { apply good_acc; auto. intros [|x] T; cbn in T; [contradiction|]. right; right; right; left. exists h, u.
        split; [exact Gt|]. split; [unfold in_u; lia|exact O1]. }
      pose proof (good_give _ S1 t h G2 O1 (fun t' H => w_own _ W1 t' t h H O1)) as G3.
      eapply good_ext; [exact G3| | | | |]; inversion E; subst; try reflexivity; cbn.
      intros t' h' v _. change (own_of g t' h' <-> (own_of g t' h' \/ t' = t /\ h' = h) /\ h' <> h). split.
      + intros X. split; [left; exact X|]. intros ->. apply (Hn _ X).
      + intros ([X|(_ & X)] & N); [exact X|contradiction].
    - destruct (get h (g_tab g)) as [u|]; [|apply Hstay; exact E].
      destruct (negb (busy h (g_thr g)) && fitsb l u) eqn:Ec; [|apply Hstay; exact E].
      apply andb_true_iff in Ec. destruct Ec as [Ec1 Ec2]. apply negb_true_iff in Ec1.
      pose proof (Htake h (JDealloc h u l) eq_refl Ec1 E) as H. inversion E; subst. exact H.
    - destruct (get h (g_tab g)) as [u|]; [|apply Hstay; exact E].
      destruct (negb (busy h (g_thr g)) && fitsb old u && _) eqn:Ec; [|apply Hstay; exact E].
      apply andb_true_iff in Ec. destruct Ec as [Ec Ec3]. apply andb_true_iff in Ec. destruct Ec as [Ec1 Ec2].
      apply negb_true_iff in Ec1.
      pose proof (Htake h (JResize h u old new) eq_refl Ec1 E) as H. inversion E; subst. exact H.
    - destruct keep; [|apply Hstay; exact E]. destruct (forallb away (g_thr g)) eqn:Ea; [|apply Hstay; exact E].
      apply reset_shape in E. destruct E as (-> & E1 & E2 & E3). cbn [begin_acts]. intros cs' s' C'.
      destruct (away_free _ _ _ C Ea) as [L1 L2].
      set (tr2 := (tr ++ [WLock t]) ++ map (Take t) (live_handles (g_tab g))).
      match goal with |- good ?l _ =>
        replace l with ((tr2 ++ Acc t Root NaWrite :: all_of t (cheld g)) ++ [WUnlock t])
          by (unfold tr2; rewrite <- !app_assoc; reflexivity)
      end.
      set (S1 := with_lk (S_of cs g) (mkLock [] (Some t))).
      assert (Hno : forall t' h, ~ s_own S1 t' h).
      { intros t' h (q & Hq & Eq). rewrite (away_handle _ (away_at _ _ _ Ea Hq)) in Eq. discriminate. }
      assert (Hnh : forall t' u, ~ s_hold S1 t' u).
      { intros t' u (q & Hq & Hu). pose proof (away_at _ _ _ Ea Hq) as H. destruct q; try discriminate; contradiction. }
      pose proof (good_wlock tr (S_of cs g) t G L1 L2) as G1. fold S1 in G1.
      pose proof (takes_good t (live_handles (g_tab g)) _ S1 G1 (NoDup_filter _ (seq_NoDup _ _))
                    (fun h t' _ => Hno t' h)) as G2.
      set (S2 := with_own S1 _) in G2.
      assert (W2 : wf S2).
      { apply wf_own; [apply wf_lk; [exact W|reflexivity]|]. cbn. intros t1 t2 h [H|(-> & _)] [H'|(-> & _)]; auto;
          try (destruct (Hno _ _ H)); destruct (Hno _ _ H'). }
      assert (Hown : forall h u, get h (s_tab S2) = Some u -> s_own S2 t h).
      { intros h u Gt. right. split; [reflexivity|]. apply live_handles_in. exists u. exact Gt. }
      fold tr2 in G2.
      assert (G3 : good (tr2 ++ Acc t Root NaWrite :: all_of t (cheld g)) S2).
      { apply (good_accs tr2 S2 t); auto. intros a [<-|Ha].
        - exists Root, NaWrite. split; [reflexivity|]. intros [|x] T; cbn in T; [|contradiction]. left. reflexivity.
        - unfold all_of in Ha. apply in_map_iff in Ha. destruct Ha as (u & <- & Hu).
          exists (Bytes (u_ptr u) (u_len u)), NaWrite. split; [reflexivity|].
          change (cheld g) with (outstanding (bw_trace (snd (g_aw g)))) in Hu. rewrite <- Hhe in Hu.
          apply in_map_iff in Hu. destruct Hu as (c & <- & Hc).
          pose proof (w_cwf _ W c Hc) as Wc.
          intros [|x] T; cbn in T; [contradiction|].
          destruct (Z.lt_ge_cases x (c_base c)) as [Lx|Lx].
          { left. exists c. split; [exact Hc|]. split; [split; [exact (proj1 T)|exact Lx]|left; reflexivity]. }
          destruct (Z.lt_ge_cases x (c_cur c)) as [Ly|Ly].
          + right; right; left. exists c. split; [exact Hc|]. split; [split; assumption|].
            split; [reflexivity|]. split; [intros h v Gt _; apply (Hown h v Gt)|].
            intros t' v Hv. destruct (Hnh t' v Hv).
          + right; left. exists c. split; [exact Hc|]. split; [split; [exact Ly|exact (proj2 T)]|reflexivity]. }
      apply (reset_good _ (WUnlock t) cs g s); auto; [apply G3|left; eauto|].
      intros i q k Hac. apply (knows_last (by_ t)); [|intros a; apply linked_by; reflexivity|left; eauto].
      apply (all_known _ S2 t i q k); auto; [apply G3|apply (w_cwf _ W2)|].
      intros t' u Hu. destruct (Hnh t' u Hu).
  Qed.

  (** ** Runs *)

  Lemma cstep_keeps tr cs g s c : cinvx su cs g s -> good tr (S_of cs g) ->
    wlp (cstep su c) g (fun es g' => keeps (tr ++ acts c g es g') es g').
  Proof.
    intros C G. destruct c as [t o|t sp|t v|keep]; [| | |apply (exclusive_keeps tr cs g s); auto];
      intros es g' E; unfold cstep in E; unfold bind at 1, get_g in E; cbn [acts].
    - assert (Hstay : ret [] g = ORet es g' -> keeps (tr ++ begin_acts t o g es) es g').
      { intros E'. inversion E'; subst. cbn [begin_acts]. rewrite app_nil_r.
        apply (stay_keeps tr cs g' s C G []). reflexivity. }
      destruct (nth_error (g_thr g) t) as [p|] eqn:Hp; [|apply Hstay; exact E].
      destruct p; try (apply Hstay; exact E). apply (begin_keeps tr cs g s t o C Hp G es g' E).
    - destruct (nth_error (g_thr g) t) as [p|] eqn:Hp.
      + apply (go_keeps tr cs g s t p sp C Hp G es g' E).
      + rewrite app_nil_r. apply (stay_keeps tr cs g s C G es g' E).
    - destruct (nth_error (g_thr g) t) as [p|] eqn:Hp.
      + apply (stale_keeps tr cs g s t p v C Hp G es g' E).
      + rewrite app_nil_r. apply (stay_keeps tr cs g s C G es g' E).
  Qed.

  Lemma ctrace_good sched : forall tr cs g s tr' g', cinvx su cs g s -> good tr (S_of cs g) ->
    ctrace su sched g = ORet tr' g' -> race_free (tr ++ tr').
  Proof.
    induction sched as [|c sched IH]; intros tr cs g s tr' g' C G; cbn [ctrace].
    - intros E; inversion E; subst. rewrite app_nil_r. apply G.
    - unfold bind, get_g, ret. destruct (cstep su c g) as [es g1| | |] eqn:Es; try discriminate.
      destruct (ctrace su sched g1) as [tr1 g2| | |] eqn:Et; try discriminate.
      intros E; inversion E; subst. rewrite app_assoc.
      pose proof (cstep_ok su Hok g s c (ex_intro _ cs C)) as H. unfold wp in H. rewrite Es in H.
      destruct H as (cs1 & C1).
      refine (IH _ cs1 g1 _ tr1 g' C1 _ Et). apply (cstep_keeps tr cs g s c C G es g1 Es cs1 _ C1).
  Qed.

  Lemma start_good cs n s : cinvx su cs (cstart su n) s -> good [] (S_of cs (cstart su n)).
  Proof.
    intros C. assert (H : forall i q k, ~ acc [] i q k).
    { intros i q k (t & p & Hi & _). destruct i; discriminate. }
    split.
    - intros i j a b _ Hi. destruct i; discriminate.
    - constructor; intros; exfalso; eapply H; eassumption.
  Qed.

  Lemma no_race n sched tr g : ctrace su sched (cstart su n) = ORet tr g -> race_free tr.
  Proof.
    intros E. pose proof (cstart_inv su Hok n) as (cs & C).
    apply (ctrace_good sched [] cs _ _ tr g C (start_good _ _ _ C) E).
  Qed.

  (** The trace is that of the run. *)
  Lemma ctrace_runs sched : forall g es g', crun su sched g = ORet es g' -> exists tr, ctrace su sched g = ORet tr g'.
  Proof.
    induction sched as [|c sched IH]; intros g es g'; cbn [crun ctrace]; unfold bind, get_g, ret.
    - intros E; inversion E; subst. eauto.
    - destruct (cstep su c g) as [es1 g1| | |]; try discriminate.
      destruct (crun su sched g1) as [es2 g2| | |] eqn:E2; try discriminate.
      intros E; inversion E; subst. destruct (IH _ _ _ E2) as (tr & ->). eauto.
  Qed.
End Steps.
