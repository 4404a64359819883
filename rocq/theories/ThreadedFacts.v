(** A call on a [SyncBlinkAlloc] among other threads keeps the contract of [Allocator]. *)
From Coq Require Import Permutation.
From Verif Require Import Base BaseFacts Alloc AllocFacts Arena ArenaFacts ArenaInv ArenaOps
  BlinkAlloc BlinkFacts History HistoryFacts Setup SetupFacts SetupOps Conc ConcFacts ConcSteps ConcProps
  ConcShape ConcKeep ConcDrain Threaded.

(** ** The record of events and the buffers *)

Definition form (b : option sbuf) : option (Layout * Z) := option_map (fun b => (s_layout b, s_len b)) b.

(** The same buffers, but for the contents of those in [mine]. *)
Definition alike (mine : list nat) (s s' : list (option sbuf)) : Prop :=
  length s = length s' /\
  forall h, form (get h s) = form (get h s') /\ (~ In h mine -> get h s = get h s').

Lemma alike_refl mine s : alike mine s s.
Proof. split; [reflexivity|]. intros h. split; reflexivity. Qed.

Lemma alike_more mine mine' s s' : incl mine mine' -> alike mine s s' -> alike mine' s s'.
Proof. intros I [L H]. split; [exact L|]. intros h. destruct (H h) as [H1 H2]. split; [exact H1|]. intros N. apply H2. intros X. apply N, I, X. Qed.

Lemma get_app {T} h (l : list (option T)) x : get h (l ++ [x]) =
  if Nat.eqb h (length l) then x else get h l.
Proof.
  unfold get. destruct (Nat.eqb_spec h (length l)) as [->|N].
  - rewrite nth_error_app2, Nat.sub_diag by lia. cbn. destruct x; reflexivity.
  - destruct (Nat.lt_ge_cases h (length l)) as [L|L].
    + rewrite nth_error_app1 by exact L. reflexivity.
    + rewrite nth_error_app2 by exact L. destruct (h - length l)%nat as [|k] eqn:E; [lia|]. cbn.
      rewrite (proj2 (nth_error_None l h)) by lia. destruct k; reflexivity.
Qed.

Lemma get_out {T} h (l : list (option T)) : (length l <= h)%nat -> get h l = None.
Proof. intros H. unfold get. rewrite (proj2 (nth_error_None l h)) by exact H. reflexivity. Qed.

Lemma get_nones {T S} h (l : list (option S)) : get h (map (fun _ => @None T) l) = None.
Proof. unfold get. rewrite nth_error_map. destruct (nth_error l h); reflexivity. Qed.

Lemma alike_set mine s s' h x x' : alike mine s s' -> form x = form x' -> (~ In h mine -> x = x') ->
  alike mine (set_nth h x s) (set_nth h x' s').
Proof.
  intros [L H] F E. split; [rewrite !set_nth_length; exact L|]. intros k.
  destruct (Nat.lt_ge_cases h (length s)) as [Lh|Lh].
  - assert (Lh' : (h < length s')%nat) by lia. rewrite !get_set_nth by assumption. destruct (Nat.eqb_spec h k) as [<-|N].
    + split; [exact F|exact E].
    + apply H.
  - destruct (Nat.eq_dec h k) as [<-|N].
    + rewrite !get_out by (rewrite set_nth_length; lia). split; reflexivity.
    + rewrite !get_set_other by exact N. apply H.
Qed.

Lemma alike_app mine s s' x : alike mine s s' -> alike mine (s ++ [x]) (s' ++ [x]).
Proof.
  intros [L H]. split; [rewrite !app_length; lia|]. intros k. rewrite !get_app, <- L.
  destruct (Nat.eqb k (length s)); [split; reflexivity|apply H].
Qed.

Lemma alike_none mine s s' : alike mine s s' -> alike mine (map (fun _ => None) s) (map (fun _ => None) s').
Proof. intros [L _]. split; [rewrite !map_length; exact L|]. intros k. rewrite !get_nones. split; reflexivity. Qed.

Lemma sstep_alike mine o r s s' : alike mine s s' -> alike mine (sstep o r s) (sstep o r s').
Proof.
  intros Ha. pose proof Ha as [L H].
  assert (Hg : forall h, (exists b b', get h s = Some b /\ get h s' = Some b' /\ s_layout b = s_layout b' /\ s_len b = s_len b' /\
    (~ In h mine -> b = b')) \/ (get h s = None /\ get h s' = None)).
  { intros h. destruct (H h) as [F E]. destruct (get h s) as [b|], (get h s') as [b'|]; cbn in F; try discriminate F; [left|right; auto].
    exists b, b'. injection F as F1 F2. split; [reflexivity|]. split; [reflexivity|]. split; [exact F1|]. split; [exact F2|].
    intros N. specialize (E N). congruence. }
  destruct o as [l z|h off cs|h l|h old new|h old new|keep]; cbn [sstep].
  - destruct r; [apply alike_app; exact Ha|exact Ha].
  - destruct (Hg h) as [(b & b' & -> & -> & F1 & F2 & E)|[-> ->]]; [|exact Ha]. rewrite F2.
    destruct (_ && _); [|exact Ha]. apply alike_set; [exact Ha| |]; [cbn; congruence|]. intros N. rewrite (E N). reflexivity.
  - destruct (Hg h) as [(b & b' & -> & -> & F1 & F2 & E)|[-> ->]]; [|exact Ha]. unfold s_fits. rewrite F1, F2.
    destruct (_ && _); [|exact Ha]. apply alike_set; [exact Ha|reflexivity|reflexivity].
  - destruct r as [len|]; [|exact Ha]. destruct (Hg h) as [(b & b' & -> & -> & F1 & F2 & E)|[-> ->]]; [|exact Ha].
    apply alike_set; [exact Ha|reflexivity|]. intros N. rewrite (E N). reflexivity.
  - destruct r as [len|]; [|exact Ha]. destruct (Hg h) as [(b & b' & -> & -> & F1 & F2 & E)|[-> ->]]; [|exact Ha].
    apply alike_set; [exact Ha|reflexivity|]. intros N. rewrite (E N). reflexivity.
  - apply alike_none. exact Ha.
Qed.

Lemma sevs_alike mine es : forall s s', alike mine s s' -> alike mine (sevs es s) (sevs es s').
Proof.
  induction es as [|e es IH]; intros s s' H; [exact H|]. cbn. apply IH. destruct e as [t o|t o r|t|t|keep]; cbn [sev]; auto; apply sstep_alike; exact H.
Qed.

Section Others.
  Variable su : setup.
  Hypothesis Hok : setup_ok su.
  Variable t : nat.

  (** Each thread is where the record says. *)
  Definition orderly (g : gst) (log : list event) : Prop :=
    forall t' p, nth_error (g_thr g) t' = Some p -> follows t' PIdle log (phase_of p).
  Lemma orderly_step c g log es g' : cstep su c g = ORet es g' -> orderly g log -> orderly g' (log ++ es).
  Proof.
    intros E H t' p' Hp'. destruct (cstep_thread su c g es g' E) as [L K].
    destruct (nth_error (g_thr g) t') as [p|] eqn:Hp.
    - destruct (K t' p Hp) as (q & Hq & F). rewrite Hp' in Hq. injection Hq as <-. apply (follows_app _ _ _ _ _ _ (H t' p Hp) F).
    - apply nth_error_None in Hp. assert (X : (t' < length (g_thr g'))%nat) by (apply nth_error_Some; congruence). lia.
  Qed.

  (** The machine is in order, and the record tells what is in the blocks that are not [mine]. *)
  Definition fine (mine : list nat) (g : gst) (log : list event) : Prop :=
    exists s, cinv su g s /\ alike mine s (sevs log []) /\ orderly g log.

  Lemma fine_step mine c g log : fine mine g log ->
    wp (cstep su c) g (fun es g' => fine mine g' (log ++ es)).
  Proof.
    intros (s & Hi & Ha & Ho). pose proof (cstep_ok su Hok g s c Hi) as W. unfold wp in *.
    destruct (cstep su c g) as [es g'| | |] eqn:E; try contradiction.
    exists (sevs es s). split; [exact W|]. split; [rewrite sevs_app; apply sevs_alike; exact Ha|].
    apply (orderly_step c g log es g' E Ho).
  Qed.

  Lemma fine_pc mine g log t' p : fine mine g log -> nth_error (g_thr g) t' = Some p -> exists cs, pc_ok su cs (g_tab g) (cmem g) p.
  Proof. intros (s & (cs & H) & _) Hp. exists cs. apply H with (t := t'). exact Hp. Qed.

  Lemma pc_unlock cs tab m p : pc_ok su cs tab m p -> unlock_ok p.
  Proof. destruct p; cbn; auto. destruct next; auto. intros (_ & _ & H). exact H. Qed.

  (** Events that are not about [h] leave the block of [h] alone. *)
  Lemma quiet_block mine g log es g' h u c : fine mine g log -> cstep su c g = ORet es g' ->
    get h (g_tab g) = Some u -> filter (about h) es = [] ->
    get h (g_tab g') = Some u /\ same_on [u] (cmem g) (cmem g').
  Proof.
    intros (s & Hi & _) E G F. apply cinv_snapshot in Hi.
    pose proof (cstep_ok su Hok g _ c Hi) as H. unfold wp in H. rewrite E in H.
    destruct H as (cs & _ & _ & _ & Ha & _).
    destruct (tevs_other h es (g_tab g) F (get_len _ _ _ G)) as [Gt _].
    assert (G2 : get h (g_tab g') = Some u) by (rewrite (cstep_tab su c g es g' E), Gt; exact G).
    split; [exact G2|]. intros v x [<-|[]] Hx.
    assert (Gs : get h (snapshot (cmem g) (g_tab g)) = Some (snap (cmem g) u)) by (rewrite snapshot_get, G; reflexivity).
    destruct (sevs_other h es _ F (get_len _ _ _ Gs)) as [Gs2 _]. rewrite Gs in Gs2.
    destruct (get_both _ _ _ _ _ _ Ha G2 Gs2) as (_ & _ & Hb). unfold in_u in Hx.
    specialize (Hb (x - u_ptr u) (cmem g x)). cbn [s_len s_at snap] in Hb.
    replace (u_ptr u + (x - u_ptr u)) with x in Hb by lia. apply Hb; [lia|reflexivity].
  Qed.

  (** Nobody else is working on one of [mine]. *)
  Definition guard (P : nat -> Prop) (g : gst) : Prop :=
    forall t' p h, t' <> t -> nth_error (g_thr g) t' = Some p -> pc_handle p = Some h -> ~ P h.

  (** What beginning a call amounts to. *)
  Lemma begin_shape t' o g : nth_error (g_thr g) t' = Some Idle ->
    wlp (begin su t' o) g (fun es g' =>
      (es = [] /\ g' = g) \/
      (exists j, es = [Call t' o] /\ job_op j = o /\ g_thr g' = set_nth t' (WantRead j) (g_thr g) /\ g_tab g' = g_tab g /\
         forall h, job_handle j = Some h -> busy h (g_thr g) = false) \/
      (exists h off cs, o = OpWrite h off cs /\ busy h (g_thr g) = false /\ es = [Call t' o; Lin t' o None; Return t'] /\
         g_thr g' = g_thr g /\ g_tab g' = g_tab g) \/
      (exists k, o = OpReset k)).
  Proof.
    intros Hp. unfold begin. apply wlp_get.
    assert (Hb : forall j, job_op j = o -> (forall h, job_handle j = Some h -> busy h (g_thr g) = false) ->
      wlp (become t' (WantRead j) ;;; ret [Call t' o]) g (fun es g' =>
      (es = [] /\ g' = g) \/
      (exists j, es = [Call t' o] /\ job_op j = o /\ g_thr g' = set_nth t' (WantRead j) (g_thr g) /\ g_tab g' = g_tab g /\
         forall h, job_handle j = Some h -> busy h (g_thr g) = false) \/
      (exists h off cs, o = OpWrite h off cs /\ busy h (g_thr g) = false /\ es = [Call t' o; Lin t' o None; Return t'] /\
         g_thr g' = g_thr g /\ g_tab g' = g_tab g) \/
      (exists k, o = OpReset k))).
    { intros j Ej Hb es' g1 E. inversion E; subst. right. left. exists j. cbn. auto. }
    destruct o as [l z|h off cl|h l|h old new|h old new|keep]; try (apply wlp_ret; left; split; reflexivity).
    - destruct z; [apply wlp_ret; auto|]. destruct (req_okb _ _); [|apply wlp_ret; auto].
      apply (Hb (JAlloc l)); [reflexivity|]. cbn. discriminate.
    - destruct (get h (g_tab g)) as [u|]; [|apply wlp_ret; auto].
      destruct (negb (busy h (g_thr g)) && _ && _) eqn:E; [|apply wlp_ret; auto].
      apply andb_true_iff in E. destruct E as [E _]. apply andb_true_iff in E. destruct E as [E _]. apply negb_true_iff in E.
      apply wlp_on_w. intros ? ? _. apply wlp_ret. right. right. left. exists h, off, cl. cbn. auto.
    - destruct (get h (g_tab g)) as [u|]; [|apply wlp_ret; auto].
      destruct (negb (busy h (g_thr g)) && _) eqn:E; [|apply wlp_ret; auto].
      apply andb_true_iff in E. destruct E as [E _]. apply negb_true_iff in E.
      apply (Hb (JDealloc h u l)); [reflexivity|]. cbn. intros h' X. inversion X; subst. exact E.
    - destruct (get h (g_tab g)) as [u|]; [|apply wlp_ret; auto].
      destruct (negb (busy h (g_thr g)) && _ && _) eqn:E; [|apply wlp_ret; auto].
      apply andb_true_iff in E. destruct E as [E _]. apply andb_true_iff in E. destruct E as [E _]. apply negb_true_iff in E.
      apply (Hb (JResize h u old new)); [reflexivity|]. cbn. intros h' X. inversion X; subst. exact E.
    - intros es g' _. right. right. right. exists keep. reflexivity.
  Qed.

  (** Whose handles these are. *)
  Definition ours (mine : list nat) (p : pc) (h : nat) : Prop := In h mine \/ pc_handle p = Some h.

  Lemma busy_at g p h : nth_error (g_thr g) t = Some p -> pc_handle p = Some h -> busy h (g_thr g) = true.
  Proof.
    intros Hp E. apply existsb_exists. exists p. split; [apply (nth_error_In _ _ Hp)|]. rewrite E. apply Nat.eqb_refl.
  Qed.

  Lemma job_op_handle j : op_handle (job_op j) = job_handle j.
  Proof. destruct j; reflexivity. Qed.

  Lemma about_handle h t' o r : about h (Lin t' o r) = true -> op_handle o = Some h \/ exists k, o = OpReset k.
  Proof.
    destruct o; cbn; intros E; try discriminate E; try (apply Nat.eqb_eq in E; subst; left; reflexivity). right. eauto.
  Qed.

  (** A step of somebody else. *)
  Lemma other_cstep mine g log p c : fine mine g log -> nth_error (g_thr g) t = Some p ->
    guard (ours mine p) g -> (forall h, ours mine p h -> (h < length (g_tab g))%nat) -> allowed t mine c = true ->
    wp (cstep su c) g (fun es g' =>
      fine mine g' (log ++ es) /\ nth_error (g_thr g') t = Some p /\ guard (ours mine p) g' /\
      (length (g_tab g) <= length (g_tab g'))%nat /\
      forall h u, ours mine p h -> get h (g_tab g) = Some u ->
        get h (g_tab g') = Some u /\ same_on [u] (cmem g) (cmem g')).
  Proof.
    intros Hf Hp Hg Hl Ha. pose proof (fine_step mine c g log Hf) as W. unfold wp in *.
    destruct (cstep su c g) as [es g'| | |] eqn:E; try contradiction. split; [exact W|].
    assert (Hlen : (length (g_tab g) <= length (g_tab g'))%nat).
    { rewrite (cstep_tab su c g es g' E). clear. generalize (g_tab g). induction es as [|e es IH]; intros tab; cbn; [lia|].
      eapply Nat.le_trans; [|apply IH]. destruct e as [t1 o|t1 o [b|]|t1|t1|k]; cbn; try lia; try destruct o; cbn;
        rewrite ?app_length, ?set_nth_length, ?map_length; lia. }
    assert (Hend : nth_error (g_thr g') t = Some p -> guard (ours mine p) g' -> (forall h, ours mine p h -> filter (about h) es = []) ->
      nth_error (g_thr g') t = Some p /\ guard (ours mine p) g' /\ (length (g_tab g) <= length (g_tab g'))%nat /\
      forall h u, ours mine p h -> get h (g_tab g) = Some u -> get h (g_tab g') = Some u /\ same_on [u] (cmem g) (cmem g')).
    { intros H1 H2 H3. split; [exact H1|]. split; [exact H2|]. split; [exact Hlen|]. intros h u Hh G.
      apply (quiet_block mine g log es g' h u c Hf E G). apply H3. exact Hh. }
    assert (Hnone : es = [] -> g' = g -> nth_error (g_thr g') t = Some p /\ guard (ours mine p) g' /\ (length (g_tab g) <= length (g_tab g'))%nat /\
      forall h u, ours mine p h -> get h (g_tab g) = Some u -> get h (g_tab g') = Some u /\ same_on [u] (cmem g) (cmem g')).
    { intros -> ->. apply Hend; auto. }
    assert (Hshape : forall t' q, t' <> t -> nth_error (g_thr g) t' = Some q -> shape t' q g es g' ->
      nth_error (g_thr g') t = Some p /\ guard (ours mine p) g' /\ (length (g_tab g) <= length (g_tab g'))%nat /\
      forall h u, ours mine p h -> get h (g_tab g) = Some u -> get h (g_tab g') = Some u /\ same_on [u] (cmem g) (cmem g')).
    { intros t' q N Hq Sh.
      assert (Hgu : forall q', g_thr g' = set_nth t' q' (g_thr g) ->
        (forall h, pc_handle q' = Some h -> pc_handle q = Some h \/ (length (g_tab g) <= h)%nat) -> guard (ours mine p) g').
      { intros q' Et Hq' t2 p2 h N2 Hp2 Eh. rewrite Et in Hp2. destruct (Nat.eq_dec t' t2) as [<-|N3].
        - rewrite (nth_set_same _ _ _ _ Hq) in Hp2. inversion Hp2; subst p2. destruct (Hq' h Eh) as [X|X].
          + apply (Hg t' q h N Hq X).
          + intros Y. specialize (Hl h Y). lia.
        - rewrite nth_set_other in Hp2 by exact N3. apply (Hg t2 p2 h N2 Hp2 Eh). }
      destruct Sh as [q' Et Eb Q _ _ Eh|j r pre wr Et Eb Ej Q Ee Eh|wr h0 Eq Et Eb Ee].
      - apply Hend; [rewrite Et, nth_set_other by exact N; exact Hp| |].
        + apply (Hgu q' Et). intros h X. left. congruence.
        + intros h _. destruct Q as [->| ->]; reflexivity.
      - apply Hend; [rewrite Et, nth_set_other by exact N; exact Hp| |].
        + apply (Hgu _ Et). cbn [pc_handle]. intros h X. rewrite Eh. destruct j, r; cbn in X; inversion X; subst; cbn; auto.
        + intros h Hh. rewrite Ee, filter_app. assert (F : filter (about h) pre = []) by (destruct Q as [->| ->]; reflexivity).
          rewrite F. cbn [app filter]. destruct (about h (Lin t' (job_op j) r)) eqn:Ab; [|reflexivity]. exfalso.
          apply about_handle in Ab. destruct Ab as [Ab|[k Ab]]; [|destruct j; discriminate Ab].
          rewrite job_op_handle in Ab. apply (Hg t' q h N Hq); [congruence|exact Hh].
      - apply Hend; [rewrite Et, nth_set_other by exact N; exact Hp| |].
        + apply (Hgu _ Et). cbn. intros h X. discriminate X.
        + intros h _. rewrite Ee. reflexivity. }
    unfold cstep in E. unfold bind at 1, get_g in E. destruct c as [t' o|t' sp|t' v|k]; cbn [allowed] in Ha; [| | |discriminate Ha].
    - apply andb_true_iff in Ha. destruct Ha as [N Ha]. apply negb_true_iff, Nat.eqb_neq in N.
      destruct (nth_error (g_thr g) t') as [q|] eqn:Hq; [|inversion E; subst; apply Hnone; reflexivity].
      destruct q; try (inversion E; subst; apply Hnone; reflexivity).
      destruct (begin_shape t' o g Hq es g' E) as [[-> ->]|[(j & -> & Ej & Et & Eb & Hb)|[(h & off & cs & -> & Hb & -> & Et & Eb)|(k & ->)]]].
      + apply Hnone; reflexivity.
      + apply Hend; [rewrite Et, nth_set_other by exact N; exact Hp| |intros h _; reflexivity].
        intros t2 p2 h N2 Hp2 Eh. rewrite Et in Hp2. destruct (Nat.eq_dec t' t2) as [<-|N3].
        * rewrite (nth_set_same _ _ _ _ Hq) in Hp2. inversion Hp2; subst p2. cbn in Eh. intros [X|X].
          -- rewrite <- Ej in Ha. rewrite job_op_handle, Eh in Ha.
             assert (Ha' : negb (existsb (Nat.eqb h) mine) = true) by (destruct j; try discriminate Eh; exact Ha).
             apply negb_true_iff in Ha'. assert (existsb (Nat.eqb h) mine = true); [|congruence].
             apply existsb_exists. exists h. split; [exact X|apply Nat.eqb_refl].
          -- specialize (Hb h Eh). rewrite (busy_at g p h Hp X) in Hb. discriminate Hb.
        * rewrite nth_set_other in Hp2 by exact N3. apply (Hg t2 p2 h N2 Hp2 Eh).
      + apply Hend; [rewrite Et; exact Hp|intros t2 p2 h2 N2 Hp2; rewrite Et in Hp2; apply (Hg t2 p2 h2 N2 Hp2)|].
        intros h2 Hh. cbn. destruct (Nat.eqb_spec h h2) as [<-|]; [|reflexivity]. exfalso. destruct Hh as [X|X].
        * cbn in Ha. apply negb_true_iff in Ha. assert (existsb (Nat.eqb h) mine = true); [|congruence].
          apply existsb_exists. exists h. split; [exact X|apply Nat.eqb_refl].
        * rewrite (busy_at g p h Hp X) in Hb. discriminate Hb.
      + discriminate Ha.
    - apply negb_true_iff, Nat.eqb_neq in Ha. destruct (nth_error (g_thr g) t') as [q|] eqn:Hq; [|inversion E; subst; apply Hnone; reflexivity].
      destruct (fine_pc _ _ _ _ _ Hf Hq) as (cs & Hpc).
      apply (Hshape t' q Ha Hq). apply (go_shape su t' q sp g Hq (pc_unlock _ _ _ _ Hpc) es g' E).
    - apply negb_true_iff, Nat.eqb_neq in Ha. destruct (nth_error (g_thr g) t') as [q|] eqn:Hq; [|inversion E; subst; apply Hnone; reflexivity].
      apply (Hshape t' q Ha Hq). apply (stale_shape_ok su t' q v g Hq es g' E).
  Qed.

  (** Many of them. *)
  Definition undisturbed (mine : list nat) (p : pc) (g : gst) (log es : list event) (g' : gst) : Prop :=
    fine mine g' (log ++ es) /\ nth_error (g_thr g') t = Some p /\ guard (ours mine p) g' /\
    (length (g_tab g) <= length (g_tab g'))%nat /\
    forall h u, ours mine p h -> get h (g_tab g) = Some u ->
      get h (g_tab g') = Some u /\ same_on [u] (cmem g) (cmem g').

  Lemma undisturbed_refl mine p g log : fine mine g log -> nth_error (g_thr g) t = Some p -> guard (ours mine p) g ->
    undisturbed mine p g log [] g.
  Proof.
    intros H1 H2 H3. split; [rewrite app_nil_r; exact H1|]. split; [exact H2|]. split; [exact H3|]. split; [lia|].
    intros h u _ G. split; [exact G|apply same_on_refl].
  Qed.
  Lemma undisturbed_trans mine p g log es1 g1 es2 g2 : undisturbed mine p g log es1 g1 ->
    undisturbed mine p g1 (log ++ es1) es2 g2 -> undisturbed mine p g log (es1 ++ es2) g2.
  Proof.
    intros (_ & _ & _ & L1 & K1) (F2 & P2 & G2 & L2 & K2). split; [rewrite app_assoc; exact F2|].
    split; [exact P2|]. split; [exact G2|]. split; [lia|]. intros h u Hh G. destruct (K1 h u Hh G) as [G1 S1].
    destruct (K2 h u Hh G1) as [G' S2]. split; [exact G'|]. eapply same_on_trans; eassumption.
  Qed.

  Lemma other_crun mine p cs : forall g log, fine mine g log -> nth_error (g_thr g) t = Some p ->
    guard (ours mine p) g -> (forall h, ours mine p h -> (h < length (g_tab g))%nat) -> forallb (allowed t mine) cs = true ->
    wp (crun su cs) g (fun es g' => undisturbed mine p g log es g').
  Proof.
    induction cs as [|c cs IH]; intros g log Hf Hp Hg Hl Ha; cbn [crun].
    - apply wp_ret. apply undisturbed_refl; assumption.
    - cbn in Ha. apply andb_true_iff in Ha. destruct Ha as [Ha1 Ha2]. apply wp_bind.
      eapply wp_mono; [apply (other_cstep mine g log p c Hf Hp Hg Hl Ha1)|]. intros es1 g1 (F1 & P1 & G1 & L1 & K1).
      apply wp_bind. eapply wp_mono; [apply (IH g1 (log ++ es1) F1 P1 G1)|].
      + intros h Hh. specialize (Hl h Hh). lia.
      + exact Ha2.
      + intros es2 g2 U. apply wp_ret. eapply undisturbed_trans; [|exact U]. split; [exact F1|]. auto.
  Qed.
End Others.
