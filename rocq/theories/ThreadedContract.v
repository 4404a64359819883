(** The contract of [Allocator] for a [SyncBlinkAlloc] in the presence of other threads, and what
    it means for a [Blink]. *)
From Coq Require Import Permutation.
From Verif Require Import Base BaseFacts Alloc AllocFacts Arena ArenaFacts ArenaInv ArenaOps
  BlinkAlloc BlinkFacts History HistoryFacts Setup SetupFacts SetupOps Conc ConcFacts ConcSteps ConcProps
  ConcShape ConcKeep ConcDrain Blink BlinkInv BlinkIter BlinkEnv BlinkProps Threaded ThreadedFacts ThreadedExact ThreadedCall ThreadedOwn.

Lemma remove_perm h l l' : Permutation l l' -> Permutation (remove Nat.eq_dec h l) (remove Nat.eq_dec h l').
Proof.
  intros P. induction P as [|x l l' P IH|x y l|l l' l'' P1 IH1 P2 IH2].
  - constructor.
  - cbn [remove]. destruct (Nat.eq_dec h x); [exact IH|constructor; exact IH].
  - cbn [remove]. destruct (Nat.eq_dec h y), (Nat.eq_dec h x); try apply Permutation_refl. apply perm_swap.
  - eapply Permutation_trans; eassumption.
Qed.
Lemma remove_rest h ks mine : NoDup mine -> Permutation (h :: ks) mine -> Permutation ks (remove Nat.eq_dec h mine).
Proof.
  intros N P. apply (remove_perm h) in P as P'. cbn [remove] in P'. destruct (Nat.eq_dec h h) as [_|X]; [|congruence].
  apply (Permutation_NoDup (Permutation_sym P)) in N. inversion N as [|? ? N1 N2]; subst. rewrite notin_remove in P' by exact N1. exact P'.
Qed.
Lemma Forall2_mid {X Y} (R : X -> Y -> Prop) a x b ys : Forall2 R (a ++ x :: b) ys ->
  exists ca y cb, ys = ca ++ y :: cb /\ R x y /\ Forall2 R a ca /\ Forall2 R b cb.
Proof.
  intros H. apply Forall2_app_inv_l in H. destruct H as (ca & cb & H1 & H2 & ->). inversion H2 as [|? y ? cb' Hy Hb]; subst.
  exists ca, y, cb'. auto.
Qed.

Lemma Forall2_turn {X Y} (R : X -> Y -> Prop) xs ys : Forall2 R xs ys -> Forall2 (fun y x => R x y) ys xs.
Proof. intros H. induction H; constructor; assumption. Qed.

Section Contract.
  Variable su : setup.
  Hypothesis Hok : setup_ok su.
  Variable t : nat.
  Notation town := (town su t).
  Notation tmem s := (cmem (t_g s)).

  Lemma final_rest mine j g0 hd r g log ks us : final su t mine j g0 hd r g log ->
    (forall k, In k ks -> In k mine /\ job_handle j <> Some k) -> Forall2 (held (g_tab g0)) ks us ->
    Forall2 (held (g_tab g)) ks us /\ same_on us (cmem g0) (cmem g).
  Proof.
    intros (_ & _ & _ & _ & _ & (K & _) & _) Hk H. induction H as [|k c ks us (q & G & Wi) H IH].
    - split; [constructor|intros u x []].
    - destruct (Hk k (or_introl eq_refl)) as [K1 K2]. destruct (K k q K1 K2 G) as [G' S].
      destruct IH as [IH1 IH2]; [intros k' X; apply Hk; right; exact X|]. split.
      + constructor; [exists q; split; assumption|exact IH1].
      + intros u x [<-|Hu] Hx; [|apply (IH2 u x Hu Hx)]. apply (S q); [left; reflexivity|]. eapply within_in; eassumption.
  Qed.

  Lemma allocate_ok s us l : town s us -> req_ok (su_smax su) l ->
    wp (t_allocate su t l) s (fun r s' => same_on us (tmem s) (tmem s') /\
      match r with
      | None => town s' us
      | Some b => good_block (su_amax su) l b /\ town s' (mkU (b_ptr b) (b_len b) l :: us) /\ b_len b = l_size l
      end).
  Proof.
    intros Ht Hl. pose proof Ht as (Hs & hs & Hp & Hh). unfold t_allocate. pose proof Hl as Hl'. unfold req_ok in Hl'. rewrite Hl'.
    eapply wp_mono; [apply (call_ok su Hok t s (JAlloc l) _ hs us Ht Hp Hh Hl)|].
    intros r s' (hd & Em & F). destruct (final_rest _ _ _ _ _ _ _ hs us F) as [H1 H2].
    { intros k Hk. split; [eapply Permutation_in; eassumption|discriminate]. }
    { exact Hh. }
    split; [exact H2|]. destruct F as (Ff & Fi & Fg & Fo & _ & (_ & Fx & Fd) & _). destruct Hs as (_ & _ & Nd & _). destruct r as [b|].
    - destruct Fd as (n & -> & Nn & Gn). destruct (fine_u su _ _ _ _ _ Ff Gn) as (Gb & _). split; [exact Gb|]. split; [|exact Fx].
      split; [split; [|split; [exact Fi|split]]|].
      + rewrite Em. destruct Ff as (sb & Hi & Ha & Hod). exists sb. split; [exact Hi|]. split; [|exact Hod]. eapply alike_more; [|exact Ha]. intros k Hk. right. exact Hk.
      + rewrite Em. constructor; assumption.
      + rewrite Em. intros t' p h N H3 H4 [<-|H5]; [apply (Fo t' p n N H3 H4 eq_refl)|apply (Fg t' p h N H3 H4 H5)].
      + exists (n :: hs). rewrite Em. split; [constructor; exact Hp|]. constructor; [|exact H1]. eexists. split; [exact Gn|left; reflexivity].
    - rewrite Fd in Em. split; [split; [rewrite Em; exact Ff|split; [exact Fi|split; rewrite Em; [exact Nd|exact Fg]]]|].
      exists hs. rewrite Em. split; assumption.
  Qed.

  (** The block that is meant. *)
  Lemma pick_ok s u us l : town s (u :: us) -> fits l u ->
    exists h r ks, pick (u_ptr u) l (g_tab (t_g s)) (t_mine s) = Some (h, r) /\
      In h (t_mine s) /\ get h (g_tab (t_g s)) = Some r /\ u_ptr r = u_ptr u /\ fits l r /\
      Permutation (h :: ks) (t_mine s) /\ Forall2 (held (g_tab (t_g s))) ks us.
  Proof.
    intros ((Hf & Hi & Nd & Hg) & hs & Hp & Hh) Hfit. inversion Hh as [|hu u' hs1 us' (ru & Gu & Wu) Hr]; subst u' us' hs.
    assert (Hu : In hu (t_mine s)) by (apply (Permutation_in _ Hp); left; reflexivity).
    destruct (fine_u su _ _ _ _ _ Hf Gu) as ((U1 & U2 & U3 & U4) & U5 & U6). cbn [ublk b_ptr b_len] in *.
    assert (Pu : u_ptr ru = u_ptr u /\ u_layout ru = u_layout u) by (destruct Wu as [->|(P1 & P2 & _)]; auto). destruct Pu as [Pu Lu].
    assert (Fu : fits l ru).
    { destruct Wu as [->|(P1 & P2 & P3 & P4)]; [exact Hfit|]. destruct Hfit as (F1 & F2). rewrite P2 in *. split; [exact F1|]. lia. }
    destruct (pick (u_ptr u) l (g_tab (t_g s)) (t_mine s)) as [[h r]|] eqn:E.
    2: { destruct (pick_none _ _ _ _ _ _ E Hu Gu Pu Fu). }
    destruct (pick_some _ _ _ _ _ _ E) as (H1 & H2 & H3 & H4 & H5). exists h, r.
    destruct (Nat.eq_dec h hu) as [->|N].
    - exists hs1. split; [reflexivity|]. split; [exact H1|]. split; [exact H2|]. split; [exact H3|]. split; [exact H4|]. split; [exact Hp|exact Hr].
    - assert (Hin : In h hs1) by (apply (Permutation_in h (Permutation_sym Hp)) in H1; destruct H1 as [X|X]; [congruence|exact X]).
      destruct (fine_u su _ _ _ _ _ Hf H2) as ((V1 & V2 & V3 & V4) & V5 & V6). cbn [ublk b_ptr b_len] in *.
      specialize (H5 hu ru Hu Gu Pu Fu).
      assert (Z0 : u_len r = 0).
      { destruct (Z.eq_dec (u_len r) 0) as [X|X]; [exact X|]. exfalso.
        apply (fine_disj su _ _ _ h hu r ru Hf N H2 Gu (u_ptr u)); unfold in_u; lia. }
      apply in_split in Hin. destruct Hin as (a & b & ->). destruct (Forall2_mid _ _ _ _ _ Hr) as (ca & v & cb & -> & (r' & Gr & Wv) & Ha & Hb).
      rewrite H2 in Gr. injection Gr as <-.
      exists (a ++ hu :: b). split; [reflexivity|]. split; [exact H1|]. split; [exact H2|]. split; [exact H3|]. split; [exact H4|]. split.
      + eapply Permutation_trans; [|exact Hp]. change (h :: a ++ hu :: b) with ((h :: a) ++ hu :: b). eapply Permutation_trans; [symmetry; apply Permutation_middle|].
        constructor. cbn. apply Permutation_middle.
      + apply Forall2_app; [exact Ha|]. constructor; [|exact Hb]. exists ru. split; [exact Gu|]. right.
        destruct H4 as (A1 & A2). destruct Hfit as (B1 & B2). destruct Fu as (C1 & C2).
        assert (Ly : u_layout r = u_layout ru).
        { destruct (u_layout r) as [s1 a1], (u_layout ru) as [s2 a2]. cbn in *. f_equal; lia. }
        assert (Hv : u_ptr v = u_ptr r /\ u_layout v = u_layout r /\ u_len v = 0) by (destruct Wv as [->|(P1 & P2 & P3 & P4)]; auto).
        destruct Hv as (Q1 & Q2 & Q3). split; [congruence|]. split; [congruence|]. split; [exact Q3|]. lia.
  Qed.

  Lemma deallocate_ok s u us l : town s (u :: us) -> fits l u ->
    wp (t_deallocate su t (u_ptr u) l) s (fun _ s' => same_on us (tmem s) (tmem s') /\ town s' us).
  Proof.
    intros Ht Hfit. destruct (pick_ok s u us l Ht Hfit) as (h & r & ks & E & H1 & H2 & H3 & H4 & H5 & H6).
    unfold wp, t_deallocate. rewrite E. pose proof Ht as (Hs & hs & Hp & Hh).
    pose proof (call_ok su Hok t s (JDealloc h r l) (fun _ mine => remove Nat.eq_dec h mine) hs (u :: us) Ht Hp Hh (conj H1 (conj H2 H4))) as W.
    unfold wp in W. cbn [job_op] in W. unfold bind. destruct (call su t (OpDealloc h l) _ s) as [r' s'| | |]; try contradiction. cbn.
    destruct W as (hd & Em & F). destruct Hs as (_ & _ & Nd & _).
    assert (Nh : ~ In h ks). { apply (Permutation_NoDup (Permutation_sym H5)) in Nd. inversion Nd; assumption. }
    destruct (final_rest _ _ _ _ _ _ _ ks us F) as [R1 R2].
    { intros k Hk. split; [apply (Permutation_in k H5); right; exact Hk|]. cbn. intros X. injection X as ->. contradiction. }
    { exact H6. }
    split; [exact R2|]. destruct F as (Ff & Fi & Fg & _ & _ & _ & (G1 & G2)).
    split; [split; [|split; [exact Fi|split]]|exists ks; rewrite Em; split; [apply remove_rest; assumption|exact R1]]; rewrite Em.
    - destruct Ff as (sb & Hi & (L & Ha) & Hod). exists sb. split; [exact Hi|]. split; [|exact Hod]. split; [exact L|]. intros k. destruct (Ha k) as [A1 A2]. split; [exact A1|].
      intros Hk. destruct (Nat.eq_dec k h) as [->|N].
      + rewrite G2 in *. destruct (get h sb); [discriminate A1|reflexivity].
      + apply A2. intros X. apply Hk. apply in_in_remove; assumption.
    - apply (Permutation_NoDup (remove_rest h ks (t_mine s) Nd H5)).
      apply (Permutation_NoDup (Permutation_sym H5)) in Nd. inversion Nd; assumption.
    - intros t' p k N X Y Z. apply in_remove in Z. apply (Fg t' p k N X Y). apply Z.
  Qed.

  Lemma resize_ok s u us old new : town s (u :: us) -> fits old u -> req_ok (su_smax su) new ->
    wp (t_resize su t (u_ptr u) old new) s (fun r s' => same_on us (tmem s) (tmem s') /\
      match r with
      | None => same_on [u] (tmem s) (tmem s') /\ town s' (u :: us)
      | Some b => good_block (su_amax su) new b /\ town s' (mkU (b_ptr b) (b_len b) new :: us) /\
          (forall i, 0 <= i < Z.min (l_size old) (l_size new) -> tmem s' (b_ptr b + i) = tmem s (u_ptr u + i)) /\
          (l_size old <= l_size new -> b_len b = l_size new)
      end).
  Proof.
    intros Ht Hfit Hn. destruct (pick_ok s u us old Ht Hfit) as (h & q & ks & E & H1 & H2 & H3 & H4 & H5 & H6).
    unfold wp, t_resize. rewrite E. pose proof Hn as Hn'. unfold req_ok in Hn'. rewrite Hn'. pose proof Ht as (Hs & hs & Hp & Hh).
    pose proof (call_ok su Hok t s (JResize h q old new) (fun _ mine => mine) hs (u :: us) Ht Hp Hh (conj H1 (conj H2 (conj H4 Hn)))) as W.
    unfold wp in W. cbn [job_op] in W. destruct (call su t (OpResize h old new) _ s) as [r s'| | |]; try contradiction.
    destruct W as (hd & Em & F). destruct Hs as (_ & _ & Nd & _).
    assert (Nh : ~ In h ks). { apply (Permutation_NoDup (Permutation_sym H5)) in Nd. inversion Nd; assumption. }
    destruct (final_rest _ _ _ _ _ _ _ ks us F) as [R1 R2].
    { intros k Hk. split; [apply (Permutation_in k H5); right; exact Hk|]. cbn. intros X. injection X as ->. contradiction. }
    { exact H6. }
    split; [exact R2|]. destruct F as (Ff & Fi & Fg & _ & _ & (K & Fx & Fd) & _).
    assert (St : settled su t s') by (split; [rewrite Em; exact Ff|split; [exact Fi|split; rewrite Em; [exact Nd|exact Fg]]]).
    destruct r as [b|].
    - destruct Fd as (_ & Gn & C). destruct (fine_u su _ _ _ _ _ Ff Gn) as (Gb & _). split; [exact Gb|]. split; [|split; [|exact Fx]].
      + split; [exact St|]. exists (h :: ks). rewrite Em. split; [exact H5|]. constructor; [|exact R1]. eexists. split; [exact Gn|left; reflexivity].
      + intros i Hi. destruct Gb as (_ & _ & Gb & _). rewrite <- H3. apply C; [exact Hi|]. cbn in Gb. lia.
    - destruct Fd as (_ & Gn & C).
      assert (Hall : forall k v, In k (t_mine s) -> get k (g_tab (t_g s)) = Some v -> get k (g_tab (t_g s')) = Some v /\ same_on [v] (tmem s) (tmem s')).
      { intros k v Hk G. destruct (Nat.eq_dec k h) as [->|N]; [rewrite H2 in G; injection G as <-; split; assumption|].
        apply (K k v Hk); [cbn; congruence|exact G]. }
      assert (Hin : forall k, In k hs -> In k (t_mine s)) by (intros k; apply Permutation_in; exact Hp).
      assert (Hres : Forall2 (held (g_tab (t_g s'))) hs (u :: us) /\ same_on (u :: us) (tmem s) (tmem s')).
      { clear - Hh Hall Hin. induction Hh as [|k c hs0 us0 (v & G & Wi) H IH]; [split; [constructor|intros ? ? []]|].
        destruct (Hall k v (Hin k (or_introl eq_refl)) G) as [G' S]. destruct IH as [I1 I2]; [intros k' X; apply Hin; right; exact X|].
        split; [constructor; [exists v; split; assumption|exact I1]|]. intros w x [<-|Hw] Hx; [|apply (I2 w x Hw Hx)].
        apply (S v); [left; reflexivity|]. eapply within_in; eassumption. }
      destruct Hres as [I1 I2]. split; [intros w x [<-|[]] Hx; apply (I2 u x (or_introl eq_refl) Hx)|].
      split; [exact St|]. exists hs. rewrite Em. split; [exact Hp|exact I1].
  Qed.

  Lemma threaded_contract : contract (su_amax su) (su_smax su) (threaded su t) town.
  Proof.
    constructor; cbn [threaded al_mem al_set_mem al_allocate al_deallocate al_grow al_shrink].
    - intros s us us' (Hs & hs & Hp & Hh) P. split; [exact Hs|]. apply Forall2_turn in Hh.
      destruct (Permutation_Forall2 P Hh) as (hs' & P' & Hh'). exists hs'. split; [eapply Permutation_trans; [symmetry; exact P'|exact Hp]|].
      apply Forall2_turn in Hh'. exact Hh'.
    - intros s us ((Hf & _ & Nd & _) & hs & Hp & Hh). split; [apply (held_ok su _ _ _ _ _ Hf Hh)|].
      apply (held_disj su _ _ _ _ _ Hf (Permutation_NoDup (Permutation_sym Hp) Nd) Hh).
    - intros s m. reflexivity.
    - intros s us m Ht H. apply town_write; [exact Hok|exact Ht|exact H].
    - intros s us l Ht Hl. eapply wp_mono; [apply (allocate_ok s us l Ht Hl)|]. intros r s' [H1 H2]. split; [exact H1|].
      destruct r as [b|]; [destruct H2 as (H2 & H3 & _); split; assumption|exact H2].
    - intros s us u l Ht Hl. apply (deallocate_ok s u us l Ht Hl).
    - intros s us u old new Ht Hf Hl Hle. eapply wp_mono; [apply (resize_ok s u us old new Ht Hf Hl)|]. intros r s' [H1 H2]. split; [exact H1|].
      destruct r as [b|]; [|exact H2]. destruct H2 as (H2 & H3 & H4 & _). split; [exact H2|]. split; [exact H3|]. intros i Hi. apply H4. lia.
    - intros s us u old new Ht Hf Hl Hle. eapply wp_mono; [apply (resize_ok s u us old new Ht Hf Hl)|]. intros r s' [H1 H2]. split; [exact H1|].
      destruct r as [b|]; [|exact H2]. destruct H2 as (H2 & H3 & H4 & _). split; [exact H2|]. split; [exact H3|]. intros i Hi. apply H4. lia.
  Qed.

  Lemma threaded_exact : exact_alloc (su_smax su) (threaded su t) town.
  Proof.
    split; [|split]; cbn [threaded al_mem al_set_mem al_allocate al_deallocate al_grow al_shrink].
    - intros s us l Ht Hl. eapply wp_mono; [apply (allocate_ok s us l Ht Hl)|]. intros r s' [_ H]. destruct r; [apply H|exact Logic.I].
    - intros s us u old new Ht Hf Hl Hle. eapply wp_mono; [apply (resize_ok s u us old new Ht Hf Hl)|]. intros r s' [_ H].
      destruct r; [apply H; exact Hle|exact Logic.I].
    - reflexivity.
  Qed.
End Contract.

(** A [Blink] of thread [t] on a [&SyncBlinkAlloc]; resetting it does nothing to the allocator
    (api.rs 46-52). *)
Definition threading (su : setup) (t : nat) (bomb : Z -> Z -> bool) : env :=
  mkEnv tst (threaded su t) (town su t) (ret tt) (su_amax su) (su_smax su) (su_dbg su) bomb true true.

Lemma threading_ok su t bomb : setup_ok su -> ISIZE_MAX <= su_smax su -> env_ok (threading su t bomb).
Proof.
  intros Hok Hs. split; [apply threaded_contract; exact Hok|]. split; [exact Hs|].
  cbn [e_exact e_smax e_A e_own e_reset e_shared threading e_W]. split; [intros _; apply threaded_exact; exact Hok|].
  intros w us fr Ho _. apply wp_ret. exists us. split; [exact Ho|apply same_on_refl].
Qed.

(** It may start at any moment of the life of the allocator. *)
Lemma threading_ready su t bomb n sched es g todo : setup_ok su -> creached su n sched es g ->
  nth_error (g_thr g) t = Some Idle -> ready (threading su t bomb) [] (mkT g [] es todo).
Proof.
  intros Hok Hr Hi. exists []. split; [|left; reflexivity]. cbn [app e_own threading]. split.
  - split; [|split; [exact Hi|split; [constructor|]]]; cbn [t_g t_mine t_log t_todo].
    + exists (sevs es []). split; [apply (creached_inv su Hok n sched es g Hr)|]. split; [apply alike_refl|].
      intros t' p Hp. destruct (crun_thread su _ _ _ _ Hr) as [L H].
      assert (Lt : (t' < n)%nat) by (rewrite <- (repeat_length Idle n); change (repeat Idle n) with (g_thr (cstart su n)); rewrite <- L; apply nth_error_Some; congruence).
      assert (Hs : nth_error (g_thr (cstart su n)) t' = Some Idle).
      { cbn. rewrite (nth_error_nth' _ Idle) by (rewrite repeat_length; exact Lt). rewrite nth_repeat. reflexivity. }
      destruct (H t' Idle Hs) as (q & Hq & F). rewrite Hp in Hq. injection Hq as <-. exact F.
    + intros t' p h _ _ _ [].
  - exists []. split; constructor.
Qed.

Section After.
  Variables (su : setup) (t : nat) (bomb : Z -> Z -> bool).
  Hypothesis Hok : setup_ok su.
  Hypothesis Hs : ISIZE_MAX <= su_smax su.
  Notation E := (threading su t bomb).
  Let HE := threading_ok su t bomb Hok Hs.

  Lemma after_town fr w os s : arrives E fr w os s -> exists us, town su t (bl_w s) us.
  Proof. intros Ha. destruct (arrived E HE _ _ _ _ Ha) as [(junk & Ho & _) _]. eexists. exact Ho. Qed.

  (** What the others have is what their calls and writes have made of it. *)
  Lemma others_hold fr w os s h u : arrives E fr w os s -> get h (g_tab (t_g (bl_w s))) = Some u -> ~ In h (t_mine (bl_w s)) ->
    exists b, get h (srun (lin_ops (t_log (bl_w s))) (map (option_map b_len) (lin_results (t_log (bl_w s)))) []) = Some b /\ buf_agrees (cmem (t_g (bl_w s))) u b.
  Proof.
    intros Ha G N. destruct (after_town _ _ _ _ Ha) as (us & ((sb & (cs & _ & _ & _ & Ag & _) & (_ & Hal) & _) & _) & _).
    destruct (agrees_get _ _ _ _ _ Ag G) as (t1 & t2 & s1 & s2 & b & _ & Es & _ & L2 & Hb & _).
    exists b. destruct (Hal h) as [_ X]. rewrite <- sevs_run, <- (X N). split; [|exact Hb]. rewrite Es, <- L2. apply get_mid.
  Qed.

  (** Every call in the record takes effect once, between its beginning and its return. *)
  Lemma in_order fr w os s t' : arrives E fr w os s -> (t' < length (g_thr (t_g (bl_w s))))%nat ->
    exists ph, follows t' PIdle (t_log (bl_w s)) ph /\ (ph = PIdle <-> nth_error (g_thr (t_g (bl_w s))) t' = Some Idle).
  Proof.
    intros Ha L. destruct (after_town _ _ _ _ Ha) as (us & ((sb & _ & _ & Ho) & _) & _).
    destruct (nth_error (g_thr (t_g (bl_w s))) t') as [p|] eqn:Hp; [|apply nth_error_None in Hp; lia].
    exists (phase_of p). split; [apply (Ho t' p Hp)|]. split.
    - destruct p; cbn; try discriminate; [reflexivity|]. destruct next; discriminate.
    - intros X; injection X as ->; reflexivity.
  Qed.

  (** Blocks of others, whether they have them or are about to get them, and references. *)
  Lemma refs_apart_theirs fr w os s i r h u x : arrives E fr w os s -> get i (bl_tab s) = Some r ->
    get h (g_tab (t_g (bl_w s))) = Some u -> ~ In h (t_mine (bl_w s)) -> covers r x -> ~ in_u x u.
  Proof.
    intros Ha Gi G N Hc Hx. destruct (arrived E HE _ _ _ _ Ha) as [(junk & Ho & _ & Hf & _) _].
    destruct (agree_get _ _ _ _ _ Hf Gi) as ([[r1 d1] v1] & _ & (_ & _ & _ & P1 & _)).
    destruct (covers_block _ _ P1 Hc) as (v & Bv & Iv).
    destruct Ho as ((Hfi & _ & _ & _) & hs & Hp & Hh).
    destruct (held_in _ _ _ v Hh) as (k & Hk & q & Gq & Wq).
    { apply in_or_app. left. apply in_flat_map. exists r. split; [apply live_in; eauto|rewrite Bv; left; reflexivity]. }
    apply (fine_disj su _ _ _ k h q u Hfi) with (x := x); auto.
    - intros ->. apply N. apply (Permutation_in _ Hp). exact Hk.
    - eapply within_in; eassumption.
  Qed.
End After.
