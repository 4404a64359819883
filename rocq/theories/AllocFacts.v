(** Facts about the [Allocator] contract; the adversarial bottom allocator
    meets it for every honest strategy. *)
From Coq Require Import Permutation.
From Verif Require Import Base BaseFacts Alloc.

(** ** Weakest preconditions *)

Lemma wp_ret {W A} (a : A) (w : W) (Q : A -> W -> Prop) : Q a w -> wp (ret a) w Q.
Proof. intros H; exact H. Qed.

Lemma wp_bind {W A B} (m : M W A) (f : A -> M W B) w Q :
  wp m w (fun a w' => wp (f a) w' Q) -> wp (bind m f) w Q.
Proof. unfold wp, bind. destruct (m w); auto. Qed.

Lemma wp_mono {W A} (m : M W A) w (Q Q' : A -> W -> Prop) :
  wp m w Q -> (forall a w', Q a w' -> Q' a w') -> wp m w Q'.
Proof. unfold wp. destruct (m w); auto. Qed.

Lemma wp_conj {W A} (m : M W A) w (Q Q' : A -> W -> Prop) :
  wp m w Q -> wp m w Q' -> wp m w (fun a w' => Q a w' /\ Q' a w').
Proof. unfold wp. destruct (m w); auto. Qed.

Lemma wp_inv {W A} (m : M W A) w (Q : A -> W -> Prop) :
  wp m w Q -> exists a w', m w = ORet a w' /\ Q a w'.
Proof. unfold wp. destruct (m w); try contradiction. eauto. Qed.

Lemma wp_intro {W A} (m : M W A) w (Q : A -> W -> Prop) a w' :
  m w = ORet a w' -> Q a w' -> wp m w Q.
Proof. unfold wp. intros ->; auto. Qed.

Lemma wp_elim {W A} (m : M W A) w (Q : A -> W -> Prop) a w' :
  wp m w Q -> m w = ORet a w' -> Q a w'.
Proof. unfold wp. intros H E. rewrite E in H. exact H. Qed.

Lemma wp_debug_assert {W} dbg b (w : W) (Q : unit -> W -> Prop) :
  (dbg = true -> b = true) -> Q tt w -> wp (debug_assert dbg b) w Q.
Proof.
  intros H HQ. unfold debug_assert. destruct dbg; [rewrite H by reflexivity|]; exact HQ.
Qed.

Lemma wp_add_usize {W} dbg a b (w : W) (Q : Z -> W -> Prop) :
  a + b <= USIZE_MAX -> Q (a + b) w -> wp (add_usize dbg a b) w Q.
Proof. intros H HQ. unfold add_usize. replace (a + b <=? USIZE_MAX) with true by lia. exact HQ. Qed.

Lemma wp_sub_usize {W} dbg a b (w : W) (Q : Z -> W -> Prop) :
  b <= a -> Q (a - b) w -> wp (sub_usize dbg a b) w Q.
Proof. intros H HQ. unfold sub_usize. replace (b <=? a) with true by lia. exact HQ. Qed.

Lemma wp_ptr_add {W} p n (w : W) (Q : Z -> W -> Prop) :
  p + n <= USIZE_MAX -> Q (p + n) w -> wp (ptr_add p n) w Q.
Proof. intros H HQ. unfold ptr_add. replace (p + n <=? USIZE_MAX) with true by lia. exact HQ. Qed.

Lemma wp_mload {W} (A : Allocator W) a n v w (Q : Z -> W -> Prop) :
  load (al_mem A w) a n = Some v -> Q v w -> wp (mload A a n) w Q.
Proof. intros H HQ. unfold wp, mload. rewrite H. exact HQ. Qed.

Lemma wp_mstore {W} (A : Allocator W) a n v w (Q : unit -> W -> Prop) :
  Q tt (al_set_mem A w (store (al_mem A w) a n v)) -> wp (mstore A a n v) w Q.
Proof. intros HQ; exact HQ. Qed.

Lemma wp_mfill {W} (A : Allocator W) a n c w (Q : unit -> W -> Prop) :
  Q tt (al_set_mem A w (fill (al_mem A w) a n c)) -> wp (mfill A a n c) w Q.
Proof. intros HQ; exact HQ. Qed.

Lemma wp_mcopy {W} (A : Allocator W) s d n w (Q : unit -> W -> Prop) :
  n <= 0 \/ s + n <= d \/ d + n <= s ->
  0 <= n ->
  Q tt (al_set_mem A w (copy (al_mem A w) s d n)) -> wp (mcopy A s d n) w Q.
Proof.
  intros H Hn HQ. unfold wp, mcopy.
  replace ((n =? 0) || (s + n <=? d) || (d + n <=? s)) with true by lia. exact HQ.
Qed.

(** ** Pairwise relations *)

Lemma disjoint_u_sym u v : disjoint_u u v -> disjoint_u v u.
Proof. intros H x Hx Hy. exact (H x Hy Hx). Qed.

Lemma pairwise_perm {A} (R : A -> A -> Prop) :
  (forall x y, R x y -> R y x) ->
  forall l l', Permutation l l' -> pairwise R l -> pairwise R l'.
Proof.
  intros Sym l l' P. induction P as [|x l l' P IH|x y l|l l' l'' P1 IH1 P2 IH2]; cbn [pairwise].
  - auto.
  - intros [H1 H2]. split; [|auto]. rewrite <- P. exact H1.
  - intros [H1 [H2 H3]]. inversion H1 as [|? ? Hyx H1']; subst. repeat split; auto.
  - auto.
Qed.

Lemma pairwise_app {A} (R : A -> A -> Prop) l1 l2 :
  pairwise R (l1 ++ l2) <->
  pairwise R l1 /\ pairwise R l2 /\ (forall x y, In x l1 -> In y l2 -> R x y).
Proof.
  induction l1 as [|a l1 IH]; cbn [app pairwise].
  - split; [intros H; split; [exact I|split; [exact H|intros x y Hx; destruct Hx]] | tauto].
  - rewrite IH, Forall_app, !Forall_forall. split.
    + intros ((H1 & H2) & H3 & H4 & H5). repeat split; auto.
      intros x y [<-|Hx] Hy; auto.
    + intros ((H1 & H2) & H3 & H4). split; [split|split; [|split]].
      * exact H1.
      * intros y Hy. apply H4; [left; reflexivity|exact Hy].
      * exact H2.
      * exact H3.
      * intros x y Hx Hy; apply H4; [right|]; assumption.
Qed.

Lemma pairwise_in {A} (R : A -> A -> Prop) l x y :
  (forall x y, R x y -> R y x) -> pairwise R l -> In x l -> In y l -> x = y \/ R x y.
Proof.
  intros Sym. induction l as [|a l IH]; cbn [pairwise In]; [tauto|].
  rewrite Forall_forall. intros [H1 H2] [<-|Hx] [<-|Hy]; auto.
Qed.

Lemma same_on_refl us m : same_on us m m.
Proof. intros u x _ _; reflexivity. Qed.

Lemma same_on_trans us m1 m2 m3 : same_on us m1 m2 -> same_on us m2 m3 -> same_on us m1 m3.
Proof. intros H1 H2 u x Hu Hx. rewrite (H2 u x Hu Hx). apply (H1 u x Hu Hx). Qed.

Lemma same_on_incl us us' m m' : incl us' us -> same_on us m m' -> same_on us' m m'.
Proof. intros H1 H2 u x Hu Hx. apply (H2 u x (H1 u Hu) Hx). Qed.

Lemma same_on_app us us' m m' :
  same_on (us ++ us') m m' <-> same_on us m m' /\ same_on us' m m'.
Proof.
  split.
  - intros H. split; (eapply same_on_incl; [|exact H]); intros u Hu; apply in_or_app; auto.
  - intros [H1 H2] u x Hu Hx. apply in_app_or in Hu. destruct Hu; [apply (H1 u)|apply (H2 u)]; auto.
Qed.

Lemma same_on_cons u us m m' :
  same_on (u :: us) m m' <-> same_on [u] m m' /\ same_on us m m'.
Proof. apply (same_on_app [u] us). Qed.

(** ** Requests *)

Lemma req_ok_facts smax l :
  req_ok smax l ->
  exists k, 0 <= k /\ l_align l = 2 ^ k /\ 0 < l_align l /\ 0 <= l_size l /\
            l_size l + (l_align l - 1) <= smax.
Proof.
  unfold req_ok, req_okb. intros H. repeat rewrite andb_true_iff in H.
  destruct H as [[Hp Hs] Hm]. apply is_pow2_spec in Hp. destruct Hp as (k & Hk & He).
  assert (0 < 2 ^ k) by (apply Z.pow_pos_nonneg; lia).
  exists k. rewrite He in *. repeat split; auto; lia.
Qed.

Lemma req_ok_intro smax l :
  is_pow2 (l_align l) = true -> 0 <= l_size l -> l_size l + (l_align l - 1) <= smax ->
  req_ok smax l.
Proof. intros H1 H2 H3. unfold req_ok, req_okb. rewrite H1. cbn. lia. Qed.

Lemma req_ok_layout l : req_ok ISIZE_MAX l <-> layout_ok l.
Proof.
  unfold req_ok, req_okb, layout_ok, layout_okb.
  split; intros H; repeat rewrite andb_true_iff in *; unfold ISIZE_MAX in *; lia.
Qed.

Lemma req_ok_mono smax smax' l : smax <= smax' -> req_ok smax l -> req_ok smax' l.
Proof. intros H. unfold req_ok, req_okb. rewrite !andb_true_iff. lia. Qed.

Lemma pow2_le_exp k j : 0 <= k -> 2 ^ k <= 2 ^ j -> 0 <= j -> k <= j.
Proof. intros Hk H Hj. apply (Z.pow_le_mono_r_iff 2); lia. Qed.

(** ** The bottom allocator *)

Lemma fitsb_spec l u : fitsb l u = true <-> fits l u.
Proof. unfold fitsb, fits. rewrite !andb_true_iff. lia. Qed.

Lemma remove_fit_some p l us us' :
  remove_fit p l us = Some us' ->
  exists u, u_ptr u = p /\ fits l u /\ Permutation us (u :: us').
Proof.
  revert us'. induction us as [|v us IH]; intros us'; cbn [remove_fit]; [discriminate|].
  destruct ((u_ptr v =? p) && fitsb l v) eqn:E.
  - intros H; inversion H; subst. apply andb_true_iff in E. destruct E as [E1 E2].
    exists v. rewrite fitsb_spec in E2. repeat split; auto; try lia; try apply E2.
  - destruct (remove_fit p l us) as [r|]; [|discriminate].
    intros H; inversion H; subst. destruct (IH r eq_refl) as (u & Hp & Hf & P).
    exists u. repeat split; auto; try apply Hf.
    rewrite P. apply perm_swap.
Qed.

Lemma remove_fit_in u l us :
  In u us -> fits l u -> exists us', remove_fit (u_ptr u) l us = Some us'.
Proof.
  intros Hin Hf. induction us as [|v us IH]; [destruct Hin|]. cbn [remove_fit].
  destruct ((u_ptr v =? u_ptr u) && fitsb l v) eqn:E; [eauto|].
  destruct Hin as [<-|Hin].
  - apply fitsb_spec in Hf. rewrite Hf in E. lia.
  - destruct (IH Hin) as [r ->]. eauto.
Qed.

(** Blocks of the bottom allocator: well-formed, disjoint, and of length zero
    when of size zero. *)
Definition bwf (amax : Z) (us : list ublock) : Prop :=
  Forall (u_ok amax) us /\ pairwise disjoint_u us /\
  Forall (fun u => l_size (u_layout u) = 0 -> u_len u = 0) us.

Definition base_own (amax smax : Z) (w : bworld) (us : list ublock) : Prop :=
  (bwf amax us /\ Permutation us (outstanding (bw_trace w))) /\ legal smax (bw_trace w).

Lemma bwf_perm amax us us' : Permutation us us' -> bwf amax us -> bwf amax us'.
Proof.
  intros P (H1 & H2 & H3). repeat split.
  - rewrite <- P. exact H1.
  - apply (pairwise_perm _ disjoint_u_sym us); assumption.
  - rewrite <- P. exact H3.
Qed.

Lemma ublock_eq u v :
  u_ptr u = u_ptr v -> u_len u = u_len v -> l_size (u_layout u) = l_size (u_layout v) ->
  l_align (u_layout u) = l_align (u_layout v) -> u = v.
Proof.
  destruct u as [p n [s a]], v as [p' n' [s' a']]; cbn. intros -> -> -> ->. reflexivity.
Qed.

Lemma bwf_unique amax us u v l :
  bwf amax us -> In u us -> In v us -> fits l u -> fits l v -> u_ptr u = u_ptr v -> u = v.
Proof.
  intros (H1 & H2 & H3) Hu Hv [Fu1 Fu2] [Fv1 Fv2] E.
  destruct (pairwise_in _ us u v disjoint_u_sym H2 Hu Hv) as [|D]; [assumption|].
  rewrite Forall_forall in H1, H3.
  destruct (H1 u Hu) as (_ & _ & Su). destruct (H1 v Hv) as (_ & _ & Sv).
  pose proof (H3 u Hu) as Zu. pose proof (H3 v Hv) as Zv. cbn in Zu, Zv.
  specialize (D (u_ptr u)). unfold in_u in D.
  destruct (Z.eq_dec (u_len u) 0) as [Eu|Nu].
  - apply ublock_eq; lia.
  - destruct (Z.eq_dec (u_len v) 0) as [Ev|Nv]; [apply ublock_eq; lia|exfalso; lia].
Qed.

Lemma base_own_remove amax w u us l :
  bwf amax (u :: us) /\ Permutation (u :: us) (outstanding (bw_trace w)) -> fits l u ->
  exists us', remove_fit (u_ptr u) l (outstanding (bw_trace w)) = Some us' /\
              Permutation us us'.
Proof.
  intros (Hwf & P) Hf.
  assert (Hin : In u (outstanding (bw_trace w))) by (rewrite <- P; left; reflexivity).
  destruct (remove_fit_in u l _ Hin Hf) as [us' E]. exists us'. split; [exact E|].
  destruct (remove_fit_some _ _ _ _ E) as (v & Ep & Fv & Pv).
  assert (v = u); [|subst v].
  { eapply bwf_unique; [exact Hwf| | |exact Fv|exact Hf|exact Ep].
    - rewrite P, Pv; left; reflexivity.
    - left; reflexivity. }
  apply Permutation_cons_inv with u. rewrite P. exact Pv.
Qed.

Lemma u_ok_fits_req amax smax u l :
  amax <= smax -> u_ok amax u -> fits l u -> req_ok smax l.
Proof.
  intros Ha (Hg & Hp & Hs) [F1 F2]. destruct Hg as (G1 & G2 & G3 & G4).
  unfold ublk in *; cbn in *.
  apply req_ok_intro; [rewrite F1; exact Hp|lia|].
  assert (Hpos : 0 < l_align (u_layout u)).
  { apply is_pow2_spec in Hp. destruct Hp as (k & Hk & ->). apply Z.pow_pos_nonneg; lia. }
  assert (l_align (u_layout u) <= u_ptr u).
  { apply Z.mod_divide in G2; [|lia]. destruct G2 as [q Hq].
    assert (1 <= q) by nia. nia. }
  lia.
Qed.

Lemma mkU_ok amax smax l b :
  req_ok smax l -> good_block amax l b -> u_ok amax (mkU (b_ptr b) (b_len b) l).
Proof.
  intros Hr Hg. destruct (req_ok_facts _ _ Hr) as (k & Hk & Ea & Hpos & Hs & _).
  split; [exact Hg|]. cbn. split; [|lia].
  apply is_pow2_spec. eauto.
Qed.

Lemma base_contract amax smax S :
  amax <= smax -> honest amax S -> contract amax smax (base smax S) (base_own amax smax).
Proof.
  intros Hmax [Ha Hr]. constructor.
  - intros w us us' [[Hwf P] Lg] PP. split; [|exact Lg]. split; [apply (bwf_perm _ us); assumption|].
    rewrite <- PP. exact P.
  - intros w us [[(H1 & H2 & _) _] _]. split; assumption.
  - reflexivity.
  - intros w us m [[Hwf P] Lg] _. split; [|exact Lg]. split; [exact Hwf|exact P].
  - intros w us l [[Hwf P] Lg] Hl. unfold wp, base; cbn. unfold base_allocate.
    rewrite Hl; cbn.
    specialize (Ha (bw_trace w) l).
    destruct (st_alloc S (bw_trace w) l) as [b|] eqn:E.
    + destruct (Ha b eq_refl) as (Hg & Hz & Hd). rewrite <- P in Hd. split.
      * intros u x Hu Hx. apply fill_other.
        rewrite Forall_forall in Hd. specialize (Hd u Hu x). unfold in_u in *; cbn in *.
        destruct Hg as (_ & _ & ? & _). lia.
      * split; [exact Hg|]. destruct Hwf as (W1 & W2 & W3). split; [|split; assumption].
        split; [|cbn; apply perm_skip; exact P].
        split; [|split].
        -- constructor; [eapply mkU_ok; eassumption|exact W1].
        -- split; assumption.
        -- constructor; assumption.
    + split; [apply same_on_refl|]. split; [split; assumption|]. split; assumption.
  - intros w us u l [Hown Lg] Hf. unfold wp, base; cbn. unfold base_deallocate.
    pose proof Hown as [Hwf P].
    assert (Hq : req_ok smax l).
    { destruct Hwf as (W1 & _). inversion W1; subst. eapply u_ok_fits_req; eassumption. }
    rewrite Hq; cbn.
    destruct (base_own_remove amax w u us l Hown Hf) as (us' & E & PP). rewrite E.
    destruct Hwf as (W1 & W2 & W3). inversion W1; inversion W3; subst.
    destruct W2 as [W2' W2]. split.
    { intros v x Hv Hx. apply fill_other. rewrite Forall_forall in W2'.
      specialize (W2' v Hv x). destruct Hf. unfold in_u in *. lia. }
    split; [split; [|cbn; rewrite E; exact PP]; repeat split; assumption|].
    split; [exact Lg|]. split; [exact Hq|]. exists u. split; [|split; [reflexivity|exact Hf]].
    apply (Permutation_in u P). left; reflexivity.
  - intros w us u old new [Hown Lg] Hf Hn Hle. unfold wp, base; cbn. unfold base_grow.
    replace (l_size old <=? l_size new) with true by lia. unfold base_resize.
    pose proof Hown as [(W1 & W2 & W3) P]. inversion W1; inversion W3; subst.
    assert (Hq : req_ok smax old) by (eapply u_ok_fits_req; eassumption).
    assert (Lg' : forall r, legal smax (EvResize (u_ptr u) old new r :: bw_trace w)).
    { intros r. split; [exact Lg|]. split; [exact Hq|]. split; [exact Hn|].
      exists u. split; [|split; [reflexivity|exact Hf]]. apply (Permutation_in u P). left; reflexivity. }
    rewrite Hq, Hn; cbn.
    destruct (base_own_remove amax w u us old Hown Hf) as (us' & E & PP). rewrite E.
    specialize (Hr (bw_trace w) (u_ptr u) old new).
    destruct (st_resize S (bw_trace w) (u_ptr u) old new) as [b|] eqn:E2.
    + destruct (Hr b us' eq_refl E) as (Hg & Hz & Hd). rewrite <- PP in Hd. split.
      * intros v x Hv Hx. cbn.
        rewrite Forall_forall in Hd. specialize (Hd v Hv x). unfold in_u in *; cbn in *.
        destruct ((b_ptr b <=? x) && (x <? b_ptr b + b_len b)) eqn:E3; [exfalso; lia|].
        apply fill_other. destruct W2 as [W2' _]. rewrite Forall_forall in W2'.
        specialize (W2' v Hv x). destruct Hf. unfold in_u in *. lia.
      * split; [exact Hg|]. split.
        -- split; [|apply Lg']. split; [|cbn; rewrite E; rewrite PP; reflexivity].
           destruct W2 as [_ W2]. split; [|split].
           ++ constructor; [eapply mkU_ok; eassumption|assumption].
           ++ split; assumption.
           ++ constructor; assumption.
        -- intros i Hi. destruct Hg as (_ & _ & Hlen & _). cbn.
           replace ((b_ptr b <=? b_ptr b + i) && (b_ptr b + i <? b_ptr b + b_len b)) with true by lia.
           replace (b_ptr b + i <? b_ptr b + l_size old) with true by lia.
           f_equal; lia.
    + split; [apply same_on_refl|]. split; [apply same_on_refl|]. split; [exact Hown|apply Lg'].
  - intros w us u old new [Hown Lg] Hf Hn Hle. unfold wp, base; cbn. unfold base_shrink.
    replace (l_size new <=? l_size old) with true by lia. unfold base_resize.
    pose proof Hown as [(W1 & W2 & W3) P]. inversion W1; inversion W3; subst.
    assert (Hq : req_ok smax old) by (eapply u_ok_fits_req; eassumption).
    assert (Lg' : forall r, legal smax (EvResize (u_ptr u) old new r :: bw_trace w)).
    { intros r. split; [exact Lg|]. split; [exact Hq|]. split; [exact Hn|].
      exists u. split; [|split; [reflexivity|exact Hf]]. apply (Permutation_in u P). left; reflexivity. }
    rewrite Hq, Hn; cbn.
    destruct (base_own_remove amax w u us old Hown Hf) as (us' & E & PP). rewrite E.
    specialize (Hr (bw_trace w) (u_ptr u) old new).
    destruct (st_resize S (bw_trace w) (u_ptr u) old new) as [b|] eqn:E2.
    + destruct (Hr b us' eq_refl E) as (Hg & Hz & Hd). rewrite <- PP in Hd. split.
      * intros v x Hv Hx. cbn.
        rewrite Forall_forall in Hd. specialize (Hd v Hv x). unfold in_u in *; cbn in *.
        destruct ((b_ptr b <=? x) && (x <? b_ptr b + b_len b)) eqn:E3; [exfalso; lia|].
        apply fill_other. destruct W2 as [W2' _]. rewrite Forall_forall in W2'.
        specialize (W2' v Hv x). destruct Hf. unfold in_u in *. lia.
      * split; [exact Hg|]. split.
        -- split; [|apply Lg']. split; [|cbn; rewrite E; rewrite PP; reflexivity].
           destruct W2 as [_ W2]. split; [|split].
           ++ constructor; [eapply mkU_ok; eassumption|assumption].
           ++ split; assumption.
           ++ constructor; assumption.
        -- intros i Hi. destruct Hg as (_ & _ & Hlen & _). cbn.
           replace ((b_ptr b <=? b_ptr b + i) && (b_ptr b + i <? b_ptr b + b_len b)) with true by lia.
           replace (b_ptr b + i <? b_ptr b + l_size new) with true by lia.
           f_equal; lia.
    + split; [apply same_on_refl|]. split; [apply same_on_refl|]. split; [exact Hown|apply Lg'].
Qed.
