(** Any allocator that meets the contract gives its clients independent buffers,
    for every history. *)
From Coq Require Import Permutation.
From Verif Require Import Base BaseFacts Alloc AllocFacts History.

Fixpoint live {T} (t : list (option T)) : list T :=
  match t with
  | [] => []
  | Some u :: t' => u :: live t'
  | None :: t' => live t'
  end.

Lemma live_app {T} (t1 t2 : list (option T)) : live (t1 ++ t2) = live t1 ++ live t2.
Proof. induction t1 as [|[u|] t1 IH]; cbn; rewrite ?IH; reflexivity. Qed.

Lemma live_none {T S} (t : list T) : live (map (fun _ => @None S) t) = [].
Proof. induction t; auto. Qed.

Lemma live_in {T} (t : list (option T)) u : In u (live t) <-> exists h, get h t = Some u.
Proof.
  induction t as [|x t IH]; cbn.
  - split; [tauto|]. intros [[|h] H]; discriminate.
  - assert (H : In u (live t) <-> exists h, get (S h) (x :: t) = Some u) by exact IH.
    destruct x as [v|]; cbn [In].
    + rewrite H. split.
      * intros [->|[h Hh]]; [exists O; reflexivity|exists (S h); exact Hh].
      * intros [[|h] Hh]; [left; inversion Hh; reflexivity|right; exists h; exact Hh].
    + rewrite H. split.
      * intros [h Hh]; exists (S h); exact Hh.
      * intros [[|h] Hh]; [discriminate|exists h; exact Hh].
Qed.

Lemma get_split {T} h (t : list (option T)) u :
  get h t = Some u -> exists t1 t2, t = t1 ++ Some u :: t2 /\ length t1 = h.
Proof.
  unfold get. destruct (nth_error t h) as [[v|]|] eqn:E; try discriminate.
  intros H; inversion H; subst v. apply nth_error_split in E.
  destruct E as (t1 & t2 & E & L). eauto.
Qed.

Lemma get_mid {T} (t1 t2 : list (option T)) u : get (length t1) (t1 ++ Some u :: t2) = Some u.
Proof. unfold get. rewrite nth_error_app2, Nat.sub_diag by lia. reflexivity. Qed.

Lemma set_nth_split {T} (t1 t2 : list T) x y : set_nth (length t1) y (t1 ++ x :: t2) = t1 ++ y :: t2.
Proof. induction t1 as [|z t1 IH]; cbn; [reflexivity|]. rewrite IH; reflexivity. Qed.

Lemma live_perm_mid {T} (t1 t2 : list (option T)) u :
  Permutation (live (t1 ++ Some u :: t2)) (u :: live (t1 ++ t2)).
Proof. rewrite !live_app. cbn. symmetry. apply Permutation_middle. Qed.

Lemma get_pairwise {T} (R : T -> T -> Prop) (Sym : forall x y, R x y -> R y x)
  (t : list (option T)) h1 h2 u1 u2 :
  pairwise R (live t) -> h1 <> h2 -> get h1 t = Some u1 -> get h2 t = Some u2 -> R u1 u2.
Proof.
  assert (Main : forall h1 h2 u1 u2, pairwise R (live t) -> (h1 < h2)%nat ->
            get h1 t = Some u1 -> get h2 t = Some u2 -> R u1 u2).
  { clear h1 h2 u1 u2. intros h1 h2 u1 u2 P L G1 G2.
    destruct (get_split _ _ _ G1) as (t1 & t2 & -> & <-).
    rewrite live_app in P. apply pairwise_app in P. destruct P as (_ & P & _).
    cbn in P. destruct P as [P _]. rewrite Forall_forall in P. apply P.
    apply live_in. exists (h2 - S (length t1))%nat. revert G2. unfold get.
    rewrite nth_error_app2 by lia. replace (h2 - length t1)%nat with (S (h2 - S (length t1))) by lia.
    auto. }
  intros P N G1 G2. destruct (Nat.lt_total h1 h2) as [L|[E|L]].
  - eapply Main; eassumption.
  - contradiction.
  - apply Sym. eapply Main; eassumption.
Qed.

(** ** Agreement with the buffers *)

Lemma agrees_length m t s : agrees m t s -> length t = length s.
Proof. intros H. induction H; cbn; congruence. Qed.

Lemma opt_agrees_same m m' us u b :
  same_on us m m' -> match u with Some u => In u us | None => True end ->
  opt_agrees m u b -> opt_agrees m' u b.
Proof.
  destruct u as [u|], b as [b|]; cbn; auto. intros S Hu (E1 & E2 & H).
  split; [exact E1|]. split; [exact E2|]. intros i c Hi Hc. rewrite <- (H i c Hi Hc).
  apply (S u); [exact Hu|]. unfold in_u. lia.
Qed.

Lemma agrees_same m m' t s us :
  incl (live t) us -> same_on us m m' -> agrees m t s -> agrees m' t s.
Proof.
  intros Hi Hs H. induction H as [|u b t s Hub H IH]; constructor.
  - apply (opt_agrees_same m m' us); auto. destruct u as [u|]; [|exact I].
    apply Hi. cbn. left. reflexivity.
  - apply IH. intros x Hx. apply Hi. destruct u; cbn; auto.
Qed.

Lemma agrees_none m m' t s :
  agrees m t s -> agrees m' (map (fun _ => None) t) (map (fun _ => None) s).
Proof. intros H. induction H; cbn; constructor; cbn; auto. Qed.

Lemma agrees_get m t s h u :
  agrees m t s -> get h t = Some u ->
  exists t1 t2 s1 s2 b, t = t1 ++ Some u :: t2 /\ s = s1 ++ Some b :: s2 /\
    length t1 = h /\ length s1 = h /\ buf_agrees m u b /\ agrees m t1 s1 /\ agrees m t2 s2.
Proof.
  intros H G. destruct (get_split _ _ _ G) as (t1 & t2 & -> & L).
  apply Forall2_app_inv_l in H. destruct H as (s1 & s2' & H1 & H2 & ->).
  inversion H2 as [|? b ? s2 Hb H2']; subst. destruct b as [b|]; [|destruct Hb].
  exists t1, t2, s1, s2, b. split; [reflexivity|]. split; [reflexivity|]. split; [reflexivity|].
  split; [symmetry; apply (agrees_length _ _ _ H1)|]. auto.
Qed.

Lemma agrees_get_none m t s h : agrees m t s -> get h t = None -> get h s = None.
Proof.
  intros H. revert h. induction H as [|u b t s Hub H IH]; intros h.
  - destruct h; auto.
  - destruct h as [|h]; [|apply IH]. cbn. destruct u, b; cbn in *; auto; try contradiction.
    discriminate.
Qed.

Section Main.
  Context {W : Type} (amax smax : Z) (A : Allocator W) (own : W -> list ublock -> Prop).
  Variable reset : bool -> M W unit.
  Hypothesis Hct : contract amax smax A own.
  Hypothesis Hreset : forall k w us, own w us -> wp (reset k) w (fun _ w' => own w' []).

  Definition hinv (st : cst W) (s : list (option sbuf)) : Prop :=
    own (c_w st) (live (c_tab st)) /\ agrees (al_mem A (c_w st)) (c_tab st) s.

  Lemma call_ok {B} (m : M W B) f st (Q : B -> cst W -> Prop) :
    wp m (c_w st) (fun b w' => Q b (mkCst (f b (c_tab st)) w')) -> wp (call m f) st Q.
  Proof. unfold wp, call. destruct (m (c_w st)); auto. Qed.

  Lemma own_write w us u off cs :
    own w (u :: us) -> 0 <= off -> off + Z.of_nat (length cs) <= u_len u ->
    let m' := write_cells (al_mem A w) (u_ptr u + off) cs in
    own (al_set_mem A w m') (u :: us) /\ same_on us (al_mem A w) m'.
  Proof.
    intros Ho H1 H2 m'. split.
    - apply (ct_write _ _ _ _ Hct); [exact Ho|]. intros x Hx. apply write_cells_other.
      specialize (Hx u (or_introl eq_refl)). unfold in_u in Hx. lia.
    - intros v x Hv Hx. apply write_cells_other.
      destruct (ct_wf _ _ _ _ Hct _ _ Ho) as [_ [Hd _]]. rewrite Forall_forall in Hd.
      specialize (Hd v Hv x). unfold in_u in *. lia.
  Qed.

  Lemma own_fill w us u c :
    own w (u :: us) ->
    let m' := fill (al_mem A w) (u_ptr u) (u_len u) c in
    own (al_set_mem A w m') (u :: us) /\ same_on us (al_mem A w) m'.
  Proof.
    intros Ho m'. split.
    - apply (ct_write _ _ _ _ Hct); [exact Ho|]. intros x Hx. apply fill_other.
      specialize (Hx u (or_introl eq_refl)). unfold in_u in Hx. lia.
    - intros v x Hv Hx. apply fill_other.
      destruct (ct_wf _ _ _ _ Hct _ _ Ho) as [_ [Hd _]]. rewrite Forall_forall in Hd.
      specialize (Hd v Hv x). unfold in_u in *. lia.
  Qed.

  (** [allocate] and [allocate_zeroed]. *)
  Lemma allocate_any_ok w us l (z : bool) :
    own w us -> req_ok smax l ->
    wp (if z then al_allocate_zeroed A l else al_allocate A l) w (fun r w' =>
      same_on us (al_mem A w) (al_mem A w') /\
      match r with
      | None => own w' us
      | Some b => good_block amax l b /\ own w' (mkU (b_ptr b) (b_len b) l :: us) /\
          (z = true -> forall i, 0 <= i < b_len b -> al_mem A w' (b_ptr b + i) = Byte 0)
      end).
  Proof.
    intros Ho Hl. pose proof (ct_allocate _ _ _ _ Hct w us l Ho Hl) as H.
    destruct z.
    - unfold al_allocate_zeroed. apply wp_bind. eapply wp_mono; [exact H|].
      intros [b|] w1 (S1 & R1).
      + destruct R1 as [G O1]. apply wp_bind, wp_mfill. apply wp_ret.
        destruct (own_fill _ _ _ (Byte 0) O1) as [O2 S2]. cbn [u_ptr u_len] in *.
        rewrite (ct_mem _ _ _ _ Hct). split; [eapply same_on_trans; eassumption|].
        split; [exact G|]. split; [exact O2|]. intros _ i Hi. apply fill_in. lia.
      + apply wp_ret. split; assumption.
    - eapply wp_mono; [exact H|]. intros [b|] w1 (S1 & R1); [|split; assumption].
      destruct R1 as [G O1]. split; [exact S1|]. split; [exact G|]. split; [exact O1|discriminate].
  Qed.

  Lemma grow_zeroed_ok w us u old new :
    own w (u :: us) -> fits old u -> req_ok smax new -> l_size old <= l_size new ->
    wp (al_grow_zeroed A (u_ptr u) old new) w (fun r w' =>
      same_on us (al_mem A w) (al_mem A w') /\
      match r with
      | None => same_on [u] (al_mem A w) (al_mem A w') /\ own w' (u :: us)
      | Some b =>
          good_block amax new b /\ own w' (mkU (b_ptr b) (b_len b) new :: us) /\
          forall i, 0 <= i < b_len b ->
            al_mem A w' (b_ptr b + i) =
            if i <? l_size old then al_mem A w (u_ptr u + i) else Byte 0
      end).
  Proof.
    intros Ho Hf Hn Hle. unfold al_grow_zeroed. apply wp_bind.
    eapply wp_mono; [apply (allocate_any_ok w (u :: us) new true Ho Hn)|].
    intros [b|] w1 (S1 & R1); [|apply wp_ret].
    2: { apply same_on_cons in S1. destruct S1. split; [assumption|]. split; assumption. }
    destruct R1 as (G & O1 & Z1). specialize (Z1 eq_refl).
    apply same_on_cons in S1. destruct S1 as [S1u S1].
    pose proof (ct_wf _ _ _ _ Hct _ _ O1) as [Wo Wd]. cbn [pairwise] in Wd.
    destruct Wd as (Wd1 & Wd2 & _). inversion Wd1 as [|? ? Dbu Db]; subst.
    inversion Wo as [|? ? _ Wo']; subst. inversion Wo' as [|? ? Uok _]; subst.
    destruct Uok as (_ & _ & Us). destruct Hf as [F1 F2]. destruct G as (G1 & G2 & G3 & G4).
    unfold disjoint_u, in_u in Dbu. cbn [u_ptr u_len] in Dbu.
    apply wp_bind, wp_mcopy; [|lia|].
    { pose proof (Dbu (b_ptr b)). pose proof (Dbu (u_ptr u)). lia. }
    set (m2 := copy (al_mem A w1) (u_ptr u) (b_ptr b) (l_size old)).
    assert (O2 : own (al_set_mem A w1 m2) (mkU (b_ptr b) (b_len b) new :: u :: us)).
    { apply (ct_write _ _ _ _ Hct); [exact O1|]. intros x Hx. apply copy_other.
      specialize (Hx _ (or_introl eq_refl)). unfold in_u in Hx; cbn in Hx. lia. }
    assert (S2 : same_on us (al_mem A w1) m2).
    { intros v x Hv Hx. apply copy_other. rewrite Forall_forall in Db. specialize (Db v Hv x).
      unfold in_u in *; cbn in Db. lia. }
    assert (O2' : own (al_set_mem A w1 m2) (u :: mkU (b_ptr b) (b_len b) new :: us)).
    { apply (ct_perm _ _ _ _ Hct _ _ _ O2). apply perm_swap. }
    apply wp_bind.
    eapply wp_mono; [apply (ct_deallocate _ _ _ _ Hct _ _ u old O2'); split; [exact F1|exact F2]|].
    intros _ w3 [S3 O3]. apply wp_ret. rewrite (ct_mem _ _ _ _ Hct) in S3.
    apply same_on_cons in S3. destruct S3 as [S3b S3]. split.
    { eapply same_on_trans; [exact S1|]. eapply same_on_trans; [exact S2|exact S3]. }
    split; [split; [exact G1|split; [exact G2|split; assumption]]|]. split; [exact O3|].
    intros i Hi. rewrite (S3b _ (b_ptr b + i) (or_introl eq_refl)) by (unfold in_u; cbn; lia).
    unfold m2. destruct (Z.ltb_spec i (l_size old)).
    - rewrite copy_in by lia. replace (u_ptr u + (b_ptr b + i - b_ptr b)) with (u_ptr u + i) by lia.
      apply (S1u u); [left; reflexivity|]. unfold in_u. lia.
    - rewrite copy_other by lia. apply Z1. lia.
  Qed.

  Lemma resize_any_ok w us u old new :
    own w (u :: us) -> fits old u -> req_ok smax new ->
    wp (if l_size old <=? l_size new then al_grow A (u_ptr u) old new
        else al_shrink A (u_ptr u) old new) w (fun r w' =>
      same_on us (al_mem A w) (al_mem A w') /\
      match r with
      | None => same_on [u] (al_mem A w) (al_mem A w') /\ own w' (u :: us)
      | Some b =>
          good_block amax new b /\ own w' (mkU (b_ptr b) (b_len b) new :: us) /\
          forall i, 0 <= i < Z.min (l_size old) (l_size new) ->
            al_mem A w' (b_ptr b + i) = al_mem A w (u_ptr u + i)
      end).
  Proof.
    intros Ho Hf Hn. destruct (Z.leb_spec (l_size old) (l_size new)).
    - eapply wp_mono; [apply (ct_grow _ _ _ _ Hct _ _ _ _ _ Ho Hf Hn); lia|].
      intros [b|] w'; [|auto]. intros (S1 & G & O & C). split; [exact S1|]. split; [exact G|].
      split; [exact O|]. intros i Hi. apply C. lia.
    - eapply wp_mono; [apply (ct_shrink _ _ _ _ Hct _ _ _ _ _ Ho Hf Hn); lia|].
      intros [b|] w'; [|auto]. intros (S1 & G & O & C). split; [exact S1|]. split; [exact G|].
      split; [exact O|]. intros i Hi. apply C. lia.
  Qed.

  (** Replacing a live block after a successful resize. *)
  Lemma hinv_replace w w' t1 t2 s1 s2 u' b' :
    own w' (u' :: live (t1 ++ t2)) ->
    same_on (live (t1 ++ t2)) (al_mem A w) (al_mem A w') ->
    agrees (al_mem A w) t1 s1 -> agrees (al_mem A w) t2 s2 ->
    buf_agrees (al_mem A w') u' b' ->
    hinv (mkCst (t1 ++ Some u' :: t2) w') (s1 ++ Some b' :: s2).
  Proof.
    intros Ho Hs H1 H2 Hb. split; cbn [c_tab c_w].
    - apply (ct_perm _ _ _ _ Hct _ _ _ Ho). symmetry. apply live_perm_mid.
    - apply Forall2_app; [|constructor; [exact Hb|]].
      + apply (agrees_same (al_mem A w) _ _ _ (live (t1 ++ t2))); auto.
        intros x Hx. rewrite live_app. apply in_or_app; auto.
      + apply (agrees_same (al_mem A w) _ _ _ (live (t1 ++ t2))); auto.
        intros x Hx. rewrite live_app. apply in_or_app; auto.
  Qed.

  Lemma step_any o st s :
    (forall k, o = OpReset k -> forall w us, own w us -> wp (reset k) w (fun _ w' => own w' [])) ->
    hinv st s ->
    wp (step smax A reset o) st (fun r st' => hinv st' (sstep o (option_map b_len r) s)).
  Proof.
    intros Hr [Ho Hag].
    change (wp (step_at smax A reset o (c_tab st)) st
      (fun r st' => hinv st' (sstep o (option_map b_len r) s))).
    unfold step_at. destruct o as [l z|h off cs|h l|h old new|h old new|keep].
    - (* allocate *)
      destruct (req_okb smax l) eqn:El.
      2: { cbn. split; assumption. }
      apply call_ok. eapply wp_mono; [apply (allocate_any_ok _ _ l z Ho El)|].
      intros [b|] w' (S1 & R1); cbn [on_ok option_map sstep].
      + destruct R1 as (G & O1 & Z1). split; cbn [c_tab c_w].
        * rewrite live_app. cbn. apply (ct_perm _ _ _ _ Hct _ _ _ O1). apply Permutation_cons_append.
        * apply Forall2_app.
          -- apply (agrees_same (al_mem A (c_w st)) _ _ _ (live (c_tab st))); auto. apply incl_refl.
          -- constructor; [|constructor]. split; [reflexivity|]. split; [reflexivity|]. cbn.
             intros i c Hi Hc. destruct z; [|discriminate]. inversion Hc. apply Z1; auto.
      + split; cbn [c_tab c_w]; [exact R1|].
        apply (agrees_same (al_mem A (c_w st)) _ _ _ (live (c_tab st))); auto. apply incl_refl.
    - (* write *)
      destruct (get h (c_tab st)) as [u|] eqn:G.
      2: { apply wp_ret. cbn [sstep option_map]. rewrite (agrees_get_none _ _ _ _ Hag G). split; assumption. }
      destruct (agrees_get _ _ _ _ _ Hag G) as (t1 & t2 & s1 & s2 & b & Et & Es & L1 & L2 & Hb & H1 & H2).
      cbn [sstep]. assert (Gs : get h s = Some b) by (rewrite Es, <- L2; apply get_mid).
      rewrite Gs. destruct Hb as (B1 & B2 & B3). rewrite <- B2.
      destruct ((0 <=? off) && (off + Z.of_nat (length cs) <=? u_len u)) eqn:E.
      2: { split; assumption. }
      apply andb_true_iff in E. destruct E as [E1 E2].
      assert (Ho' : own (c_w st) (u :: live (t1 ++ t2))).
      { apply (ct_perm _ _ _ _ Hct _ _ _ Ho). rewrite Et. apply live_perm_mid. }
      destruct (own_write _ _ _ off cs Ho') as [O2 S2]; [lia|lia|]. cbv zeta in O2, S2.
      cbn [option_map]. unfold wp. rewrite Et, Es, <- L2, set_nth_split.
      refine (hinv_replace (c_w st) _ t1 t2 s1 s2 u _ O2 _ H1 H2 _).
      + rewrite (ct_mem _ _ _ _ Hct). exact S2.
      + rewrite (ct_mem _ _ _ _ Hct).
        split; [exact B1|]. split; [reflexivity|]. cbn [s_at s_len]. intros i c Hi.
        unfold write_cells. destruct (Z.leb_spec off i); destruct (Z.ltb_spec i (off + Z.of_nat (length cs))); cbn [andb].
        * replace ((u_ptr u + off <=? u_ptr u + i) && (u_ptr u + i <? u_ptr u + off + Z.of_nat (length cs))) with true by lia.
          replace (u_ptr u + i - (u_ptr u + off)) with (i - off) by lia. congruence.
        * replace ((u_ptr u + off <=? u_ptr u + i) && (u_ptr u + i <? u_ptr u + off + Z.of_nat (length cs))) with false by lia.
          intros Hc; apply B3; [lia|exact Hc].
        * replace ((u_ptr u + off <=? u_ptr u + i) && (u_ptr u + i <? u_ptr u + off + Z.of_nat (length cs))) with false by lia.
          intros Hc; apply B3; [lia|exact Hc].
        * lia.
    - (* deallocate *)
      destruct (get h (c_tab st)) as [u|] eqn:G.
      2: { apply wp_ret. cbn [sstep option_map]. rewrite (agrees_get_none _ _ _ _ Hag G). split; assumption. }
      destruct (agrees_get _ _ _ _ _ Hag G) as (t1 & t2 & s1 & s2 & b & Et & Es & L1 & L2 & Hb & H1 & H2).
      cbn [sstep]. assert (Gs : get h s = Some b) by (rewrite Es, <- L2; apply get_mid).
      rewrite Gs. destruct Hb as (B1 & B2 & B3).
      assert (Ef : s_fits l b = fitsb l u) by (unfold s_fits, fitsb; rewrite B1, B2; reflexivity).
      rewrite Ef. destruct (fitsb l u) eqn:E.
      2: { split; assumption. }
      apply fitsb_spec in E.
      assert (Ho' : own (c_w st) (u :: live (t1 ++ t2))).
      { apply (ct_perm _ _ _ _ Hct _ _ _ Ho). rewrite Et. apply live_perm_mid. }
      apply wp_bind. apply call_ok. eapply wp_mono; [apply (ct_deallocate _ _ _ _ Hct _ _ _ _ Ho' E)|].
      intros _ w' [S1 O1]. apply wp_ret. rewrite Et, Es. rewrite <- L2 at 2.
      rewrite <- L1. rewrite !set_nth_split. split; cbn [c_tab c_w].
      + rewrite live_app in *. exact O1.
      + apply Forall2_app; [|constructor; [exact I|]].
        * apply (agrees_same (al_mem A (c_w st)) _ _ _ (live (t1 ++ t2))); auto.
          intros x Hx. rewrite live_app. apply in_or_app; auto.
        * apply (agrees_same (al_mem A (c_w st)) _ _ _ (live (t1 ++ t2))); auto.
          intros x Hx. rewrite live_app. apply in_or_app; auto.
    - (* resize *)
      destruct (get h (c_tab st)) as [u|] eqn:G.
      2: { cbn. split; assumption. }
      destruct (agrees_get _ _ _ _ _ Hag G) as (t1 & t2 & s1 & s2 & b & Et & Es & L1 & L2 & Hb & H1 & H2).
      assert (Gs : get h s = Some b) by (rewrite Es, <- L2; apply get_mid).
      destruct (fitsb old u && req_okb smax new) eqn:E.
      2: { cbn. split; assumption. }
      apply andb_true_iff in E. destruct E as [E1 E2]. apply fitsb_spec in E1.
      assert (Ho' : own (c_w st) (u :: live (t1 ++ t2))).
      { apply (ct_perm _ _ _ _ Hct _ _ _ Ho). rewrite Et. apply live_perm_mid. }
      pose proof Hb as (B1 & B2 & B3).
      apply call_ok. eapply wp_mono; [apply (resize_any_ok _ _ _ _ _ Ho' E1 E2)|].
      intros [b'|] w' (S1 & R1); cbn [on_ok option_map sstep].
      + rewrite Gs. destruct R1 as (Gd & O1 & C1). rewrite Et, Es. rewrite <- L2 at 2.
        rewrite <- L1. rewrite !set_nth_split.
        refine (hinv_replace (c_w st) w' t1 t2 s1 s2 _ _ O1 S1 H1 H2 _).
        split; [reflexivity|]. split; [reflexivity|]. cbn [s_at s_len u_ptr]. intros i c Hi.
        destruct (Z.ltb_spec i (Z.min (l_size old) (l_size new))); [|discriminate].
        intros Hc. rewrite C1 by lia. apply B3; [|exact Hc]. destruct E1 as [_ F]. lia.
      + destruct R1 as [S2 O1]. rewrite Et, Es.
        apply (hinv_replace (c_w st)); auto.
        apply (opt_agrees_same (al_mem A (c_w st)) _ [u] (Some u) (Some b)); auto. left; reflexivity.
    - (* grow_zeroed *)
      destruct (get h (c_tab st)) as [u|] eqn:G.
      2: { cbn. split; assumption. }
      destruct (agrees_get _ _ _ _ _ Hag G) as (t1 & t2 & s1 & s2 & b & Et & Es & L1 & L2 & Hb & H1 & H2).
      assert (Gs : get h s = Some b) by (rewrite Es, <- L2; apply get_mid).
      destruct (fitsb old u && req_okb smax new && (l_size old <=? l_size new)) eqn:E.
      2: { cbn. split; assumption. }
      apply andb_true_iff in E. destruct E as [E E3].
      apply andb_true_iff in E. destruct E as [E1 E2]. apply fitsb_spec in E1.
      assert (Ho' : own (c_w st) (u :: live (t1 ++ t2))).
      { apply (ct_perm _ _ _ _ Hct _ _ _ Ho). rewrite Et. apply live_perm_mid. }
      pose proof Hb as (B1 & B2 & B3).
      apply call_ok. eapply wp_mono; [apply (grow_zeroed_ok _ _ _ _ _ Ho' E1 E2); lia|].
      intros [b'|] w' (S1 & R1); cbn [on_ok option_map sstep].
      + rewrite Gs. destruct R1 as (Gd & O1 & C1). rewrite Et, Es. rewrite <- L2 at 2.
        rewrite <- L1. rewrite !set_nth_split.
        refine (hinv_replace (c_w st) w' t1 t2 s1 s2 _ _ O1 S1 H1 H2 _).
        split; [reflexivity|]. split; [reflexivity|]. cbn [s_at s_len u_ptr]. intros i c Hi Hc.
        rewrite C1 by lia. destruct (Z.ltb_spec i (l_size old)); [|congruence].
        apply B3; [|exact Hc]. destruct E1 as [_ F]. lia.
      + destruct R1 as [S2 O1]. rewrite Et, Es.
        apply (hinv_replace (c_w st)); auto.
        apply (opt_agrees_same (al_mem A (c_w st)) _ [u] (Some u) (Some b)); auto. left; reflexivity.
    - (* reset *)
      apply wp_bind. apply call_ok. eapply wp_mono; [apply (Hr keep eq_refl _ _ Ho)|].
      intros a w' O1. apply wp_ret. cbn [sstep]. split; cbn [c_tab c_w].
      + rewrite live_none. exact O1.
      + apply (agrees_none _ _ _ _ Hag).
  Qed.

  Lemma step_ok o st s :
    hinv st s ->
    wp (step smax A reset o) st (fun r st' => hinv st' (sstep o (option_map b_len r) s)).
  Proof. apply step_any. intros k _. apply Hreset. Qed.

  Theorem run_ok ops : forall st s, hinv st s ->
    wp (run smax A reset ops) st (fun rs st' =>
      length rs = length ops /\ hinv st' (srun ops (map (option_map b_len) rs) s)).
  Proof.
    induction ops as [|o ops IH]; intros st s H; cbn [run srun].
    - apply wp_ret. split; [reflexivity|exact H].
    - apply wp_bind. eapply wp_mono; [apply (step_ok o st s H)|]. intros r st1 H1.
      apply wp_bind. eapply wp_mono; [apply (IH st1 _ H1)|]. intros rs st2 [L H2].
      apply wp_ret. cbn [length map srun]. split; [lia|exact H2].
  Qed.
End Main.
